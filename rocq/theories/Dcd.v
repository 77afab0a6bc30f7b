(** Model of the readers for DCD trajectory files: src/pwtools/dcd.py (numpy readers) and
    src/_ext_src/dcd.f90 (Fortran reader used by [read_dcd_data_f]).

    A file is a list of bytes, each an integer.  Floating-point words are never computed with, so a
    word is the list of its bytes: eight for a float64, four for a float32.  [convang] turns a cosine
    into degrees; this is the parameter [deg], the same in all readers.
    An exception (or a Fortran [stop] / runtime error) is [None]. *)
From Coq Require Import List ZArith Bool String Lia.
Import ListNotations.
Local Open Scope list_scope.
Local Notation length := List.length.

(** The bytes of a file, and a floating-point word. *)
Definition bytes := list Z.
Definition word := list Z.

(** Little-endian integers of four bytes, numpy dtype 'i4' / Fortran integer: dcd.py lines 7-11 and
    dcd.f90 lines 5-10 (only little-endian machines). *)
Definition i4 (w : word) : Z :=
  let u := (nth 0 w 0 + 256 * (nth 1 w 0 + 256 * (nth 2 w 0 + 256 * nth 3 w 0)))%Z in
  if (u <? 2147483648)%Z then u else (u - 4294967296)%Z.

(** [n] consecutive items of [k] bytes each. *)
Fixpoint chunks (k n : nat) (l : bytes) : list word :=
  match n with
  | O => []
  | S n' => firstn k l :: chunks k n' (skipn k l)
  end.

(** A numpy structured dtype: name, size of one item in bytes, number of items. *)
Definition dtype := list (string * nat * nat).

Fixpoint itemsize (dt : dtype) : nat :=
  match dt with
  | [] => 0
  | (_, sz, c) :: dt' => sz * c + itemsize dt'
  end.

Fixpoint field (dt : dtype) (name : string) (l : bytes) : list word :=
  match dt with
  | [] => []
  | (nm, sz, c) :: dt' =>
      if String.eqb nm name then chunks sz c l else field dt' name (skipn (sz * c) l)
  end.

Local Open Scope string_scope.

(** dcd.py lines 42-57, HEADER_TYPES *)
Definition header_types : dtype :=
  [ ("blk0-0", 4, 1); ("hdr", 4, 1); ("9int", 4, 9); ("timestep", 4, 1); ("10int", 4, 10);
    ("blk0-1", 4, 1); ("blk1-0", 4, 1); ("ntitle", 4, 1); ("remark1", 80, 1); ("remark2", 80, 1);
    ("blk1-1", 4, 1); ("blk2-0", 4, 1); ("natoms", 4, 1); ("blk2-1", 4, 1) ].

(** dcd.py lines 111-124, the dtype of one time step in [read_dcd_data_ref] *)
Definition ref_types (natoms : nat) : dtype :=
  [ ("blk0-0", 4, 1); ("cryst_const_dcd", 8, 6); ("bkl0-1", 4, 1);
    ("blkx-0", 4, 1); ("x", 4, natoms); ("blkx-1", 4, 1);
    ("blky-0", 4, 1); ("y", 4, natoms); ("blky-1", 4, 1);
    ("blkz-0", 4, 1); ("z", 4, natoms); ("blkz-1", 4, 1) ].

(** dcd.py lines 199-209, the dtype of one time step in [read_dcd_data] *)
Definition data_types (natoms : nat) : dtype :=
  [ ("x0", 4, 1); ("x1", 8, 6); ("x2", 4, 2); ("x3", 4, natoms); ("x4", 4, 2);
    ("x5", 4, natoms); ("x6", 4, 2); ("x7", 4, natoms); ("x8", 4, 1) ].

Local Close Scope string_scope.

(** dcd.py lines 107, 183: read the header, give the number of atoms and the rest of the file.  An
    incomplete header makes [np.fromfile] return no item, and [[0]] an IndexError. *)
Definition read_header (l : bytes) : option (Z * bytes) :=
  if length l <? itemsize header_types then None
  else Some (i4 (nth 0 (field header_types "natoms" l) []), skipn (itemsize header_types) l).

Section Readers.
Variable deg : word -> word.    (* np.arccos(c)*180.0/np.pi *)

(** dcd.py lines 147-148, 221-222: [cryst_const[:,3:] = np.arccos(...)] *)
Definition convert_row (convang : bool) (row : list word) : list word :=
  if convang then firstn 3 row ++ map deg (skipn 3 row) else row.

(** dcd.py lines 134-139, 212-217: order of the six numbers of the cell *)
Definition cell_row (c : list word) : list word :=
  [nth 0 c []; nth 2 c []; nth 5 c []; nth 4 c []; nth 3 c []; nth 1 c []].

(** dcd.py lines 131-133, 218-220: [coords[:,0] = x] and so on, an array of [natoms] rows *)
Definition coord_rows (natoms : nat) (x y z : list word) : list (list word) :=
  map (fun i => [nth i x []; nth i y []; nth i z []]) (seq 0 natoms).

(** dcd.py lines 127-144: [while True] read one record, stop at the first incomplete one.  [fuel]
    bounds the number of turns; [None] when it runs out, which never happens for the fuel used. *)
Fixpoint ref_loop (fuel natoms : nat) (l : bytes) : option (list (list word) * list (list (list word))) :=
  match fuel with
  | O => None
  | S fuel' =>
      if length l <? itemsize (ref_types natoms) then Some ([], [])
      else
        let dt := ref_types natoms in
        match ref_loop fuel' natoms (skipn (itemsize dt) l) with
        | None => None
        | Some (cc, co) =>
            Some (cell_row (field dt "cryst_const_dcd" l) :: cc,
                  coord_rows natoms (field dt "x" l) (field dt "y" l) (field dt "z" l) :: co)
        end
  end.

(** dcd.py lines 81-150, [read_dcd_data_ref].  A negative number of atoms makes [np.dtype] raise.
    Without any time step the array of cells is [np.array([])], and [cryst_const[:,3:]] raises. *)
Definition read_dcd_data_ref (l : bytes) (convang : bool)
    : option (list (list word) * list (list (list word))) :=
  match read_header l with
  | None => None
  | Some (natoms, rest) =>
      if (natoms <? 0)%Z then None
      else
        match ref_loop (S (length rest)) (Z.to_nat natoms) rest with
        | None => None
        | Some ([], co) => if convang then None else Some ([], co)
        | Some (cc, co) => Some (map (convert_row convang) cc, co)
        end
  end.

(** dcd.py lines 153-224, [read_dcd_data].  [nstep] is computed by a division of floating-point
    numbers; theorem [C49_frame_count] shows that for files below 2^53 bytes the test [nstep % 1.0
    == 0.0] is exact divisibility, which is what is used here.  The bytes per time step are the
    expression of line 195; the product [3*4*natoms] is assumed not to overflow an int32.
    [np.fromfile] raises when the items are of size zero ([nstep] is 0). *)
Definition read_dcd_data (l : bytes) (convang : bool)
    : option (list (list word) * list (list (list word))) :=
  match read_header l with
  | None => None
  | Some (natoms, rest) =>
      if (natoms <? 0)%Z then None
      else
        let n := Z.to_nat natoms in
        let per_step := 4 + 6*8 + 7*4 + 3*4*n in
        let fd_rest := length rest in
        if negb (fd_rest mod per_step =? 0) then None      (* the assertion *)
        else
          let nstep := fd_rest / per_step in
          let dt := data_types n in
          if itemsize dt * nstep =? 0 then None
          else if fd_rest <? itemsize dt * nstep then None  (* arr is empty: arr['x1'][0] raises *)
          else
            let arr := chunks (itemsize dt) nstep rest in
            Some (map (fun b => convert_row convang (cell_row (field dt "x1" b))) arr,
                  map (fun b => coord_rows n (field dt "x3" b) (field dt "x5" b) (field dt "x7" b)) arr)
  end.

(** ** The Fortran reader *)

(** [read(unt) items] on a sequential unformatted file: a record is a length marker, the payload and
    the marker again.  Reading at the end of the file sets [iostat] negative; anything else wrong is
    an error.  Simplification: records of more than 2^31-9 bytes (split into subrecords) are left
    out. *)
Inductive status := Ok (payload rest : bytes) | Eof | Err.

Definition fread (want : nat) (l : bytes) : status :=
  match l with
  | [] => Eof
  | _ =>
      let len := Z.to_nat (i4 (firstn 4 l)) in
      if (i4 (firstn 4 l) <? 0)%Z then Err
      else if length l <? 8 + len then Err
      else if negb (i4 (firstn 4 (skipn (4 + len) l)) =? i4 (firstn 4 l))%Z then Err
      else if len <? want then Err
      else Ok (firstn len (skipn 4 l)) (skipn (8 + len) l)
  end.

(** a [read] without [iostat]: any failure ends the program *)
Definition fread_stop (want : nat) (l : bytes) : option (bytes * bytes) :=
  match fread want l with Ok p r => Some (p, r) | _ => None end.

(** a [read] whose [iostat] is never looked at.  Simplification: after a failure nothing is left to
    read. *)
Definition fread_ignore (want : nat) (l : bytes) : bytes :=
  match fread want l with Ok _ r => r | _ => [] end.

(** dcd.f90 lines 31-119, [read_dcd_header_from_unit]: (nstep, natoms) and the rest; the third word
    of the first record is [istrt] and so on, not used *)
Definition header_f (l : bytes) : option (Z * Z * bytes) :=
  match fread_stop 84 l with
  | None => None
  | Some (p1, l1) =>
      match fread_stop 164 l1 with
      | None => None
      | Some (_, l2) =>
          match fread_stop 4 l2 with
          | None => None
          | Some (p3, l3) => Some (i4 (nth 1 (chunks 4 2 p1) []), i4 (nth 0 (chunks 4 1 p3) []), l3)
          end
      end
  end.

(** dcd.f90 lines 291-311: walk through the file and count the cell records.  [fuel] bounds the
    number of turns. *)
Fixpoint walk (fuel : nat) (natoms : nat) (nstep : nat) (l : bytes) : option nat :=
  match fuel with
  | O => None
  | S fuel' =>
      match fread 48 l with
      | Eof => Some nstep
      | Err => None
      | Ok _ r =>
          walk fuel' natoms (S nstep)
            (fread_ignore (4*natoms) (fread_ignore (4*natoms) (fread_ignore (4*natoms) r)))
      end
  end.

(** dcd.f90 lines 247-317, [get_dcd_file_info]; [allocate] with a negative size gives an empty array *)
Definition get_dcd_file_info (l : bytes) (nstephdr : bool) : option (Z * Z) :=
  match header_f l with
  | None => None
  | Some (nstep, natoms, rest) =>
      match (if nstephdr then Some nstep
             else option_map Z.of_nat (walk (S (length rest)) (Z.to_nat natoms) 0 rest)) with
      | None => None
      | Some ns => if (0 <? ns)%Z then Some (ns, natoms) else None
      end
  end.

(** dcd.f90 lines 122-197, [read_dcd_data_from_unit] *)
Fixpoint data_f (nstep natoms : nat) (convang : bool) (l : bytes)
    : option (list (list word) * list (list (list word))) :=
  match nstep with
  | O => Some ([], [])
  | S nstep' =>
      match fread_stop 48 l with
      | None => None
      | Some (c, l1) =>
          match fread_stop (4*natoms) l1 with
          | None => None
          | Some (x, l2) =>
              match fread_stop (4*natoms) l2 with
              | None => None
              | Some (y, l3) =>
                  match fread_stop (4*natoms) l3 with
                  | None => None
                  | Some (z, l4) =>
                      match data_f nstep' natoms convang l4 with
                      | None => None
                      | Some (cc, co) =>
                          let cd := chunks 8 6 c in
                          let cv w := if convang then deg w else w in
                          Some ([nth 0 cd []; nth 2 cd []; nth 5 cd [];
                                 cv (nth 4 cd []); cv (nth 3 cd []); cv (nth 1 cd [])] :: cc,
                                coord_rows natoms (chunks 4 natoms x) (chunks 4 natoms y)
                                  (chunks 4 natoms z) :: co)
                      end
                  end
              end
          end
      end
  end.

(** dcd.py lines 227-256, [read_dcd_data_f], with dcd.f90 lines 200-241, [read_dcd_data] *)
Definition read_dcd_data_f (l : bytes) (convang nstephdr : bool)
    : option (list (list word) * list (list (list word))) :=
  match get_dcd_file_info l nstephdr with
  | None => None
  | Some (nstep, natoms) =>
      if negb (0 <? natoms)%Z || negb (0 <? nstep)%Z then None
      else
        match header_f l with
        | None => None
        | Some (_, _, rest) => data_f (Z.to_nat nstep) (Z.to_nat natoms) convang rest
        end
  end.

End Readers.
