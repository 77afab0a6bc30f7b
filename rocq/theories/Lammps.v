(** parse.LammpsTextMDOutputFile (/repo/src/pwtools/parse.py 2122-2466): the getters that read
    the dump file and the thermo output.  The files exist; a file is the list of its lines.
    [parse] is the reading of one number (np.fromstring, np.loadtxt); real arithmetic stands for
    floats.  The outer None is an exception; getters that return None give Some None. *)
From Coq Require Import Ascii String List Arith Bool Reals ZArith.
From Verif Require Import Comb Template ArrayIO Grep Vec3.
Import ListNotations.
Local Open Scope list_scope.
Local Notation length := List.length.
Section READ.
Variable parse : pstr -> option R.
Definition s_timestep := text "ITEM: TIMESTEP".
Definition s_natoms := text "ITEM: NUMBER OF ATOMS".
Definition s_box := text "ITEM: BOX BOUNDS".
Definition s_atoms := text "ITEM: ATOMS".
Definition s_junk := [text "--"; text "ITEM"].
(** np.fromstring(txt, sep=' '): numbers separated by white space.  Simplified: text that is
    not a number ends the reading with a warning there, here it is an error. *)
Definition fromstring (lines : list pstr) : option (list R) := opt_map parse (concat (map (split_ws []) lines)).
(** reshape((a, b)) of a flat list: [b] items per row *)
Fixpoint chunk {A} (b n : nat) (l : list A) : list (list A) :=
  match n with O => [] | S n => firstn b l :: chunk b n (skipn b l) end.
Definition reshape {A} (n b : nat) (l : list A) : option (list (list A)) :=
  if (length l =? n * b)%nat then Some (chunk b n l) else None.
(** 2317-2322; nstep_from_txt 166-170: '' is 0 *)
Definition get_natoms (dump : list pstr) : option nat :=
  match rev (grep_m1_after 1 s_natoms dump) with
  | [] => Some O
  | l :: _ => match strip l with [] => Some O | t => match read_int t with Some z => if (z <? 0)%Z then None else Some (Z.to_nat z) | None => None end end
  end.
(** 2285-2301: the columns of the dump, as the rows of the 2d array and the names *)
Definition dump_dct (dump : list pstr) : option (nat * list pstr * list (list R)) :=
  match get_natoms dump with
  | None => None
  | Some natoms =>
    let nstep := grep_c s_timestep dump in
    let header := concat (map (fun l => split_ws [] (sed_drop (text "TOMS ") l)) (grep_m1 s_atoms dump)) in
    match fromstring (egrep_v s_junk (grep_after natoms s_atoms dump)) with
    | None => None
    | Some nums =>
      match reshape (nstep * natoms) (length header) nums with
      | None => None
      | Some arr => if (natoms =? 0)%nat then None else Some (natoms, header, arr)
      end
    end
  end.
(** dict((x, arr[:,ii]) for ii,x in enumerate(header)): of columns with one name the last wins *)
Fixpoint col_index (key : pstr) (header : list pstr) (i : nat) (found : option nat) : option nat :=
  match header with
  | [] => found
  | h :: rest => col_index key rest (S i) (if pstr_eqb h key then Some i else found)
  end.
Definition column (key : pstr) (header : list pstr) (arr : list (list R)) : option (list R) :=
  match col_index key header 0 None with Some i => Some (map (fun row => nth i row 0%R) arr) | None => None end.
(** 2303-2315: np.array([x,y,z]).T.reshape((nstep,natoms,3)) *)
Definition dump2arr3d (d : nat * list pstr * list (list R)) (kx ky kz : pstr) : option (list (list vec)) :=
  let '(natoms, header, arr) := d in
  match column kx header arr, column ky header arr, column kz header arr with
  | Some x, Some y, Some z =>
    let rows := map (fun q => Vec (fst (fst q)) (snd (fst q)) (snd q)) (combine (combine x y) z) in
    Some (chunk natoms (length x / natoms) rows)
  | _, _, _ => None
  end.
Definition getter (kx ky kz : string) (dump : list pstr) : option (option (list (list vec))) :=
  match dump_dct dump with None => None | Some d => Some (dump2arr3d d (text kx) (text ky) (text kz)) end.
Definition get_coords_frac := getter "xsu" "ysu" "zsu".       (* 2378-2383 *)
Definition get_coords := getter "xu" "yu" "zu".               (* 2385-2390 *)
Definition get_forces := getter "fx" "fy" "fz".               (* 2392-2397 *)
Definition get_velocity := getter "vx" "vy" "vz".             (* 2399-2404 *)
Local Open Scope R_scope.
(** 2444-2464 for one frame: rows xlo xhi xy / ylo yhi xz / zlo zhi yz.  Python's min and max
    of several numbers. *)
Definition min4 (a b c d : R) : R := Rmin (Rmin (Rmin a b) c) d.
Definition max4 (a b c d : R) : R := Rmax (Rmax (Rmax a b) c) d.
Definition frame_cell (n : list R) : mat :=
  let at_ i j := nth (3 * i + j)%nat n 0 in
  let xlo_bound := at_ 0%nat 0%nat in let xhi_bound := at_ 0%nat 1%nat in
  let ylo_bound := at_ 1%nat 0%nat in let yhi_bound := at_ 1%nat 1%nat in
  let zlo := at_ 2%nat 0%nat in let zhi := at_ 2%nat 1%nat in
  let xy := at_ 0%nat 2%nat in let xz := at_ 1%nat 2%nat in let yz := at_ 2%nat 2%nat in
  let xlo := xlo_bound - min4 0 xy xz (xy + xz) in
  let xhi := xhi_bound - max4 0 xy xz (xy + xz) in
  let ylo := ylo_bound - Rmin 0 yz in
  let yhi := yhi_bound - Rmax 0 yz in
  Mat (Vec (xhi - xlo) 0 0) (Vec xy (yhi - ylo) 0) (Vec xz yz (zhi - zlo)).
(** 2433-2466 *)
Definition get_cell (dump : list pstr) : option (list mat) :=
  let nstep := grep_c s_box dump in
  match fromstring (egrep_v s_junk (grep_after 3 s_box dump)) with
  | Some nums => match reshape nstep 9 nums with Some frames => Some (map frame_cell frames) | None => None end
  | None => None
  end.
(** ** Thermo output in log.lammps: 2254-2283.  arr2d_from_txt (208-213) is None for text without
    data; then taking columns raises. *)
Definition s_step := text "Step".
Definition s_loop := text "Loop".
Definition same_length (rows : list (list pstr)) : bool :=
  match rows with [] => true | r :: rest => forallb (fun s => (length s =? length r)%nat) rest end.
Definition thermo_dct (log : list pstr) : option (list pstr * list (list R)) :=
  let header := concat (map (split_ws []) (grep_m1 s_step log)) in
  let rows := List.filter (fun r => negb (length r =? 0)%nat)
                (map (split_ws []) (egrep_v [s_step; s_loop] (sed_range s_step s_loop false log))) in
  match rows with
  | [] => None
  | r :: _ =>
    if same_length rows && (length header <=? length r)%nat then
      match opt_map (opt_map parse) rows with Some arr => Some (header, arr) | None => None end
    else None
  end.
(** 2336-2363 *)
Definition thermo_get (key : string) (log : list pstr) : option (option (list R)) :=
  match thermo_dct log with None => None | Some (h, a) => Some (column (text key) h a) end.
Definition get_etot := thermo_get "PotEng".
Definition get_ekin := thermo_get "KinEng".
Definition get_temperature := thermo_get "Temp".
Definition get_volume := thermo_get "Volume".
(** 2324-2334, crys.voigt2tensor3d (crys.py 3405-3429) *)
Definition columns (keys : list string) (h : list pstr) (a : list (list R)) : option (list (list R)) :=
  opt_map (fun k => column (text k) h a) keys.
Fixpoint transpose_n (n i : nat) (cols : list (list R)) : list (list R) :=
  match n with O => [] | S n => map (fun c => nth i c 0) cols :: transpose_n n (S i) cols end.
Definition tensor_of_voigt (v : list R) : mat :=
  let e i := nth i v 0 in Mat (Vec (e 0%nat) (e 5%nat) (e 4%nat)) (Vec (e 5%nat) (e 1%nat) (e 3%nat)) (Vec (e 4%nat) (e 3%nat) (e 2%nat)).
Definition get_stress (log : list pstr) : option (option (list mat)) :=
  match thermo_dct log with
  | None => None
  | Some (h, a) =>
    Some (match columns ["Pxx"; "Pyy"; "Pzz"; "Pyz"; "Pxz"; "Pxy"]%string h a with
          | Some cols => Some (map tensor_of_voigt (transpose_n (length a) 0 cols))
          | None => None
          end)
  end.
(** 2365-2376 *)
Definition get_cryst_const (log : list pstr) : option (option (list (list R))) :=
  match thermo_dct log with
  | None => None
  | Some (h, a) =>
    Some (match columns ["Cella"; "Cellb"; "Cellc"; "CellAlpha"; "CellBeta"; "CellGamma"]%string h a with
          | Some cols => Some (transpose_n (length a) 0 cols)
          | None => None
          end)
  end.
End READ.
