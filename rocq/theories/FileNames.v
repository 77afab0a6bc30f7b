(** Model of decorators.open_and_close (src/pwtools/decorators.py 8-68) and of files given by name or as
    object to arrayio.readtxt and writetxt (src/pwtools/arrayio.py 17-205).
    Files that are not closed by the code stay open; the garbage collector is not modelled. *)
From Coq Require Import Ascii String List ZArith Bool Arith.
From Verif Require Import Comb Traj Nd ArrayIO.
Import ListNotations.
Local Open Scope list_scope.
Local Open Scope nat_scope.
Local Notation length := List.length.

(** a file on disk: lines of text, or these lines compressed *)
Inductive file := Plain (lines : list pstr) | Zipped (lines : list pstr).
(** what next(fh) gives: str, bytes, or an exception (text read by gzip; compressed data read as text) *)
Inductive kind := KText | KBytes | KBroken.
Record handle := Handle { h_lines : list pstr; h_kind : kind; h_pos : nat; h_open : bool }.
Record world := World { disk : pstr -> option file; hs : list handle }.
Definition set_disk (w : world) (fn : pstr) (f : file) : world := World (fun n => if pstr_eqb n fn then Some f else disk w n) (hs w).
Definition set_h (w : world) (i : nat) (h : handle) : world := World (disk w) (firstn i (hs w) ++ h :: skipn (S i) (hs w)).
Definition add_h (w : world) (h : handle) : world * nat := (World (disk w) (hs w ++ [h]), length (hs w)).
Definition seek (h : handle) (p : nat) : handle := Handle (h_lines h) (h_kind h) p (h_open h).
(** fh.close() *)
Definition close (w : world) (i : nat) : world :=
  match nth_error (hs w) i with Some h => set_h w i (Handle (h_lines h) (h_kind h) (h_pos h) false) | None => w end.
(** fn.endswith('.gz') *)
Definition ends_gz (fn : pstr) : bool := (3 <=? length fn) && pstr_eqb (skipn (length fn - 3) fn) (text ".gz").
(** 45-49: gzip.open(fn, 'r') gives bytes, open(fn, 'r') str *)
Definition open_name (w : world) (fn : pstr) : option (world * nat) :=
  match disk w fn with
  | None => None
  | Some f =>
    Some (add_h w (if ends_gz fn
      then match f with Zipped l => Handle l KBytes 0 true | Plain [] => Handle [] KBytes 0 true | Plain l => Handle l KBroken 0 true end
      else match f with Plain l => Handle l KText 0 true | Zipped l => Handle l KBroken 0 true end))
  end.
(** 40-67: [inl]: file name, [inr]: file object *)
Definition open_and_close {T} (func : world -> nat -> option T * world) (w : world) (arg : pstr + nat) : option T * world :=
  match arg with
  | inl fn =>
    match open_name w fn with
    | None => (None, w)
    | Some (w1, i) => match func w1 i with (Some v, w2) => (Some v, close w2 i) | (None, w2) => (None, w2) end
    end
  | inr i => func w i
  end.

Section Text.
Context {A : Type}.
Variables (fmt : A -> pstr) (parse : pstr -> option A) (junk : list nat -> A).
(** 151-159: shape and axis, and the position behind; _read_header_config gets the file object and ends with
    fh.seek(0).  The position after an exception is the one of the last line read. *)
Definition get_info (h : handle) (axis : option Z) (sh : option (list Z)) : option (Z * list Z) * nat :=
  match axis, sh with
  | Some z, Some s => (Some (z, s), h_pos h)
  | _, _ =>
    match read_header (skipn (h_pos h) (h_lines h)) with
    | None => (None, Nat.min (length (h_lines h)) (h_pos h + 21))
    | Some cfg =>
      (match (match sh with Some s => Some s
              | None => match config_get cfg (text "array") (text "shape") with Some v => opt_map read_int (split_ws [] v) | None => None end end),
             (match axis with Some z => Some z
              | None => match config_get cfg (text "array") (text "axis") with Some v => read_int (strip v) | None => None end end) with
       | Some s, Some z => Some (z, s)
       | _, _ => None
       end, 0)
    end
  end.
(** 134-205 on a file object; line.startswith('#') on bytes is an exception; np.loadtxt reads to the end *)
Definition readtxt_h (axis : option Z) (sh : option (list Z)) (w : world) (i : nat) : option (arr A) * world :=
  match nth_error (hs w) i with
  | None => (None, w)
  | Some h =>
    if negb (h_open h) then (None, w) else
    match h_kind h with
    | KBroken => (None, w)
    | KBytes =>
      match skipn (h_pos h) (h_lines h) with
      | _ :: _ => (None, set_h w i (seek h (S (h_pos h))))
      | [] => match axis, sh with
              | Some _, Some s => if 3 <? length s then (None, w) else (Some (Array [0] junk), set_h w i (seek h 0))
              | _, _ => (None, set_h w i (seek h 0))
              end
      end
    | KText =>
      match get_info h axis sh with
      | (None, p) => (None, set_h w i (seek h p))
      | (Some (z, s), p) =>
        let ndim := length s in
        if 3 <? ndim then (None, set_h w i (seek h p)) else
        let z := if (z =? -1)%Z then (Z.of_nat ndim - 1)%Z else z in
        match List.filter (fun l => negb (commented l) && match l with [] => false | _ => true end) (map strip (firstn maxlines (skipn p (h_lines h)))) with
        | [] => (Some (Array [0] junk), set_h w i (seek h 0))
        | _ => (match loadtxt parse junk (h_lines h) with
                | None => None
                | Some a => if ndim <=? 2 then Some a else arr2d_to_3d junk a s z
                end, set_h w i (seek h (length (h_lines h))))
        end
      end
    end
  end.
Definition readtxt_any (axis : option Z) (sh : option (list Z)) : world -> pstr + nat -> option (arr A) * world := open_and_close (readtxt_h axis sh).
(** 94-131 with a file name, whatever its ending; an exception behind open() leaves the file open and the
    header in it *)
Definition writetxt_fn (w : world) (fn : pstr) (a : arr A) (axis : Z) (header : bool) : option unit * world :=
  if 3 <? length (shape a) then (None, w) else
  match writetxt fmt a axis header with
  | Some lines => let (w1, i) := add_h (set_disk w fn (Plain lines)) (Handle [] KBytes 0 true) in (Some tt, close w1 i)
  | None => (None, fst (add_h (set_disk w fn (Plain (if header then header_lines (shape a) axis else []))) (Handle [] KBytes 0 true)))
  end.
End Text.
