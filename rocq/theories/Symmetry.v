(** Interface to spglib, /repo/src/pwtools/symmetry.py, and Structure.get_spglib, crys.py 2891-2893.
    Real arithmetic stands for floats. None is an exception. Structures have symbols, a cell and
    fractional coordinates; other attributes are calculated from these. Simplified: fractional
    coordinates of a different number of atoms cannot be compared, here an exception. Keywords for
    spglib are not modelled. *)
From Coq Require Import Ascii List Reals ZArith Bool.
From Verif Require Import Comb ArrayIO Species Vec3 Cells.
Import ListNotations.
Local Open Scope list_scope.
Local Open Scope R_scope.
Local Notation length := List.length.

Record struct := Struct { symbols : list pstr; cell : mat; coords_frac : list vec }.
(** what spglib takes and returns: (cell, coords_frac, znucl) *)
Definition spg_tuple := (mat * list vec * list nat)%type.
(** Structure.get_spglib; znucl is crys.py 2774-2780 *)
Definition get_spglib (st : struct) : option spg_tuple :=
  match znucl (symbols st) with Some z => Some (cell st, coords_frac st, z) | None => None end.
(** spglib2struct 28-50 *)
Definition spglib2struct (t : spg_tuple) : option struct :=
  let '(c, x, z) := t in match opt_map (nth_error table) z with Some s => Some (Struct s c x) | None => None end.
(** np.allclose with the default rtol and atol: |a - b| <= atol + rtol |b| *)
Definition close1 (a b : R) : bool := if Rle_dec (Rabs (a - b)) (/ 10 ^ 8 + / 10 ^ 5 * Rabs b) then true else false.
Definition allclose (a b : list R) : bool := forallb (fun ab => close1 (fst ab) (snd ab)) (combine a b).
Definition cc_list (k : cc) : list R := [a_ k; b_ k; c_ k; alpha k; beta k; gamma k].
Definition flat (l : list vec) : list R := flat_map (fun v => [vx v; vy v; vz v]) l.
Fixpoint same_symbols (a b : list pstr) : bool :=
  match a, b with [], [] => true | x :: a, y :: b => pstr_eqb x y && same_symbols a b | _, _ => false end.
Section SPGLIB.
(** spglib.get_spacegroup: a text, or None; spglib.find_primitive *)
Variable get_spacegroup : spg_tuple -> option pstr.
Variable find_primitive : spg_tuple -> option spg_tuple.
(** spglib_get_spacegroup 103-133 *)
Definition spacegroup (st : struct) : option (Z * pstr) :=
  match get_spglib st with
  | None => None
  | Some t =>
    match get_spacegroup t with
    | None => None
    | Some ret =>
      match split_ws [] ret with
      | sym :: num :: _ =>
        match read_int (filter (fun c => negb (Ascii.eqb c ")"%char)) (filter (fun c => negb (Ascii.eqb c "("%char)) num)) with Some n => Some (n, sym) | None => None end
      | _ => None
      end
    end
  end.
(** is_same_struct 8-25: what follows "and" is evaluated only if all before is true *)
Definition is_same_struct (st1 st2 : struct) : option bool :=
  if negb (same_symbols (symbols st1) (symbols st2)) then Some false else
  if negb (Nat.eqb (length (symbols st1)) (length (symbols st2))) then Some false else
  if negb (close1 (volume_cell (cell st1)) (volume_cell (cell st2))) then Some false else
  if negb (allclose (cc_list (cell2cc (cell st1))) (cc_list (cell2cc (cell st2)))) then Some false else
  if negb (Nat.eqb (length (coords_frac st1)) (length (coords_frac st2))) then None else
  if negb (allclose (flat (coords_frac st1)) (flat (coords_frac st2))) then Some false else
  match spacegroup st1, spacegroup st2 with
  | Some (n1, s1), Some (n2, s2) => Some (Z.eqb n1 n2 && pstr_eqb s1 s2)
  | _, _ => None
  end.
(** spglib_get_primitive 60-100; Some None is the return value None *)
Definition get_primitive (st : struct) : option (option struct) :=
  match get_spglib st with
  | None => None
  | Some t =>
    match find_primitive t with
    | None => None
    | Some p =>
      match spglib2struct p with
      | None => None
      | Some candidate =>
        match is_same_struct candidate st with Some true => Some None | Some false => Some (Some candidate) | None => None end
      end
    end
  end.
End SPGLIB.
