(** Model of pbc_wrap_coords, /repo/src/pwtools/crys.py:767-811,
    min_image_convention, 1011-1039, and distsq_frac,
    /repo/src/_ext_src/flib.f90:388-454, over the real numbers.  An array is the
    list of its entries, or of its rows; copying is not modelled. *)
From Coq Require Import List Reals Bool SpecFloat ZArith.
From Verif Require Import Vec3.
Import ListNotations.
Open Scope R_scope.

Definition geb (x y : R) : bool := if Rle_dec y x then true else false.
Definition ltb (x y : R) : bool := if Rlt_dec x y then true else false.

(** "mask = cond(sij); while mask.any(): sij[mask] += d; mask = cond(sij)".  None:
    still running after [fuel] rounds. *)
Fixpoint masked_while (cond : R -> bool) (d : R) (fuel : nat) (sij : list R) : option (list R) :=
  match fuel with
  | 0%nat => None
  | S fuel => if existsb cond sij
              then masked_while cond d fuel (map (fun x => if cond x then x + d else x) sij)
              else Some sij
  end.
(** 1029-1039 *)
Definition min_image_convention (fuel : nat) (sij : list R) : option (list R) :=
  match masked_while (fun x => geb x (1/2)) (-1) fuel sij with
  | Some sij => masked_while (fun x => ltb x (-(1/2))) 1 fuel sij
  | None => None
  end.

(** "do while (cond(x)); x = x + d", flib.f90:427-433 *)
Fixpoint do_while (cond : R -> bool) (d : R) (fuel : nat) (x : R) : option R :=
  match fuel with
  | 0%nat => None
  | S fuel => if cond x then do_while cond d fuel (x + d) else Some x
  end.
Definition wrap1 (fuel : nat) (x : R) : option R :=
  match do_while (fun x => geb x (1/2)) (-1) fuel x with
  | Some x => do_while (fun x => ltb x (-(1/2))) 1 fuel x
  | None => None
  end.
Definition wrap3 (fuel : nat) (v : vec) : option vec :=
  match wrap1 fuel (vx v), wrap1 fuel (vy v), wrap1 fuel (vz v) with
  | Some x, Some y, Some z => Some (Vec x y z)
  | _, _, _ => None
  end.
(** Entry ii,jj of distsq_frac: (distsq, distvecs, distvecs_frac) *)
Definition distsq_entry (fuel : nat) (coords_frac : list vec) (cell : mat) (pbc : bool) (ii jj : nat)
  : option (R * vec * vec) :=
  match nth_error coords_frac ii, nth_error coords_frac jj with
  | Some u, Some v =>
    let d := vsub u v in
    match (if pbc then wrap3 fuel d else Some d) with
    | None => None
    | Some f => let c := vecmat f cell in Some (dot c c, c, f)
    end
  | _, _ => None
  end.

(** np.remainder(x, 1.0) *)
Definition remainder1 (x : R) : R := x - IZR (Int_part x).
(** One row; mask[i] for i in 0,1,2 (803-810) *)
Definition wrap_row (mask : bool * bool * bool) (v : vec) : vec :=
  match mask with
  | (mx, my, mz) => Vec (if mx then remainder1 (vx v) else vx v) (if my then remainder1 (vy v) else vy v)
                        (if mz then remainder1 (vz v) else vz v)
  end.
Definition pbc_wrap_coords (mask : bool * bool * bool) (coords_frac : list vec) : list vec :=
  map (wrap_row mask) coords_frac.

(** The same with the binary64 numbers the program really uses (round to nearest
    even; the functions of Coq's SpecFloat). *)
Definition f_add := SFadd 53 1024.
Definition f_sub := SFsub 53 1024.
Definition f_one : spec_float := S754_finite false 4503599627370496 (-52).
Definition f_half : spec_float := S754_finite false 4503599627370496 (-53).
Definition f_geb (x y : spec_float) : bool := SFleb y x.
Fixpoint f_while_ge (fuel : nat) (x : spec_float) : option spec_float :=
  match fuel with
  | 0%nat => None
  | S fuel => if f_geb x f_half then f_while_ge fuel (f_sub x f_one) else Some x
  end.
(** np.remainder(x, 1.0) for |x| < 1, where fmod(x, 1.0) is x: numpy's
    npy_divmod adds the divisor if the remainder is negative. *)
Definition f_remainder1_small (x : spec_float) : spec_float :=
  if SFltb x (S754_zero false) then f_add x f_one else x.
