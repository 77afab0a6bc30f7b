(** Model of coord_trans, /repo/src/pwtools/crys.py:839-955, coord_trans3d 958-1008,
    and of frac2cart, cart2frac, frac2cart_traj, cart2frac_traj,
    /repo/src/_ext_src/flib.f90:553-603, for vectors of any length M over any field.
    Simplified: the axes of [coords] other than that of the vectors are flattened to
    one; copying and integer arrays, whose results would be truncated, are not
    modelled; scipy's inv and LAPACK's dgesv are taken to be exact. *)
From mathcomp Require Import all_ssreflect all_algebra.
Set Implicit Arguments.
Unset Strict Implicit.
Unset Printing Implicit Defensive.
Local Open Scope ring_scope.

Section CoordTrans.
Variable F : fieldType.
Variable M : nat.

(** np.dot(coords, np.dot(inv(new.T), old.T).T), 955; None when inv raises *)
Definition coord_trans (N : nat) (coords : 'M[F]_(N, M)) (old new : 'M[F]_M) : option 'M[F]_(N, M) :=
  if new^T \in unitmx then Some (coords *m (invmx new^T *m old^T)^T) else None.

(** coord_trans3d with timeaxis=0: one call per step; None if any call raises or
    the numbers of steps differ (991-992) *)
Fixpoint coord_trans3d (N : nat) (coords : seq 'M[F]_(N, M)) (old new : seq 'M[F]_M) : option (seq 'M[F]_(N, M)) :=
  match coords, old, new with
  | [::], [::], [::] => Some [::]
  | x :: coords, a :: old, b :: new =>
    match coord_trans x a b, coord_trans3d coords old new with
    | Some y, Some r => Some (y :: r)
    | _, _ => None
    end
  | _, _, _ => None
  end.

(** coords(ii,:) = matmul(coords_frac(ii,:), cell) *)
Definition frac2cart (natoms : nat) (coords_frac : 'M[F]_(natoms, M)) (cell : 'M[F]_M) : 'M[F]_(natoms, M) :=
  \matrix_(i, j) \sum_k coords_frac i k * cell k j.
(** wrk = transpose(coords); dgesv(transpose(cell), wrk); transpose(wrk).  For a
    singular cell dgesv leaves wrk undefined: None. *)
Definition cart2frac (natoms : nat) (coords : 'M[F]_(natoms, M)) (cell : 'M[F]_M) : option 'M[F]_(natoms, M) :=
  if cell^T \in unitmx then Some (invmx cell^T *m coords^T)^T else None.
Fixpoint frac2cart_traj (natoms : nat) (coords_frac : seq 'M[F]_(natoms, M)) (cell : seq 'M[F]_M) : seq 'M[F]_(natoms, M) :=
  match coords_frac, cell with
  | x :: coords_frac, h :: cell => frac2cart x h :: frac2cart_traj coords_frac cell
  | _, _ => [::]
  end.
Fixpoint cart2frac_traj (natoms : nat) (coords : seq 'M[F]_(natoms, M)) (cell : seq 'M[F]_M) : option (seq 'M[F]_(natoms, M)) :=
  match coords, cell with
  | x :: coords, h :: cell =>
    match cart2frac x h, cart2frac_traj coords cell with Some y, Some r => Some (y :: r) | _, _ => None end
  | _, _ => Some [::]
  end.
End CoordTrans.
