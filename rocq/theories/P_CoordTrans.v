(** C29: coordinate transformations, for vectors of any length over any field. *)
From mathcomp Require Import all_ssreflect all_algebra.
From Verif Require Import CoordTrans CoordTransSpec CoordTransProofs.
Set Implicit Arguments.
Unset Strict Implicit.
Import GRing.Theory.
Local Open Scope ring_scope.

(** There and back *)
Theorem C29_round_trip (F : fieldType) M N (x : 'M[F]_(N, M)) (a b : 'M[F]_M) : basis a -> basis b ->
  exists y, coord_trans x a b = Some y /\ coord_trans y b a = Some x.
Proof. exact: coord_trans_round. Qed.
(** A to B to C is A to C *)
Theorem C29_chain (F : fieldType) M N (x : 'M[F]_(N, M)) (a b c : 'M[F]_M) : basis b -> basis c ->
  exists y, coord_trans x a b = Some y /\ coord_trans y b c = coord_trans x a c.
Proof. exact: coord_trans_chain. Qed.
(** Every vector still stands for the same point, and this determines the result. *)
Theorem C29_position (F : fieldType) M N (x y : 'M[F]_(N, M)) (old new : 'M[F]_M) : basis new ->
  coord_trans x old new = Some y <-> forall i, position (row i y) new = position (row i x) old.
Proof. by move=> B; split; [exact: coord_trans_position | exact: coord_trans_only]. Qed.
(** Fractional to Cartesian is multiplication by the cell, and the Fortran routines
    do the same as coord_trans. *)
Theorem C29_frac2cart (F : fieldType) M natoms (x : 'M[F]_(natoms, M)) (cell : 'M[F]_M) :
  (forall i, row i (frac2cart x cell) = position (row i x) cell) /\
  coord_trans x cell 1%:M = Some (frac2cart x cell) /\
  coord_trans x 1%:M cell = cart2frac x cell.
Proof. by split; [exact: frac2cart_position | split; [exact: frac2cart_trans | exact: cart2frac_trans]]. Qed.
Theorem C29_frac_cart (F : fieldType) M natoms (x : 'M[F]_(natoms, M)) (cell : 'M[F]_M) : basis cell ->
  cart2frac (frac2cart x cell) cell = Some x /\
  exists y, cart2frac x cell = Some y /\ frac2cart y cell = x.
Proof. exact: frac_cart_round. Qed.
(** Trajectories with a cell for every step *)
Theorem C29_traj (F : fieldType) M natoms (xs : seq 'M[F]_(natoms, M)) cells : size xs = size cells ->
  (forall c, c \in cells -> basis c) -> cart2frac_traj (frac2cart_traj xs cells) cells = Some xs.
Proof. exact: traj_round. Qed.
Theorem C29_traj_round_trip (F : fieldType) M N (xs : seq 'M[F]_(N, M)) olds news :
  size xs = size olds -> size xs = size news ->
  (forall c, c \in olds -> basis c) -> (forall c, c \in news -> basis c) ->
  exists ys, coord_trans3d xs olds news = Some ys /\ coord_trans3d ys news olds = Some xs.
Proof. exact: trans3d_round. Qed.
Print Assumptions C29_round_trip.
Print Assumptions C29_chain.
Print Assumptions C29_position.
Print Assumptions C29_frac2cart.
Print Assumptions C29_frac_cart.
Print Assumptions C29_traj.
Print Assumptions C29_traj_round_trip.

(** A skewed cell with determinant 6 over the rationals *)
Definition ex_cell : 'M[rat]_3 := \matrix_(i, j) (if j == i then (i.+1)%:R else if (j < i)%N then 1 else 0).
Example C29_case : basis ex_cell /\ basis (1%:M : 'M[rat]_3).
Proof.
split; last exact: basis1.
rewrite /basis det_trig.
  by apply/prodf_neq0 => i _; rewrite mxE eqxx Num.Theory.pnatr_eq0.
apply/is_trig_mxP => i j L. rewrite mxE. case: eqP L => [->|_]; first by rewrite ltnn.
by move=> L; rewrite ltnNge ltnW.
Qed.
