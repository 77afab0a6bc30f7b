From mathcomp Require Import all_ssreflect all_algebra.
From Verif Require Import CoordTrans CoordTransSpec.
Set Implicit Arguments.
Unset Strict Implicit.
Import GRing.Theory.
Local Open Scope ring_scope.

Section Proofs.
Variable F : fieldType.
Variable M : nat.
Implicit Types (old new a b c cell : 'M[F]_M).

Lemma basis_unit b : basis b <-> b \in unitmx.
Proof. by rewrite /basis unitmxE unitfE. Qed.
Lemma coord_transE N (x : 'M[F]_(N, M)) old new : basis new -> coord_trans x old new = Some (x *m old *m invmx new).
Proof.
move=> /basis_unit H. rewrite /coord_trans unitmx_tr H. congr Some.
by rewrite trmx_mul trmxK trmx_inv trmxK mulmxA.
Qed.
Lemma coord_trans_singular N (x : 'M[F]_(N, M)) old new : ~ basis new -> coord_trans x old new = None.
Proof. move=> H. rewrite /coord_trans unitmx_tr. by case E: (new \in unitmx) => //; case: H; apply/basis_unit. Qed.
Lemma positionE (x : 'rV[F]_M) b : position x b = x *m b.
Proof. by rewrite /position mulmx_sum_row. Qed.

Lemma coord_trans_position N (x y : 'M[F]_(N, M)) old new :
  coord_trans x old new = Some y -> forall i, position (row i y) new = position (row i x) old.
Proof.
case E: (new \in unitmx).
- have B : basis new by apply/basis_unit. rewrite coord_transE //. case=> <- i.
  by rewrite !positionE -!row_mul mulmxKV.
- by rewrite coord_trans_singular // basis_unit E.
Qed.
Lemma coord_trans_only N (x y : 'M[F]_(N, M)) old new : basis new ->
  (forall i, position (row i y) new = position (row i x) old) -> coord_trans x old new = Some y.
Proof.
move=> B H. rewrite coord_transE //. congr Some. move/basis_unit: B => B.
have -> : x *m old = y *m new by apply/row_matrixP => i; rewrite !row_mul -!positionE H.
by rewrite mulmxK.
Qed.
Lemma coord_trans_round N (x : 'M[F]_(N, M)) a b : basis a -> basis b ->
  exists y, coord_trans x a b = Some y /\ coord_trans y b a = Some x.
Proof.
move=> Ha Hb. exists (x *m a *m invmx b). rewrite !coord_transE //. split=> //. congr Some.
move/basis_unit: Ha => Ha. move/basis_unit: Hb => Hb. by rewrite mulmxKV // mulmxK.
Qed.
Lemma coord_trans_chain N (x : 'M[F]_(N, M)) a b c : basis b -> basis c ->
  exists y, coord_trans x a b = Some y /\ coord_trans y b c = coord_trans x a c.
Proof.
move=> Hb Hc. exists (x *m a *m invmx b). rewrite !coord_transE //. split=> //. congr Some.
move/basis_unit: Hb => Hb. by rewrite mulmxKV.
Qed.
Lemma frac2cartE natoms (x : 'M[F]_(natoms, M)) cell : frac2cart x cell = x *m cell.
Proof. by apply/matrixP => i j; rewrite !mxE. Qed.
Lemma frac2cart_position natoms (x : 'M[F]_(natoms, M)) cell i : row i (frac2cart x cell) = position (row i x) cell.
Proof. by rewrite frac2cartE positionE row_mul. Qed.
Lemma basis1 : basis (1%:M : 'M[F]_M).
Proof. by rewrite /basis det1 oner_neq0. Qed.
Lemma frac2cart_trans natoms (x : 'M[F]_(natoms, M)) cell : coord_trans x cell 1%:M = Some (frac2cart x cell).
Proof. by rewrite (coord_transE _ _ basis1) invmx1 mulmx1 frac2cartE. Qed.
Lemma cart2frac_trans natoms (x : 'M[F]_(natoms, M)) cell : coord_trans x 1%:M cell = cart2frac x cell.
Proof.
rewrite /cart2frac unitmx_tr. case E: (cell \in unitmx).
- have B : basis cell by apply/basis_unit. by rewrite coord_transE // mulmx1 trmx_mul trmxK trmx_inv trmxK.
- by rewrite coord_trans_singular // basis_unit E.
Qed.
Lemma frac_cart_round natoms (x : 'M[F]_(natoms, M)) cell : basis cell ->
  cart2frac (frac2cart x cell) cell = Some x /\
  exists y, cart2frac x cell = Some y /\ frac2cart y cell = x.
Proof.
move=> B. rewrite -!cart2frac_trans !coord_transE // !mulmx1. have U := proj1 (basis_unit cell) B. split.
- by rewrite frac2cartE mulmxK.
- exists (x *m invmx cell). split=> //. by rewrite frac2cartE mulmxKV.
Qed.
(** The Fortran routines that transform trajectories, step by step *)
Lemma traj_round natoms (xs : seq 'M[F]_(natoms, M)) cells : size xs = size cells ->
  (forall c, c \in cells -> basis c) -> cart2frac_traj (frac2cart_traj xs cells) cells = Some xs.
Proof.
elim: xs cells => [|x xs IH] [|c cells] //= [S] H.
have [-> _] := frac_cart_round x (H c (mem_head _ _)).
rewrite IH // => d Hd. apply: H. by rewrite in_cons Hd orbT.
Qed.
Lemma trans3d_round N (xs : seq 'M[F]_(N, M)) olds news : size xs = size olds -> size xs = size news ->
  (forall c, c \in olds -> basis c) -> (forall c, c \in news -> basis c) ->
  exists ys, coord_trans3d xs olds news = Some ys /\ coord_trans3d ys news olds = Some xs.
Proof.
elim: xs olds news => [|x xs IH] [|a olds] [|b news] //=; first by move=> *; exists [::].
move=> [S1] [S2] H1 H2.
have [ys [E1 E2]] : exists ys, coord_trans3d xs olds news = Some ys /\ coord_trans3d ys news olds = Some xs.
  apply: IH => // c Hc; [apply: H1 | apply: H2]; by rewrite in_cons Hc orbT.
have [y [F1 F2]] := coord_trans_round x (H1 a (mem_head _ _)) (H2 b (mem_head _ _)).
by exists (y :: ys); rewrite F1 E1 /= F2 E2.
Qed.
End Proofs.
