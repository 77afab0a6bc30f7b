From Coq Require Import Reals List ZArith Bool Lra Lia.
From Verif Require Import Vec3 Cells Grid GridSpec.
Import ListNotations.
Local Open Scope R_scope.

Lemma np_round_spec x : nearest_even x (np_round x).
Proof.
  unfold np_round, nearest_even. pose proof (base_Int_part x) as [B1 B2]. set (f := Int_part x) in *.
  destruct (Rlt_dec (x - IZR f) (1/2)) as [L|L].
  - rewrite Rabs_pos_eq by lra. split; [lra|]. intros; lra.
  - destruct (Rlt_dec (1/2) (x - IZR f)) as [G|G].
    + rewrite plus_IZR, Rabs_left by lra. split; [lra|]. intros; lra.
    + assert (D : x - IZR f = 1/2) by lra. destruct (Z.even f) eqn:E.
      * rewrite D, Rabs_pos_eq by lra. split; [lra|auto].
      * rewrite plus_IZR. replace (x - (IZR f + 1)) with (-(1/2)) by lra. rewrite Rabs_Ropp, Rabs_pos_eq by lra. split; [lra|]. intros _.
        rewrite Z.even_add, E. reflexivity.
Qed.
Lemma abs_le x b : Rabs x <= b -> - b <= x <= b.
Proof. unfold Rabs. destruct (Rcase_abs x); lra. Qed.
Lemma IZR_diff m n : (m < n)%Z -> IZR m + 1 <= IZR n.
Proof. intros H. rewrite <- plus_IZR. apply IZR_le. lia. Qed.
Lemma nearest_mono x y m n : x <= y -> nearest_even x m -> nearest_even y n -> (m <= n)%Z.
Proof.
  intros H [A A'] [B B']. destruct (Z_le_gt_dec m n) as [|G]; [assumption|exfalso]. apply abs_le in A, B.
  pose proof (IZR_diff n m ltac:(lia)) as D.
  assert (Ex : x - IZR m = -(1/2)) by lra. assert (Ey : y - IZR n = 1/2) by lra.
  assert (Em : Z.even m = true) by (apply A'; rewrite Ex, Rabs_Ropp, Rabs_pos_eq; lra).
  assert (En : Z.even n = true) by (apply B'; rewrite Ey, Rabs_pos_eq; lra).
  assert (E : m = (n + 1)%Z) by (apply eq_IZR; rewrite plus_IZR; lra). rewrite E, Z.even_add, En in Em. discriminate.
Qed.
Lemma nearest_unique x m n : nearest_even x m -> nearest_even x n -> m = n.
Proof. intros A B. pose proof (nearest_mono x x m n ltac:(lra) A B). pose proof (nearest_mono x x n m ltac:(lra) B A). lia. Qed.
Lemma nearest_exact n : nearest_even (IZR n) n.
Proof. unfold nearest_even. replace (IZR n - IZR n) with 0 by ring. rewrite Rabs_R0. split; [lra|]. intros; lra. Qed.
Lemma norms_norm cell : norms cell = [norm (ra cell); norm (rb cell); norm (rc cell)].
Proof. unfold norms, norm, dot. cbn. repeat (apply (f_equal2 cons); [f_equal; ring|]). reflexivity. Qed.
Lemma points_spec h minpoints even L : exists m, nearest_even (L / h) m /\
  points h minpoints even L = Z.max minpoints (if even then (m + m mod 2)%Z else m).
Proof.
  exists (np_round (L / h)). split; [apply np_round_spec|]. unfold points. destruct (Z.ltb_spec (if even then (np_round (L / h) + np_round (L / h) mod 2)%Z else np_round (L / h)) minpoints); lia.
Qed.
