From Coq Require Import Reals List Arith ZArith String Bool Lra Lia.
From Verif Require Import Vec3 Cells CellsProofs DistTraj Signal TrajStat Align AlignSpec.
Import ListNotations.
Local Open Scope list_scope.
Local Open Scope R_scope.
Local Notation length := List.length.

Lemma turn_vecmat c s h : vecmat s (turn_cell c h) = components c (vecmat s h).
Proof. unfold turn_cell, turn_vec, components, vecmat, vadd, scale, dot. cbn. f_equal; ring. Qed.
Lemma components_sub c u v : components c (vsub u v) = vsub (components c u) (components c v).
Proof. unfold components, vsub, dot. cbn. f_equal; ring. Qed.
Lemma det_turn c h : det (turn_cell c h) = det h * det c.
Proof. unfold turn_cell, turn_vec, det, dot, cross. cbn. ring. Qed.
Lemma orthonormal_det c : orthonormal c -> det c ^ 2 = 1.
Proof. intros (A & B & C & D & E & F). rewrite det_sq, A, B, C, D, E, F. ring. Qed.
Lemma zero_of_orth c d : det c <> 0 -> dot d (ra c) = 0 -> dot d (rb c) = 0 -> dot d (rc c) = 0 -> d = Vec 0 0 0.
Proof.
  intros D A B C.
  assert (G : scale (det c) d = vadd (vadd (scale (dot d (ra c)) (cross (rb c) (rc c))) (scale (dot d (rb c)) (cross (rc c) (ra c)))) (scale (dot d (rc c)) (cross (ra c) (rb c))))
    by (unfold det, scale, vadd, dot, cross; cbn; f_equal; ring).
  rewrite A, B, C in G. unfold scale, vadd in G. cbn in G. destruct d as [x y z]. cbn in *. injection G as G1 G2 G3.
  assert (Z : forall t, det c * t = 0 -> t = 0) by (intros t Ht; apply Rmult_integral in Ht; tauto).
  f_equal; apply Z; lra.
Qed.
Lemma expand c u : orthonormal c -> u = vadd (vadd (scale (dot u (ra c)) (ra c)) (scale (dot u (rb c)) (rb c))) (scale (dot u (rc c)) (rc c)).
Proof.
  intros O. pose proof (orthonormal_det c O) as D. destruct O as (A & B & C & P & Q & S).
  set (w := vadd _ _). assert (H : vsub u w = Vec 0 0 0).
  { assert (L : forall r, dot (vsub u w) r = dot u r - (dot u (ra c) * dot (ra c) r + dot u (rb c) * dot (rb c) r + dot u (rc c) * dot (rc c) r))
      by (intros r; unfold w, vsub, vadd, scale, dot; cbn; ring).
    assert (Y : forall a b, dot a b = dot b a) by (intros; unfold dot; ring).
    apply (zero_of_orth c); [nra| | |]; rewrite L.
    - rewrite A, (Y (rb c) (ra c)), (Y (rc c) (ra c)), P, Q. ring.
    - rewrite B, (Y (rc c) (rb c)), P, S. ring.
    - rewrite C, Q, S. ring. }
  destruct u, w. unfold vsub in H. cbn in H. injection H as H1 H2 H3. f_equal; lra.
Qed.
Lemma components_dot c u v : orthonormal c -> dot (components c u) (components c v) = dot u v.
Proof.
  intros O. rewrite (expand c u O) at 2. unfold components, vadd, scale, dot. cbn. ring.
Qed.
Lemma norm_eq u v : dot u u = dot v v -> norm u = norm v.
Proof. intros H. unfold norm. now rewrite H. Qed.
Lemma turn_cc c h : orthonormal c -> cell2cc (turn_cell c h) = cell2cc h /\ volume_cell (turn_cell c h) = volume_cell h.
Proof.
  intros O. assert (D : forall u v, dot (turn_vec c u) (turn_vec c v) = dot u v) by (intros; apply (components_dot c u v O)).
  assert (N : forall u, norm (turn_vec c u) = norm u) by (intros; apply norm_eq, D).
  split.
  - unfold cell2cc, turn_cell, angle. cbn [ra rb rc]. rewrite !N, !D. reflexivity.
  - unfold volume_cell. rewrite det_turn, Rabs_mult. pose proof (orthonormal_det c O) as E.
    assert (Rabs (det c) = 1); [|rewrite H; ring].
    assert (det c = 1 \/ det c = -1) as [-> | ->]; [|apply Rabs_R1|rewrite Rabs_left; lra].
    assert ((det c - 1) * (det c + 1) = 0) as Z by lra. apply Rmult_integral in Z. destruct Z; [left|right]; lra.
Qed.
(** numpy's inverse and the orthogonality check *)
Lemma inv_spec m i : inv m = Some i -> let t := transpose i in
  dot (ra m) (ra t) = 1 /\ dot (ra m) (rb t) = 0 /\ dot (ra m) (rc t) = 0 /\
  dot (rb m) (ra t) = 0 /\ dot (rb m) (rb t) = 1 /\ dot (rb m) (rc t) = 0 /\
  dot (rc m) (ra t) = 0 /\ dot (rc m) (rb t) = 0 /\ dot (rc m) (rc t) = 1.
Proof.
  unfold inv. destruct (Req_EM_T (det m) 0) as [|D]; [discriminate|]. intros H. injection H as <-.
  unfold transpose, scale. cbn. set (d := det m) in *. assert (E : d = det m) by reflexivity.
  repeat split; unfold dot; cbn;
  match goal with
  | |- _ = 1 => apply (Rmult_eq_reg_l d); [|exact D]; rewrite Rmult_1_r
  | |- _ = 0 => apply (Rmult_eq_reg_l d); [|exact D]; rewrite Rmult_0_r
  end; match goal with |- ?l = ?r => let X := fresh in assert (X : forall a b c p q s : R, d * (a * (/ d * p) + b * (/ d * q) + c * (/ d * s)) = a * p + b * q + c * s) by (intros; field; exact D); rewrite X end;
  rewrite ?E; unfold det, dot, cross; cbn; ring.
Qed.
Lemma inv_orthonormal c : orthonormal c -> inv c = Some (transpose c).
Proof.
  intros O. pose proof (orthonormal_det c O) as D. destruct (inv c) as [i|] eqn:E.
  - f_equal. pose proof (inv_spec c i E) as S. cbv zeta in S. destruct S as (S1 & S2 & S3 & S4 & S5 & S6 & S7 & S8 & S9).
    assert (Y : forall a b, dot a b = dot b a) by (intros; unfold dot; ring). destruct O as (A & B & C & P & Q & S).
    assert (K : forall t r, dot (ra c) t = dot (ra c) r -> dot (rb c) t = dot (rb c) r -> dot (rc c) t = dot (rc c) r -> t = r).
    { intros t r T1 T2 T3. assert (L : forall u, dot (vsub t r) u = dot u t - dot u r) by (intros u; unfold vsub, dot; cbn; ring).
      assert (Z : vsub t r = Vec 0 0 0) by (apply (zero_of_orth c); [nra| | |]; rewrite L; lra).
      destruct t, r. unfold vsub in Z. cbn in Z. injection Z as Z1 Z2 Z3. f_equal; lra. }
    assert (E1 : ra (transpose i) = ra c) by (apply K; rewrite ?(Y (rb c) (ra c)), ?(Y (rc c) (ra c)); lra).
    assert (E2 : rb (transpose i) = rb c) by (apply K; rewrite ?(Y (rc c) (rb c)); lra).
    assert (E3 : rc (transpose i) = rc c) by (apply K; lra).
    destruct i as [[] [] []], c as [[] [] []]. unfold transpose in *. cbn in *. congruence.
  - exfalso. unfold inv in E. destruct (Req_EM_T (det c) 0); [nra|discriminate].
Qed.
Lemma close_refl eps x : 0 < eps -> close eps x x = true.
Proof.
  intros H. unfold close. destruct (Rle_dec _ _) as [|N]; [reflexivity|]. exfalso. apply N. replace (x - x) with 0 by ring. rewrite Rabs_R0.
  pose proof (Rabs_pos x). lra.
Qed.
Lemma check_orthonormal eps c : orthonormal c -> orthogonal_check eps c = true.
Proof.
  intros O. unfold orthogonal_check. destruct (Rlt_dec 0 eps) as [H|]; [|reflexivity]. rewrite (inv_orthonormal c O).
  unfold allclose, close_vec. rewrite !close_refl by exact H. reflexivity.
Qed.
Lemma close_le eps a b : close eps a b = true -> Rabs (a - b) <= eps + / 100000 * Rabs b.
Proof. unfold close. destruct (Rle_dec _ _); [auto|discriminate]. Qed.
Lemma entry_bound eps e v : 0 <= eps -> Rabs (vx e) <= eps + / 100000 * Rabs (vx v) -> Rabs (vy e) <= eps + / 100000 * Rabs (vy v) ->
  Rabs (vz e) <= eps + / 100000 * Rabs (vz v) -> norm e <= sqrt 3 * eps + / 100000 * norm v.
Proof.
  intros H X Y Z. set (w := Vec (/ 100000 * Rabs (vx v)) (/ 100000 * Rabs (vy v)) (/ 100000 * Rabs (vz v))).
  apply Rle_trans with (norm (vadd (Vec eps eps eps) w)).
  - unfold norm. apply sqrt_le_1_alt. unfold dot, vadd, w. cbn.
    assert (S : forall a b, Rabs a <= b -> a * a <= b * b).
    { intros a b A. pose proof (Rabs_pos a). rewrite <- (Rabs_pos_eq (a * a)) by nra. rewrite Rabs_mult. nra. }
    pose proof (S _ _ X). pose proof (S _ _ Y). pose proof (S _ _ Z). lra.
  - eapply Rle_trans; [apply norm_triangle|]. apply Rplus_le_compat; apply Req_le.
    + unfold norm, dot. cbn. replace (eps * eps + eps * eps + eps * eps) with (3 * (eps * eps)) by ring. rewrite sqrt_mult by nra. now rewrite sqrt_square.
    + unfold norm, dot, w. cbn. pose proof (Rabs_mult) as M. assert (A : forall t, Rabs t * Rabs t = t * t) by (intros; rewrite <- Rabs_mult; apply Rabs_pos_eq; nra).
      transitivity (sqrt ((/ 100000 * / 100000) * (vx v * vx v + vy v * vy v + vz v * vz v))).
      * f_equal. rewrite <- (A (vx v)), <- (A (vy v)), <- (A (vz v)). ring.
      * rewrite sqrt_mult by nra. f_equal. apply sqrt_square. lra.
Qed.
Lemma dot_norm u v : Rabs (dot u v) <= norm u * norm v.
Proof.
  pose proof (cauchy u v) as C. unfold norm. rewrite <- sqrt_mult by (unfold dot; nra). rewrite <- sqrt_Rsqr_abs. apply sqrt_le_1_alt. exact C.
Qed.
Definition row (c : mat) (i : nat) : vec := match i with 0%nat => ra c | 1%nat => rb c | _ => rc c end.
Lemma check_bound eps c : 0 < eps -> orthogonal_check eps c = true -> forall i j, (i < 3)%nat -> (j < 3)%nat ->
  Rabs (dot (row c i) (row c j) - (if Nat.eqb i j then 1 else 0)) <= norm (row c i) * (sqrt 3 * eps + / 100000 * norm (row c j)).
Proof.
  intros He. unfold orthogonal_check. destruct (Rlt_dec 0 eps) as [_|]; [|lra]. destruct (inv c) as [v|] eqn:E; [|discriminate].
  intros A i j Hi Hj. unfold allclose, close_vec in A. rewrite !andb_true_iff in A.
  destruct A as [[[[A1 A2] A3] [[A4 A5] A6]] [[A7 A8] A9]].
  apply close_le in A1, A2, A3, A4, A5, A6, A7, A8, A9. pose proof (inv_spec c v E) as S. cbv zeta in S.
  assert (N : norm (vsub (row (transpose v) j) (row c j)) <= sqrt 3 * eps + / 100000 * norm (row c j)).
  { apply entry_bound; [lra| | |]; destruct j as [|[|[|]]]; try lia; unfold row, transpose, vsub in *; cbn in *; assumption. }
  assert (D : dot (row c i) (row (transpose v) j) = if Nat.eqb i j then 1 else 0).
  { destruct i as [|[|[|]]], j as [|[|[|]]]; try lia; cbn [row Nat.eqb]; tauto. }
  rewrite <- D. replace (dot (row c i) (row c j) - dot (row c i) (row (transpose v) j)) with (- dot (row c i) (vsub (row (transpose v) j) (row c j))) by (unfold dot, vsub; cbn; ring).
  rewrite Rabs_Ropp. eapply Rle_trans; [apply dot_norm|]. apply Rmult_le_compat_l; [apply sqrt_pos|exact N].
Qed.
(** Axes made of two unit vectors and their cross product *)
Lemma unit_of x : norm x <> 0 -> dot (scale (/ norm x) x) (scale (/ norm x) x) = 1.
Proof.
  intros H. pose proof (sqrt_sqrt (dot x x) ltac:(unfold dot; nra)) as S. fold (norm x) in S.
  replace (dot (scale (/ norm x) x) (scale (/ norm x) x)) with (dot x x * (/ norm x * / norm x)) by (unfold dot, scale; cbn; ring).
  rewrite <- S. field. exact H.
Qed.
Lemma gram_identity a b u : dot a a = 1 -> dot b b = 1 ->
  (1 - dot a b * dot a b) * dot u u = dot u a * dot u a + dot u b * dot u b - 2 * dot a b * (dot u a * dot u b) + dot u (cross a b) * dot u (cross a b).
Proof.
  intros A B.
  assert (G : (dot a a * dot b b - dot a b * dot a b) * dot u u = dot b b * (dot u a * dot u a) + dot a a * (dot u b * dot u b) - 2 * dot a b * (dot u a * dot u b) + dot u (cross a b) * dot u (cross a b))
    by (unfold dot, cross; cbn; ring).
  rewrite A, B in G. lra.
Qed.
Lemma distortion a b u : dot a a = 1 -> dot b b = 1 -> Rabs (dot a b) < 1 -> let c := Mat a b (cross a b) in
  (1 - Rabs (dot a b)) * dot u u <= dot (components c u) (components c u) <= (1 + Rabs (dot a b)) * dot u u.
Proof.
  intros A B L c. pose proof (gram_identity a b u A B) as G.
  assert (E : dot (components c u) (components c u) = dot u a * dot u a + dot u b * dot u b + dot u (cross a b) * dot u (cross a b)) by reflexivity.
  rewrite E. set (p := dot u a) in *. set (q := dot u b) in *. set (r := dot u (cross a b)) in *. set (k := dot a b) in *. set (n := dot u u) in *.
  pose proof (Rabs_pos k) as P. assert (K : k * k = Rabs k * Rabs k) by (rewrite <- Rabs_mult; symmetry; apply Rabs_pos_eq; nra).
  assert (M : - (Rabs k * (p * p + q * q)) <= 2 * k * (p * q) <= Rabs k * (p * p + q * q)).
  { unfold Rabs in *. pose proof (Rle_0_sqr (p + q)). pose proof (Rle_0_sqr (p - q)). unfold Rsqr in *. destruct (Rcase_abs k); split; nra. }
  rewrite K in G. set (t := Rabs k) in *. pose proof (Rle_0_sqr r) as R0. unfold Rsqr in R0.
  split.
  - apply Rmult_le_reg_l with (1 + t); [lra|]. replace ((1 + t) * ((1 - t) * n)) with ((1 - t * t) * n) by ring. rewrite G. nra.
  - apply Rmult_le_reg_l with (1 - t); [lra|]. replace ((1 - t) * ((1 + t) * n)) with ((1 - t * t) * n) by ring. rewrite G. nra.
Qed.
Lemma frames_cart_iff s h : length s = length h -> frames_cart s h (to_coords s h).
Proof.
  revert h. induction s as [|f s IH]; intros [|c h] L; cbn in *; try discriminate; [constructor|]. constructor; [reflexivity|]. apply IH. congruence.
Qed.
Lemma frames_cart_fun s h x : frames_cart s h x -> x = to_coords s h.
Proof. induction 1; cbn; [reflexivity|]. subst. reflexivity. Qed.
Lemma to_coords_turn c s h : to_coords s (map (turn_cell c) h) = map (map (components c)) (to_coords s h).
Proof.
  unfold to_coords. revert h. induction s as [|f s IH]; intros [|b h]; cbn; try reflexivity. rewrite IH. f_equal. rewrite map_map.
  apply map_ext. intros v. apply turn_vecmat.
Qed.
