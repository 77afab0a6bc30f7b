From Coq Require Import Reals Lra Psatz.
From Verif Require Import Vec3 Cells CellsSpec.
Open Scope R_scope.

Lemma PIpos : 0 < PI. Proof. exact PI_RGT_0. Qed.
Lemma rad_deg x : rad (x * 180 / PI) = x.
Proof. unfold rad. field. apply PI_neq0. Qed.
Lemma deg_rad x : rad x * 180 / PI = x.
Proof. unfold rad. field. apply PI_neq0. Qed.
Lemma rad_range x : angle_ok x -> 0 < rad x < PI.
Proof. intros [H1 H2]. unfold rad. pose proof PIpos. split; nra. Qed.
Lemma sin_pos x : angle_ok x -> 0 < sin (rad x).
Proof. intros H. apply rad_range in H. apply sin_gt_0; tauto. Qed.
Lemma norm_sqrt v x : 0 <= x -> dot v v = x * x -> norm v = x.
Proof. intros H E. unfold norm. rewrite E. apply sqrt_square, H. Qed.

(** The vectors of cc2cell *)
Lemma cz_arg A B G c : sin G <> 0 ->
  c ^ 2 - (c * (cos A - cos B * cos G) / sin G) ^ 2 - (c * cos B) ^ 2 = c ^ 2 * gram A B G / (sin G * sin G).
Proof.
  intros S. pose proof (sin2_cos2 G) as T. unfold Rsqr in T.
  assert (E : sin G * sin G = 1 - cos G * cos G) by lra. unfold gram.
  apply Rmult_eq_reg_r with (sin G * sin G); [|nra].
  replace (c ^ 2 * (1 + 2 * cos A * cos B * cos G - cos A ^ 2 - cos B ^ 2 - cos G ^ 2) / (sin G * sin G) * (sin G * sin G))
    with (c ^ 2 * (1 + 2 * cos A * cos B * cos G - cos A ^ 2 - cos B ^ 2 - cos G ^ 2)) by (field; exact S).
  replace ((c ^ 2 - (c * (cos A - cos B * cos G) / sin G) ^ 2 - (c * cos B) ^ 2) * (sin G * sin G))
    with ((c ^ 2 - (c * cos B) ^ 2) * (sin G * sin G) - (c * (cos A - cos B * cos G)) ^ 2) by (field; exact S).
  rewrite E. ring.
Qed.
Lemma cc2cell_metric k (A := rad (alpha k)) (B := rad (beta k)) (G := rad (gamma k)) : sin G <> 0 -> 0 <= gram A B G ->
  let m := cc2cell k in
  dot (ra m) (ra m) = a_ k * a_ k /\ dot (rb m) (rb m) = b_ k * b_ k /\ dot (rc m) (rc m) = c_ k * c_ k /\
  dot (ra m) (rb m) = a_ k * b_ k * cos G /\ dot (ra m) (rc m) = a_ k * c_ k * cos B /\
  dot (rb m) (rc m) = b_ k * c_ k * cos A.
Proof.
  intros S Gr m. unfold m, cc2cell. fold (rad (alpha k)) (rad (beta k)) (rad (gamma k)). fold A B G. cbv zeta. unfold dot. cbn [ra rb rc vx vy vz].
  pose proof (sin2_cos2 G) as T. unfold Rsqr in T.
  assert (P : 0 <= c_ k ^ 2 - (c_ k * (cos A - cos B * cos G) / sin G) ^ 2 - (c_ k * cos B) ^ 2).
  { rewrite cz_arg by exact S. unfold Rdiv. apply Rmult_le_pos; [apply Rmult_le_pos; [nra|exact Gr]|].
    apply Rlt_le, Rinv_0_lt_compat. nra. }
  pose proof (sqrt_sqrt _ P) as Q. set (cz := sqrt _) in *.
  repeat split.
  - ring.
  - replace (b_ k * cos G * (b_ k * cos G) + b_ k * sin G * (b_ k * sin G) + 0 * 0) with (b_ k * b_ k * (sin G * sin G + cos G * cos G)) by ring.
    rewrite T. ring.
  - rewrite Q. ring.
  - ring.
  - ring.
  - field. exact S.
Qed.
Lemma angle_of x y A n m : 0 < n -> 0 < m -> norm x = n -> norm y = m -> dot x y = n * m * cos (rad A) -> angle_ok A -> angle x y = A.
Proof.
  intros Hn Hm En Em E H. unfold angle. rewrite En, Em, E.
  replace (n * m * cos (rad A) / n / m) with (cos (rad A)) by (field; lra).
  rewrite acos_cos by (apply rad_range in H; lra). apply deg_rad.
Qed.
Lemma cell2cc_cc2cell k : valid k -> cell2cc (cc2cell k) = k.
Proof.
  intros (Ha & Hb & Hc & A1 & A2 & A3 & Gr). pose proof (sin_pos _ A3) as S.
  destruct (cc2cell_metric k (Rgt_not_eq _ _ S) (Rlt_le _ _ Gr)) as (M1 & M2 & M3 & M4 & M5 & M6).
  set (m := cc2cell k) in *. unfold cell2cc.
  pose proof (norm_sqrt _ _ (Rlt_le _ _ Ha) M1) as N1. pose proof (norm_sqrt _ _ (Rlt_le _ _ Hb) M2) as N2.
  pose proof (norm_sqrt _ _ (Rlt_le _ _ Hc) M3) as N3.
  rewrite (angle_of (rb m) (rc m) (alpha k) (b_ k) (c_ k)), (angle_of (ra m) (rc m) (beta k) (a_ k) (c_ k)),
    (angle_of (ra m) (rb m) (gamma k) (a_ k) (b_ k)); auto. rewrite N1, N2, N3. destruct k; reflexivity.
Qed.

(** Gram's determinant *)
Lemma det_sq m : det m ^ 2 =
  dot (ra m) (ra m) * dot (rb m) (rb m) * dot (rc m) (rc m) + 2 * dot (ra m) (rb m) * dot (ra m) (rc m) * dot (rb m) (rc m)
  - dot (ra m) (ra m) * dot (rb m) (rc m) ^ 2 - dot (rb m) (rb m) * dot (ra m) (rc m) ^ 2 - dot (rc m) (rc m) * dot (ra m) (rb m) ^ 2.
Proof. unfold det, dot, cross. cbn. ring. Qed.
Lemma det_nonzero m : det m <> 0 -> 0 < dot (ra m) (ra m) /\ 0 < dot (rb m) (rb m) /\ 0 < dot (rc m) (rc m).
Proof.
  intros D.
  assert (Z : forall v, dot v v = 0 -> v = Vec 0 0 0).
  { intros [x y z]. unfold dot. cbn. intros E. assert (x = 0) by nra. assert (y = 0) by nra. assert (z = 0) by nra. subst. reflexivity. }
  assert (P : forall v, 0 <= dot v v) by (intros v; unfold dot; nra).
  assert (Q : forall v, v <> Vec 0 0 0 -> 0 < dot v v).
  { intros v N. destruct (Rle_lt_or_eq_dec _ _ (P v)) as [|E]; [assumption|]. exfalso. apply N, Z. symmetry. exact E. }
  repeat split; apply Q; intros E; apply D; unfold det; rewrite E; unfold dot, cross; cbn; ring.
Qed.
Lemma norm_pos v : 0 < dot v v -> 0 < norm v /\ norm v * norm v = dot v v.
Proof. intros H. unfold norm. split; [apply sqrt_lt_R0, H|]. apply sqrt_sqrt. lra. Qed.
Lemma cauchy x y : dot x y * dot x y <= dot x x * dot y y.
Proof.
  assert (E : dot x x * dot y y - dot x y * dot x y = dot (cross x y) (cross x y)) by (unfold dot, cross; cbn; ring).
  assert (0 <= dot (cross x y) (cross x y)) by (unfold dot; nra). lra.
Qed.
Lemma cos_range x y : 0 < dot x x -> 0 < dot y y -> -1 <= dot x y / norm x / norm y <= 1.
Proof.
  intros Hx Hy. destruct (norm_pos x Hx) as [Px Ex], (norm_pos y Hy) as [Py Ey].
  assert (E : dot x y / norm x / norm y * (norm x * norm y) = dot x y) by (field; lra).
  pose proof (cauchy x y) as C. set (q := dot x y / norm x / norm y) in *.
  assert (P : 0 < norm x * norm y) by nra.
  assert (q * q <= 1).
  { apply Rmult_le_reg_r with ((norm x * norm y) * (norm x * norm y)); [nra|].
    replace (q * q * (norm x * norm y * (norm x * norm y))) with ((q * (norm x * norm y)) * (q * (norm x * norm y))) by ring.
    rewrite E. replace (1 * (norm x * norm y * (norm x * norm y))) with ((norm x * norm x) * (norm y * norm y)) by ring.
    rewrite Ex, Ey. exact C. }
  split; nra.
Qed.
Lemma cos_angle x y : 0 < dot x x -> 0 < dot y y -> norm x * norm y * cos (rad (angle x y)) = dot x y.
Proof.
  intros Hx Hy. unfold angle. rewrite rad_deg, cos_acos by (apply cos_range; assumption).
  destruct (norm_pos x Hx) as [Px _], (norm_pos y Hy) as [Py _]. field. lra.
Qed.
Lemma gram_cell m : det m <> 0 -> let k := cell2cc m in
  (a_ k * b_ k * c_ k) ^ 2 * gram (rad (alpha k)) (rad (beta k)) (rad (gamma k)) = det m ^ 2.
Proof.
  intros D k. destruct (det_nonzero m D) as (Pa & Pb & Pc). rewrite det_sq.
  destruct (norm_pos _ Pa) as [Na Ea], (norm_pos _ Pb) as [Nb Eb], (norm_pos _ Pc) as [Nc Ec].
  rewrite <- (cos_angle _ _ Pa Pb), <- (cos_angle _ _ Pa Pc), <- (cos_angle _ _ Pb Pc), <- Ea, <- Eb, <- Ec.
  unfold k, cell2cc, gram. cbn [a_ b_ c_ alpha beta gamma]. ring.
Qed.
Lemma acos_range x : -1 < x < 1 -> 0 < acos x < PI.
Proof.
  intros H. pose proof (acos_bound x) as [B1 B2]. split.
  - destruct B1 as [B1|B1]; [exact B1|]. exfalso. assert (E : cos (acos x) = 1) by (rewrite <- B1; apply cos_0).
    rewrite cos_acos in E; lra.
  - destruct B2 as [B2|B2]; [exact B2|]. exfalso. assert (E : cos (acos x) = -1) by (rewrite B2; apply cos_PI).
    rewrite cos_acos in E; lra.
Qed.
Lemma gram_cos x y z : 0 < gram x y z -> cos z * cos z < 1 /\ cos x * cos x < 1 /\ cos y * cos y < 1.
Proof.
  unfold gram. intros H.
  assert (F : forall p q r, 0 < 1 + 2 * p * q * r - p ^ 2 - q ^ 2 - r ^ 2 -> q * q <= 1 -> p * p <= 1 -> r * r <= 1 -> r * r < 1).
  { intros p q r G Hq Hp Hr. destruct Hr as [|E]; [assumption|]. exfalso. assert (R1 : r = 1 \/ r = -1) by (assert ((r - 1) * (r + 1) = 0) by lra; destruct (Rmult_integral _ _ H0); lra).
    pose proof (Rle_0_sqr (p - q)). pose proof (Rle_0_sqr (p + q)). unfold Rsqr in *. destruct R1; subst; lra. }
  pose proof (COS_bound x) as []. pose proof (COS_bound y) as []. pose proof (COS_bound z) as [].
  repeat split; [apply (F (cos x) (cos y) (cos z)) | apply (F (cos z) (cos y) (cos x)) | apply (F (cos x) (cos z) (cos y))]; nra.
Qed.
Lemma angle_is_ok x y : 0 < dot x x -> 0 < dot y y -> cos (rad (angle x y)) * cos (rad (angle x y)) < 1 -> angle_ok (angle x y).
Proof.
  intros Hx Hy H. pose proof (cos_range x y Hx Hy) as R. unfold angle in *. rewrite rad_deg, cos_acos in H by exact R.
  assert (S : -1 < dot x y / norm x / norm y < 1) by nra. apply acos_range in S. pose proof PIpos.
  set (t := acos _) in *. unfold angle_ok. split.
  - apply Rmult_lt_reg_r with PI; [assumption|]. replace (t * 180 / PI * PI) with (t * 180) by (field; lra). lra.
  - apply Rmult_lt_reg_r with PI; [assumption|]. replace (t * 180 / PI * PI) with (t * 180) by (field; lra). lra.
Qed.
Lemma cell2cc_valid m : det m <> 0 -> valid (cell2cc m).
Proof.
  intros D. destruct (det_nonzero m D) as (Pa & Pb & Pc). pose proof (gram_cell m D) as G. cbv zeta in G.
  destruct (norm_pos _ Pa) as [Na Ea], (norm_pos _ Pb) as [Nb Eb], (norm_pos _ Pc) as [Nc Ec].
  assert (P : 0 < a_ (cell2cc m) * b_ (cell2cc m) * c_ (cell2cc m)) by (cbn; apply Rmult_lt_0_compat; [apply Rmult_lt_0_compat|]; assumption).
  assert (Gp : 0 < gram (rad (alpha (cell2cc m))) (rad (beta (cell2cc m))) (rad (gamma (cell2cc m)))).
  { assert (0 < det m ^ 2) by nra. set (g := gram _ _ _) in *. set (v := _ * c_ (cell2cc m)) in *. assert (0 < v ^ 2) by nra. nra. }
  destruct (gram_cos _ _ _ Gp) as (C3 & C1 & C2).
  split; [exact Na|]. split; [exact Nb|]. split; [exact Nc|].
  repeat split; try exact Gp; apply angle_is_ok; assumption.
Qed.
Lemma cc2cell_cell2cc m : det m <> 0 -> same_shape (cc2cell (cell2cc m)) m.
Proof.
  intros D. destruct (cell2cc_valid m D) as (_ & _ & _ & _ & _ & A3 & Gr). pose proof (sin_pos _ A3) as S.
  destruct (det_nonzero m D) as (Pa & Pb & Pc).
  destruct (cc2cell_metric (cell2cc m) (Rgt_not_eq _ _ S) (Rlt_le _ _ Gr)) as (M1 & M2 & M3 & M4 & M5 & M6).
  unfold same_shape. rewrite M1, M2, M3, M4, M5, M6. cbn [a_ b_ c_ alpha beta gamma cell2cc].
  rewrite !cos_angle by assumption. repeat split; apply norm_pos; assumption.
Qed.
Lemma volume_cc2cell k : valid k -> volume_cell (cc2cell k) = volume_cc k.
Proof.
  intros (Ha & Hb & Hc & A1 & A2 & A3 & Gr). pose proof (sin_pos _ A3) as S.
  unfold volume_cell, volume_cc. fold (rad (alpha k)) (rad (beta k)) (rad (gamma k)).
  destruct (cc2cell_metric k (Rgt_not_eq _ _ S) (Rlt_le _ _ Gr)) as (M1 & M2 & M3 & M4 & M5 & M6).
  pose proof (det_sq (cc2cell k)) as D. rewrite M1, M2, M3, M4, M5, M6 in D.
  set (A := rad (alpha k)) in *. set (B := rad (beta k)) in *. set (G := rad (gamma k)) in *. cbv zeta.
  fold (gram A B G). rewrite <- sqrt_Rsqr_abs. unfold Rsqr.
  replace (det (cc2cell k) * det (cc2cell k)) with ((a_ k * b_ k * c_ k) * (a_ k * b_ k * c_ k) * gram A B G).
  - rewrite sqrt_mult_alt by nra. rewrite sqrt_square; [reflexivity|]. apply Rlt_le. apply Rmult_lt_0_compat; [apply Rmult_lt_0_compat|]; assumption.
  - replace (det (cc2cell k) * det (cc2cell k)) with (det (cc2cell k) ^ 2) by ring. rewrite D. unfold gram. ring.
Qed.
Lemma volume_same m : det m <> 0 -> volume_cc (cell2cc m) = volume_cell m.
Proof.
  intros D. rewrite <- (volume_cc2cell _ (cell2cc_valid m D)). unfold volume_cell.
  destruct (cc2cell_cell2cc m D) as (E1 & E2 & E3 & E4 & E5 & E6).
  rewrite <- !sqrt_Rsqr_abs. f_equal. unfold Rsqr.
  replace (det (cc2cell (cell2cc m)) * det (cc2cell (cell2cc m))) with (det (cc2cell (cell2cc m)) ^ 2) by ring.
  replace (det m * det m) with (det m ^ 2) by ring. rewrite !det_sq, E1, E2, E3, E4, E5, E6. reflexivity.
Qed.

(** celldm *)
Lemma celldm_round k fac : 0 < a_ k -> angle_ok (alpha k) -> angle_ok (beta k) -> angle_ok (gamma k) -> fac <> 0 ->
  celldm2cc (cc2celldm k fac) (1 / fac) = k.
Proof.
  intros Ha A1 A2 A3 Hf. unfold celldm2cc, cc2celldm. cbn. fold (rad (alpha k)) (rad (beta k)) (rad (gamma k)).
  rewrite !acos_cos by (match goal with |- context [rad ?x] => idtac end; (apply rad_range in A1; apply rad_range in A2; apply rad_range in A3; lra)).
  pose proof PI_neq0. destruct k as [a b c al be ga]. cbn in *. unfold rad. f_equal; field; repeat split; auto; lra.
Qed.
Lemma celldm_round' d fac : d1 d <> 0 -> -1 <= d4 d <= 1 -> -1 <= d5 d <= 1 -> -1 <= d6 d <= 1 -> fac <> 0 ->
  cc2celldm (celldm2cc d fac) (1 / fac) = d.
Proof.
  intros Ha A1 A2 A3 Hf. unfold celldm2cc, cc2celldm. cbn. pose proof PI_neq0.
  replace (acos (d4 d) / PI * 180 * PI / 180) with (acos (d4 d)) by (field; auto).
  replace (acos (d5 d) / PI * 180 * PI / 180) with (acos (d5 d)) by (field; auto).
  replace (acos (d6 d) / PI * 180 * PI / 180) with (acos (d6 d)) by (field; auto).
  rewrite !cos_acos by assumption. destruct d as [x1 x2 x3 x4 x5 x6]. cbn in *. f_equal; field; auto.
Qed.

(** recip_cell *)
Lemma recip_dual m : det m <> 0 -> dual (2 * PI * (det m / volume_cell m)) (recip_cell m) m.
Proof.
  intros D. unfold recip_cell, volume_cell. assert (V : Rabs (det m) <> 0) by (apply Rabs_no_R0, D).
  set (w := Rabs (det m)) in *. clearbody w. unfold det, dual, dot, scale, cross. cbn. repeat split; field; exact V.
Qed.
Lemma det_recip m : det m <> 0 -> det (recip_cell m) = (2 * PI / volume_cell m) ^ 3 * det m ^ 2.
Proof. intros D. unfold recip_cell. set (w := 2 * PI / volume_cell m). unfold det, dot, scale, cross. cbn. ring. Qed.
Lemma recip_pos m : det m <> 0 -> 0 < det (recip_cell m) /\ volume_cell m * volume_cell (recip_cell m) = (2 * PI) ^ 3.
Proof.
  intros D. rewrite (det_recip m D). assert (V : 0 < volume_cell m) by (apply Rabs_pos_lt, D).
  assert (W : 0 < 2 * PI / volume_cell m) by (pose proof PIpos; apply Rdiv_lt_0_compat; lra).
  assert (E : det m ^ 2 = volume_cell m ^ 2) by (unfold volume_cell; symmetry; apply pow2_abs).
  assert (P : 0 < (2 * PI / volume_cell m) ^ 3 * det m ^ 2).
  { apply Rmult_lt_0_compat; [apply pow_lt, W|]. rewrite E. apply pow_lt, V. }
  split; [exact P|]. unfold volume_cell at 2. rewrite (det_recip m D), Rabs_pos_eq by lra. rewrite E. field. lra.
Qed.
Lemma recip_twice m : det m <> 0 ->
  recip_cell (recip_cell m) = Mat (scale (det m / volume_cell m) (ra m)) (scale (det m / volume_cell m) (rb m)) (scale (det m / volume_cell m) (rc m)).
Proof.
  intros D. destruct (recip_pos m D) as [P VV]. assert (V : 0 < volume_cell m) by (apply Rabs_pos_lt, D).
  assert (V2 : volume_cell (recip_cell m) = (2 * PI) ^ 3 / volume_cell m) by (rewrite <- VV; field; lra).
  unfold recip_cell at 1. rewrite V2. pose proof PI_neq0 as Pn. cbv zeta.
  assert (K : forall u v, cross (scale (2 * PI / volume_cell m) u) (scale (2 * PI / volume_cell m) v) =
              scale ((2 * PI / volume_cell m) ^ 2) (cross u v)) by (intros u v; unfold cross, scale; cbn; f_equal; ring).
  unfold recip_cell. cbn [ra rb rc]. cbv zeta. rewrite !K.
  assert (C1 : cross (cross (rc m) (ra m)) (cross (ra m) (rb m)) = scale (det m) (ra m)) by (unfold cross, scale, det, dot; cbn; f_equal; ring).
  assert (C2 : cross (cross (ra m) (rb m)) (cross (rb m) (rc m)) = scale (det m) (rb m)) by (unfold cross, scale, det, dot; cbn; f_equal; ring).
  assert (C3 : cross (cross (rb m) (rc m)) (cross (rc m) (ra m)) = scale (det m) (rc m)) by (unfold cross, scale, det, dot; cbn; f_equal; ring).
  rewrite C1, C2, C3. set (d := det m) in *. set (w := volume_cell m) in *. clearbody d w. clear - V Pn.
  unfold scale. cbn. f_equal; f_equal; field; split; lra.
Qed.
