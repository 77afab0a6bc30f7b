From Coq Require Import Reals ZArith Lia Lra Psatz.
From Verif Require Import Vec3 Cells CellsSpec Ibrav IbravSpec.
Open Scope R_scope.
Local Ltac Zify.zify_post_hook ::= Z.div_mod_to_equations.
Lemma even_mod n : even n <-> (n mod 2 = 0)%Z.
Proof.
  unfold even. split; [intros [k ->]; rewrite Z.mul_comm; apply Z.mod_mul; lia|].
  intro H. exists (n / 2)%Z. pose proof (Z.div_mod n 2). lia.
Qed.
Lemma vec_eq x y z x' y' z' : x = x' -> y = y' -> z = z' -> Vec x y z = Vec x' y' z'.
Proof. now intros -> -> ->. Qed.
(** Rows of the cell are half-integer combinations of the conventional vectors. *)
Lemma halves c conv cell (m11 m12 m13 m21 m22 m23 m31 m32 m33 : Z) :
  ra cell = comb (IZR m11 / 2) (IZR m12 / 2) (IZR m13 / 2) conv ->
  rb cell = comb (IZR m21 / 2) (IZR m22 / 2) (IZR m23 / 2) conv ->
  rc cell = comb (IZR m31 / 2) (IZR m32 / 2) (IZR m33 / 2) conv ->
  (forall n1 n2 n3, belongs c (n1 * m11 + n2 * m21 + n3 * m31)%Z (n1 * m12 + n2 * m22 + n3 * m32)%Z (n1 * m13 + n2 * m23 + n3 * m33)%Z) ->
  (forall i j k, belongs c i j k -> exists n1 n2 n3,
     i = (n1 * m11 + n2 * m21 + n3 * m31)%Z /\ j = (n1 * m12 + n2 * m22 + n3 * m32)%Z /\ k = (n1 * m13 + n2 * m23 + n3 * m33)%Z) ->
  forall v, lattice cell v <-> centred c conv v.
Proof.
  intros E1 E2 E3 F B v.
  assert (K : forall n1 n2 n3, comb (IZR n1) (IZR n2) (IZR n3) cell =
     comb (IZR (n1 * m11 + n2 * m21 + n3 * m31) / 2) (IZR (n1 * m12 + n2 * m22 + n3 * m32) / 2) (IZR (n1 * m13 + n2 * m23 + n3 * m33) / 2) conv).
  { intros. unfold comb at 1. rewrite E1, E2, E3. unfold comb, vadd, scale. cbn [vx vy vz].
    rewrite !plus_IZR, !mult_IZR. apply vec_eq; field. }
  split.
  - intros (n1 & n2 & n3 & ->). rewrite K. repeat eexists. apply F.
  - intros (i & j & k & Hb & ->). destruct (B _ _ _ Hb) as (n1 & n2 & n3 & -> & -> & ->).
    exists n1, n2, n3. symmetry. apply K.
Qed.
Lemma simple_self cell v : lattice cell v <-> centred Simple cell v.
Proof.
  apply (halves Simple cell cell 2 0 0 0 2 0 0 0 2); try (destruct cell as [[][][]]; unfold comb, vadd, scale; cbn; apply vec_eq; field).
  - intros. cbn [belongs]. rewrite !even_mod. lia.
  - cbn [belongs]. intros i j k ([p ->] & [q ->] & [r ->]). exists p, q, r. lia.
Qed.
Ltac coords := unfold smul, comb, vadd, scale; cbn [ra rb rc vx vy vz]; apply vec_eq; field; auto.
Ltac ints := clear; intros; cbn [belongs]; rewrite !even_mod; lia.
Definition orth (a b c : R) : mat := Mat (Vec a 0 0) (Vec 0 b 0) (Vec 0 0 c).
Lemma sq_norm x y z l : 0 < l -> x * x + y * y + z * z = l * l -> norm (Vec x y z) = l.
Proof. intros L E. unfold norm, dot. cbn. rewrite E. apply sqrt_square. lra. Qed.
Lemma orth_shape a b c : 0 < a -> 0 < b -> 0 < c -> has_shape (Shape a b c 0 0 0) (orth a b c).
Proof.
  intros. unfold has_shape, orth. cbn [ra rb rc la lb lc cosA cosB cosG].
  repeat split; try (apply sq_norm; [assumption|ring]); unfold dot; cbn; ring.
Qed.
Lemma orth_volume a b c : shape_volume (Shape a b c 0 0 0) = a * b * c.
Proof.
  unfold shape_volume. cbn. replace (1 + _ - _ - _ - _) with 1 by (unfold Rsqr; ring). rewrite sqrt_1. ring.
Qed.
Lemma sin_acos_pos x : -1 < x < 1 -> 0 < sin (acos x) /\ sin (acos x) * sin (acos x) = 1 - x * x.
Proof.
  intros H. rewrite sin_acos by lra. unfold Rsqr. assert (0 < 1 - x * x) by nra. split; [now apply sqrt_lt_R0|].
  apply sqrt_sqrt. lra.
Qed.
Lemma macos_ok x : -1 <= x <= 1 -> macos x = Some (acos x).
Proof. intros. unfold macos. destruct (Rle_dec (-1) x), (Rle_dec x 1); try reflexivity; lra. Qed.
Lemma msqrt_ok x : 0 <= x -> msqrt x = Some (sqrt x).
Proof. intros. unfold msqrt. destruct (Rle_dec 0 x); [reflexivity|contradiction]. Qed.
Lemma mdiv_ok x y : y <> 0 -> mdiv x y = Some (x / y).
Proof. intros. unfold mdiv. destruct (Req_EM_T y 0); [contradiction|reflexivity]. Qed.
Lemma sg_some g : (forall x, g = Some x -> -1 <= x <= 1) -> exists s, singamma g = Some s.
Proof. intros H. destruct g as [g|]; [|eexists; reflexivity]. unfold singamma. rewrite macos_ok by auto. eexists; reflexivity. Qed.
Lemma times_some r a : exists s, times r (Some a) = Some s.
Proof. destruct r; eexists; reflexivity. Qed.
Lemma mono_shape a b c g : 0 < a -> 0 < b -> 0 < c -> -1 < g < 1 ->
  has_shape (Shape a b c 0 0 g) (Mat (Vec a 0 0) (Vec (b * g) (b * sin (acos g)) 0) (Vec 0 0 c)).
Proof.
  intros ? ? ? G. destruct (sin_acos_pos g G) as [S1 S2]. unfold has_shape. cbn [ra rb rc la lb lc cosA cosB cosG].
  repeat split; try (apply sq_norm; [assumption|]); unfold dot; cbn; try ring.
  transitivity (b * b * (g * g + sin (acos g) * sin (acos g))); [ring|]. rewrite S2. ring.
Qed.
Lemma mono_volume a b c g : -1 < g < 1 -> shape_volume (Shape a b c 0 0 g) = a * b * c * sin (acos g).
Proof.
  intros G. unfold shape_volume. cbn. rewrite sin_acos by lra. f_equal. f_equal. unfold Rsqr. ring.
Qed.
Theorem ibrav_cell ibrav d a b c ca cb cg ctr s :
  supplied ibrav d a b c ca cb cg -> named ibrav a b c ca cb cg = Some (ctr, s) -> proper s ->
  exists cell, ibrav2cell ibrav d = Some cell /\ primitive_cell ctr s cell.
Proof.
  intros Sup Nm Pr.
  assert (Z1 : (1 <= ibrav <= 14)%Z).
  { destruct ibrav as [|p|p]; cbn in Nm; try discriminate. do 4 (try destruct p as [p|p|]); cbn in Nm; try discriminate; lia. }
  destruct d as [oa ob oc oal obe og].
  assert (C : (ibrav = 1 \/ ibrav = 2 \/ ibrav = 3 \/ ibrav = 4 \/ ibrav = 5 \/ ibrav = 6 \/ ibrav = 7 \/ ibrav = 8 \/ ibrav = 9 \/
               ibrav = 10 \/ ibrav = 11 \/ ibrav = 12 \/ ibrav = 13 \/ ibrav = 14)%Z) by lia.
  destruct C as [->|[->|[->|[->|[->|[->|[->|[->|[->|[->|[->|[->|[-> | ->]]]]]]]]]]]]];
  cbn in Sup; destruct Sup as (Ea & Gb & Gc & Gal & Gbe & Gg & Cg); injection Nm as <- <-;
  unfold proper in Pr; cbn [la lb lc cosA cosB cosG] in Pr; destruct Pr as (Pa & Pb & Pc & Qa & Qb & Qg & Gr);
  subst oa; repeat match goal with H : given _ _ _ |- _ => cbn in H; subst || clear H end;
  repeat match goal with H : True |- _ => clear H end; try subst ob; try subst oc; try subst oal; try subst obe; try subst og;
  destruct (sg_some _ Cg) as [sg Eg]; unfold ibrav2cell; cbn [aa_ bb_aa_ cc_aa_ cos_alpha_ cos_beta_ cos_gamma_].
  all: try (destruct (times_some ob a) as [tb ->]).
  all: try (destruct (times_some oc a) as [tc ->]).
  all: try rewrite Eg.
  all: cbn [times bind singamma].
  all: try (assert (Na : a <> 0) by lra).
  all: try (replace (b / a * a) with b by (field; exact Na)).
  all: try (replace (c / a * a) with c by (field; exact Na)).
  all: cbn [bind].
  all: rewrite ?mdiv_ok by exact Na; cbn [bind].
  - (* 1 *) eexists; split; [reflexivity|]. exists (orth a a a). split; [apply orth_shape; lra|]. split.
    + intro v. rewrite <- simple_self. unfold orth, smul, scale. cbn. rewrite !Rmult_0_r, !Rmult_1_r. tauto.
    + rewrite orth_volume. unfold det, dot, cross, smul, scale. cbn. field.
  - (* 2 *) eexists; split; [reflexivity|]. exists (orth a a a). split; [apply orth_shape; lra|]. split.
    + apply (halves _ _ _ (-1) 0 1 0 1 1 (-1) 1 0); unfold orth; try coords; [ints|].
      intros i j k H. assert (exists m, i + j + k = 2 * m)%Z as [m M].
      { apply even_mod. cbn [belongs] in H. rewrite !even_mod in H. lia. }
      exists (k - m)%Z, m, (j - m)%Z. lia.
    + rewrite orth_volume. unfold det, dot, cross, smul, scale. cbn. field.
  - (* 3 *) eexists; split; [reflexivity|]. exists (orth a a a). split; [apply orth_shape; lra|]. split.
    + apply (halves _ _ _ 1 1 1 (-1) 1 1 (-1) (-1) 1); unfold orth; try coords; [ints|].
      intros i j k H. assert ((exists m, j - i = 2 * m) /\ (exists m, k - j = 2 * m))%Z as [[m M] [n N]].
      { split; apply even_mod; cbn [belongs] in H; rewrite !even_mod in H; lia. }
      exists (i + m + n)%Z, m, n. lia.
    + rewrite orth_volume. unfold det, dot, cross, smul, scale. cbn. field.
  - (* 4 *) eexists; split; [reflexivity|].
    assert (S3 : sqrt 3 * sqrt 3 = 3) by (apply sqrt_sqrt; lra).
    eexists; split; [|split; [intro; apply simple_self|]].
    + unfold smul, scale, has_shape. cbn [ra rb rc vx vy vz la lb lc cosA cosB cosG].
      repeat split; try (apply sq_norm; [assumption|]); unfold dot; cbn [vx vy vz]; try (field; exact Na).
      transitivity (a * a * (1 / 4 + sqrt 3 * sqrt 3 / 4)); [field|]. rewrite S3. field.
    + unfold shape_volume. cbn [la lb lc cosA cosB cosG].
      replace (1 + _ - _ - _ - _) with (3 / 4) by (unfold Rsqr; field).
      replace (sqrt (3 / 4)) with (sqrt 3 / 2).
      2:{ rewrite sqrt_div by lra. f_equal. replace 4 with (2 * 2) by ring. symmetry. apply sqrt_square. lra. }
      unfold det, dot, cross, smul, scale. cbn. field. exact Na.
  - (* 5 *) cbn in Gr.
    assert (P : 0 < (1 - ca) * (1 - ca) * (1 + 2 * ca)) by (unfold Rsqr in Gr; nra).
    assert (P2 : 0 < 1 + 2 * ca). { apply (Rmult_lt_reg_l ((1 - ca) * (1 - ca))); nra. }
    rewrite !msqrt_ok by lra. cbn [bind]. eexists; split; [reflexivity|].
    assert (X : sqrt ((1 - ca) / 2) * sqrt ((1 - ca) / 2) = (1 - ca) / 2) by (apply sqrt_sqrt; lra).
    assert (Y : sqrt ((1 - ca) / 6) * sqrt ((1 - ca) / 6) = (1 - ca) / 6) by (apply sqrt_sqrt; lra).
    assert (Z : sqrt ((1 + 2 * ca) / 3) * sqrt ((1 + 2 * ca) / 3) = (1 + 2 * ca) / 3) by (apply sqrt_sqrt; lra).
    assert (V : 6 * sqrt ((1 - ca) / 2) * sqrt ((1 - ca) / 6) * sqrt ((1 + 2 * ca) / 3) =
                sqrt (1 + 2 * ca * ca * ca - Rsqr ca - Rsqr ca - Rsqr ca)).
    { apply Rsqr_inj; [|apply sqrt_pos|].
      - repeat apply Rmult_le_pos; try apply sqrt_pos; lra.
      - rewrite (Rsqr_sqrt (1 + _ - _ - _ - _)) by lra. unfold Rsqr.
        transitivity (36 * (sqrt ((1 - ca) / 2) * sqrt ((1 - ca) / 2)) * (sqrt ((1 - ca) / 6) * sqrt ((1 - ca) / 6)) *
                      (sqrt ((1 + 2 * ca) / 3) * sqrt ((1 + 2 * ca) / 3))); [ring|]. rewrite X, Y, Z. field. }
    set (tx := sqrt ((1 - ca) / 2)) in *. set (ty := sqrt ((1 - ca) / 6)) in *. set (tz := sqrt ((1 + 2 * ca) / 3)) in *.
    eexists; split; [|split; [intro; apply simple_self|]].
    + unfold smul, scale, has_shape. cbn [ra rb rc vx vy vz la lb lc cosA cosB cosG].
      repeat split; try (apply sq_norm; [assumption|]); unfold dot; cbn [vx vy vz].
      * transitivity (a * a * (tx * tx + ty * ty + tz * tz)); [ring|rewrite X, Y, Z; field].
      * transitivity (a * a * (4 * (ty * ty) + tz * tz)); [ring|rewrite Y, Z; field].
      * transitivity (a * a * (tx * tx + ty * ty + tz * tz)); [ring|rewrite X, Y, Z; field].
      * transitivity (a * a * (- 2 * (ty * ty) + tz * tz)); [ring|rewrite Y, Z; field].
      * transitivity (a * a * (- (tx * tx) + ty * ty + tz * tz)); [ring|rewrite X, Y, Z; field].
      * transitivity (a * a * (- 2 * (ty * ty) + tz * tz)); [ring|rewrite Y, Z; field].
    + unfold shape_volume. cbn [la lb lc cosA cosB cosG]. rewrite <- V.
      unfold det, dot, cross, smul, scale. cbn. field.
  - (* 6 *) eexists; split; [reflexivity|]. exists (orth a a c). split; [apply orth_shape; lra|]. split.
    + intro v. rewrite <- simple_self. unfold orth, smul, scale. cbn. rewrite !Rmult_0_r, !Rmult_1_r.
      replace (a * (c / a)) with c by (field; exact Na). tauto.
    + rewrite orth_volume. unfold det, dot, cross, smul, scale. cbn. field. exact Na.
  - (* 7 *) eexists; split; [reflexivity|]. exists (orth a a c). split; [apply orth_shape; lra|]. split.
    + apply (halves _ _ _ 1 (-1) 1 1 1 1 (-1) (-1) 1); unfold orth; try coords; [ints|].
      intros i j k H. assert ((exists m, i - j = 2 * m) /\ (exists m, k + j = 2 * m))%Z as [[m M] [n N]].
      { split; apply even_mod; cbn [belongs] in H; rewrite !even_mod in H; lia. }
      exists m, n, (k - m - n)%Z. lia.
    + rewrite orth_volume. unfold det, dot, cross, smul, scale. cbn. field. exact Na.
  - (* 8 *) eexists; split; [reflexivity|]. exists (orth a b c). split; [apply orth_shape; lra|]. split.
    + intro v. apply simple_self.
    + rewrite orth_volume. unfold det, dot, cross, smul, scale. cbn. field.
  - (* 9 *) eexists; split; [reflexivity|]. exists (orth a b c). split; [apply orth_shape; lra|]. split.
    + apply (halves _ _ _ 1 1 0 (-1) 1 0 0 0 2); unfold orth; try coords; [ints|].
      intros i j k H. assert ((exists m, j - i = 2 * m) /\ (exists m, k = 2 * m))%Z as [[m M] [n N]].
      { split; apply even_mod; cbn [belongs] in H; rewrite !even_mod in H; lia. }
      exists (i + m)%Z, m, n. lia.
    + rewrite orth_volume. unfold det, dot, cross, smul, scale. cbn. field.
  - (* 10 *) eexists; split; [reflexivity|]. exists (orth a b c). split; [apply orth_shape; lra|]. split.
    + apply (halves _ _ _ 1 0 1 1 1 0 0 1 1); unfold orth; try coords; [ints|].
      intros i j k H. assert (exists m, i + j + k = 2 * m)%Z as [m M].
      { apply even_mod. cbn [belongs] in H. rewrite !even_mod in H. lia. }
      exists (m - j)%Z, (m - k)%Z, (m - i)%Z. lia.
    + rewrite orth_volume. unfold det, dot, cross, smul, scale. cbn. field.
  - (* 11 *) eexists; split; [reflexivity|]. exists (orth a b c). split; [apply orth_shape; lra|]. split.
    + apply (halves _ _ _ 1 1 1 (-1) 1 1 (-1) (-1) 1); unfold orth; try coords; [ints|].
      intros i j k H. assert ((exists m, j - i = 2 * m) /\ (exists m, k - j = 2 * m))%Z as [[m M] [n N]].
      { split; apply even_mod; cbn [belongs] in H; rewrite !even_mod in H; lia. }
      exists (i + m + n)%Z, m, n. lia.
    + rewrite orth_volume. unfold det, dot, cross, smul, scale. cbn. field.
  - (* 12 *) unfold singamma in Eg. rewrite macos_ok in Eg by lra. injection Eg as <-. cbn [bind]. eexists; split; [reflexivity|].
    eexists; split; [now apply mono_shape|split; [intro; apply simple_self|]].
    rewrite mono_volume by exact Qg. unfold det, dot, cross. cbn. field.
  - (* 13 *) unfold singamma in Eg. rewrite macos_ok in Eg by lra. injection Eg as <-. cbn [bind]. eexists; split; [reflexivity|].
    eexists; split; [now apply (mono_shape a b c cg)|split].
    + apply (halves _ _ _ 1 0 (-1) 0 2 0 1 0 1); try coords; [ints|].
      intros i j k H. assert ((exists m, i - k = 2 * m) /\ (exists m, j = 2 * m))%Z as [[m M] [n N]].
      { split; apply even_mod; cbn [belongs] in H; rewrite !even_mod in H; lia. }
      exists m, n, (i - m)%Z. lia.
    + rewrite mono_volume by exact Qg. unfold det, dot, cross. cbn. field.
  - (* 14 *) unfold singamma in Eg. rewrite macos_ok in Eg by lra. injection Eg as <-. cbn [bind]. destruct (sin_acos_pos cg Qg) as [S1 S2].
    rewrite !mdiv_ok by lra. cbn [bind]. rewrite msqrt_ok by lra. cbn [bind]. rewrite mdiv_ok by lra. cbn [bind].
    eexists; split; [reflexivity|].
    assert (W : sqrt (1 + 2 * ca * cb * cg - ca² - cb² - cg²) * sqrt (1 + 2 * ca * cb * cg - ca² - cb² - cg²) =
                1 + 2 * ca * cb * cg - ca² - cb² - cg²) by (apply sqrt_sqrt; lra).
    set (w := sqrt (1 + 2 * ca * cb * cg - ca² - cb² - cg²)) in *. set (sn := sin (acos cg)) in *.
    eexists; split; [|split; [intro; apply simple_self|]].
    + unfold has_shape. cbn [ra rb rc vx vy vz la lb lc cosA cosB cosG].
      repeat split; try (apply sq_norm; [assumption|]); unfold dot; cbn [vx vy vz]; try (field; lra).
      * transitivity (b * b * (cg * cg + sn * sn)); [ring|]. rewrite S2. ring.
      * transitivity (c * c * (cb * cb + ((ca - cb * cg) * (ca - cb * cg) + w * w) / (sn * sn))); [field; lra|].
        rewrite S2, W. unfold Rsqr. field. nra.
    + unfold shape_volume. cbn [la lb lc cosA cosB cosG]. fold w. unfold det, dot, cross. cbn. field. lra.
Qed.
Lemma ibrav_needs ibrav d cell : ibrav2cell ibrav d = Some cell ->
  (1 <= ibrav <= 14)%Z /\
  let '(nb, nc, na, nbeta, ng) := needs ibrav in
  aa_ d <> None /\ is_given nb (bb_aa_ d) /\ is_given nc (cc_aa_ d) /\ is_given na (cos_alpha_ d) /\
  is_given nbeta (cos_beta_ d) /\ is_given ng (cos_gamma_ d).
Proof.
  destruct d as [oa ob oc oal obe og]. unfold ibrav2cell, is_given. cbn [aa_ bb_aa_ cc_aa_ cos_alpha_ cos_beta_ cos_gamma_]. intros H.
  destruct oa as [a|].
  2:{ exfalso. destruct ob, oc; cbn in H; try discriminate H. destruct (singamma og); cbn in H; try discriminate H.
      destruct ibrav as [|p|p]; try discriminate H; do 4 (try destruct p as [p|p|]); discriminate H. }
  destruct (times_some ob a) as [tb Tb], (times_some oc a) as [tc Tc]. rewrite Tb, Tc in H. cbn [bind] in H.
  destruct (singamma og) as [sg|] eqn:Eg; cbn [bind] in H; [|discriminate H].
  assert (B0 : ob = None -> tb = None) by (intros ->; now injection Tb as <-).
  assert (C0 : oc = None -> tc = None) by (intros ->; now injection Tc as <-).
  destruct ibrav as [|p|p]; try discriminate H; do 4 (try destruct p as [p|p|]); try discriminate H; (split; [lia|]);
  cbn [needs]; repeat split; try discriminate; intros _; intros E;
  repeat match goal with K : ?o = None -> _ = None, E : ?o = None |- _ => specialize (K E) end;
  try subst tb; try subst tc; try subst oal; try subst obe; try subst og; cbn [bind] in H;
  repeat match type of H with context [bind ?x _] => destruct x; cbn [bind] in H end; discriminate H.
Qed.
Lemma ibrav_unneeded ibrav d d' a :
  aa_ d = Some a -> aa_ d' = Some a ->
  (let '(nb, nc, na, nbeta, ng) := needs ibrav in
   agrees nb (bb_aa_ d) (bb_aa_ d') /\ agrees nc (cc_aa_ d) (cc_aa_ d') /\ agrees na (cos_alpha_ d) (cos_alpha_ d') /\
   agrees nbeta (cos_beta_ d) (cos_beta_ d') /\ agrees ng (cos_gamma_ d) (cos_gamma_ d')) ->
  (forall g, cos_gamma_ d = Some g -> -1 <= g <= 1) -> (forall g, cos_gamma_ d' = Some g -> -1 <= g <= 1) ->
  ibrav2cell ibrav d = ibrav2cell ibrav d'.
Proof.
  destruct d as [oa ob oc oal obe og], d' as [oa' ob' oc' oal' obe' og']. unfold ibrav2cell, agrees.
  cbn [aa_ bb_aa_ cc_aa_ cos_alpha_ cos_beta_ cos_gamma_]. intros -> -> Ag G G'.
  destruct (sg_some _ G) as [s Es], (sg_some _ G') as [s' Es'].
  destruct (times_some ob a) as [tb Tb], (times_some oc a) as [tc Tc], (times_some ob' a) as [tb' Tb'], (times_some oc' a) as [tc' Tc'].
  rewrite Es, Es', Tb, Tc, Tb', Tc'. cbn [bind].
  assert (B0 : ob = ob' -> tb = tb') by (intros <-; congruence).
  assert (C0 : oc = oc' -> tc = tc') by (intros <-; congruence).
  assert (S0 : og = og' -> s = s') by (intros <-; congruence).
  destruct ibrav as [|p|p]; try reflexivity; do 4 (try destruct p as [p|p|]); try reflexivity; cbn [needs] in Ag;
  destruct Ag as (A1 & A2 & A3 & A4 & A5);
  repeat match goal with K : true = true -> _ |- _ => specialize (K eq_refl) end;
  repeat match goal with K : ?x -> _, E : ?x |- _ => specialize (K E) end;
  repeat match goal with E : _ = _ |- _ => first [rewrite E | clear E] end; try reflexivity; congruence.
Qed.
Lemma rad_deg x : x / PI * 180 * PI / 180 = x.
Proof. field. apply PI_neq0. Qed.
Theorem ibrav14 a b c ca cb cg : let d := Celldm a (b / a) (c / a) ca cb cg in
  proper (Shape a b c ca cb cg) ->
  ibrav2cell 14 (DM (Some a) (Some (b / a)) (Some (c / a)) (Some ca) (Some cb) (Some cg)) = Some (cc2cell (celldm2cc d 1)).
Proof.
  intros d (Pa & Pb & Pc & Qa & Qb & Qg & Gr). cbn [la lb lc cosA cosB cosG] in *.
  unfold ibrav2cell. cbn [aa_ bb_aa_ cc_aa_ cos_alpha_ cos_beta_ cos_gamma_ times bind singamma].
  rewrite macos_ok by lra. cbn [bind]. destruct (sin_acos_pos cg Qg) as [S1 S2].
  assert (Na : a <> 0) by lra.
  replace (b / a * a) with b by (field; exact Na). replace (c / a * a) with c by (field; exact Na).
  rewrite !mdiv_ok by lra. cbn [bind]. rewrite msqrt_ok by lra. cbn [bind]. rewrite mdiv_ok by lra. cbn [bind]. f_equal.
  unfold cc2cell, celldm2cc, d. cbn [Cells.a_ Cells.b_ Cells.c_ alpha beta gamma d1 d2 d3 d4 d5 d6]. rewrite !rad_deg, !cos_acos, Rmult_1_r by lra.
  replace (b / a * a) with b by (field; exact Na). replace (c / a * a) with c by (field; exact Na).
  f_equal. f_equal.
  symmetry. set (sn := sin (acos cg)) in *.
  replace (c ^ 2 - _ - _) with ((c / sn) ^ 2 * (1 + 2 * ca * cb * cg - ca² - cb² - cg²)).
  2:{ transitivity (c ^ 2 * ((1 - cb * cb) * (1 - cg * cg) - (ca - cb * cg) ^ 2) / (sn * sn)).
      - unfold Rsqr. field. lra.
      - rewrite <- S2. field. lra. }
  rewrite sqrt_mult_alt by (apply pow2_ge_0).
  rewrite sqrt_pow2. { field. lra. }
  apply Rlt_le. apply Rdiv_lt_0_compat; lra.
Qed.
