From Coq Require Import Reals List Lra Lia Sorted.
From Coquelicot Require Import Coquelicot.
From Verif Require Import Thermo ThermoSpec.
Import ListNotations.
Local Open Scope R_scope.

(** ** trapz over sampled functions *)
Section Trapz.
Context {A : Type}.
Variable xof : A -> R.

Definition tz (g : A -> R) (l : list A) : R := trapz (map g l) (map xof l).

Lemma tz_cons g a b l : tz g (a :: b :: l) = (xof b - xof a) * (g b + g a) / 2 + tz g (b :: l).
Proof. reflexivity. Qed.
Lemma tz_nil g : tz g [] = 0. Proof. reflexivity. Qed.
Lemma tz_one g a : tz g [a] = 0. Proof. reflexivity. Qed.

Lemma tz_ind (P : list A -> Prop) : P [] -> (forall a, P [a]) -> (forall a b l, P (b :: l) -> P (a :: b :: l)) -> forall l, P l.
Proof.
  intros H0 H1 H2. induction l as [|a l IH]; [exact H0|]. destruct l as [|b l]; [apply H1 | apply H2; exact IH].
Qed.

Lemma tz_lin c g1 g2 l : tz (fun a => c * g1 a + g2 a) l = c * tz g1 l + tz g2 l.
Proof.
  pattern l. apply tz_ind; intros; [rewrite !tz_nil; ring | rewrite !tz_one; ring|].
  rewrite !tz_cons, H. field.
Qed.

Lemma tz_ext g1 g2 l : (forall a, In a l -> g1 a = g2 a) -> tz g1 l = tz g2 l.
Proof. intro H. unfold tz. rewrite (map_ext_in g1 g2) by exact H. reflexivity. Qed.

Lemma tz_scal c g l : tz (fun a => c * g a) l = c * tz g l.
Proof.
  rewrite (tz_ext _ (fun a => c * g a + 0 * g a)) by (intros; ring).
  rewrite (tz_lin c g (fun a => 0 * g a)).
  rewrite (tz_ext (fun a => 0 * g a) (fun a => 0 * g a + (fun _ => 0) a)) by (intros; ring).
  rewrite tz_lin. assert (Z : tz (fun _ => 0) l = 0).
  { pattern l. apply tz_ind; intros; [reflexivity | reflexivity|]. rewrite tz_cons, H. field. }
  rewrite Z. ring.
Qed.

Lemma tz_le g1 g2 l : StronglySorted Rle (map xof l) -> (forall a, In a l -> g1 a <= g2 a) -> tz g1 l <= tz g2 l.
Proof.
  pattern l. apply tz_ind; intros; [rewrite !tz_nil; lra | rewrite !tz_one; lra|].
  rewrite !tz_cons. cbn [map] in H0. inversion H0 as [|? ? S F]; subst. inversion F as [|? ? L _]; subst.
  specialize (H S ltac:(intros; apply H1; right; assumption)).
  pose proof (H1 a ltac:(left; reflexivity)). pose proof (H1 b ltac:(right; left; reflexivity)). nra.
Qed.

Lemma tz_pos g l : StronglySorted Rle (map xof l) -> (forall a, In a l -> 0 <= g a) -> 0 <= tz g l.
Proof.
  intros S H. replace 0 with (tz (fun _ => 0) l) at 1.
  - apply tz_le; assumption.
  - pattern l. apply tz_ind; intros; [reflexivity | reflexivity|]. rewrite tz_cons, H0. field.
Qed.

Lemma tz_derive (g : R -> A -> R) (g' : A -> R) l t :
  (forall a, In a l -> is_derive (fun x => g x a) t (g' a)) ->
  is_derive (fun x => tz (g x) l) t (tz g' l).
Proof.
  pattern l. apply tz_ind; intros.
  - apply (is_derive_ext (fun _ => 0)); [reflexivity|]. exact (@is_derive_const R_AbsRing R_NormedModule 0 t).
  - apply (is_derive_ext (fun _ => 0)); [reflexivity|]. exact (@is_derive_const R_AbsRing R_NormedModule 0 t).
  - assert (E : forall x, (xof b - xof a) / 2 * (g x b + g x a) + tz (g x) (b :: l0) = tz (g x) (a :: b :: l0)).
    { intro x. rewrite tz_cons. field. }
    apply (is_derive_ext _ _ _ _ E).
    rewrite tz_cons. replace ((xof b - xof a) * (g' b + g' a) / 2) with ((xof b - xof a) / 2 * (g' b + g' a)) by field.
    apply (@is_derive_plus R_AbsRing R_NormedModule (fun x => (xof b - xof a) / 2 * (g x b + g x a)) (fun x => tz (g x) (b :: l0))).
    + apply is_derive_scal. apply (@is_derive_plus R_AbsRing R_NormedModule (fun x => g x b) (fun x => g x a)); apply H0; cbn; auto.
    + apply H. intros; apply H0; right; assumption.
Qed.

Lemma tz_lim (g : R -> A -> R) (g' : A -> R) l :
  (forall a, In a l -> is_lim (fun x => g x a) p_infty (g' a)) ->
  is_lim (fun x => tz (g x) l) p_infty (tz g' l).
Proof.
  pattern l. apply tz_ind; intros.
  - apply (is_lim_ext (fun _ => 0)); [reflexivity | apply is_lim_const].
  - apply (is_lim_ext (fun _ => 0)); [reflexivity | apply is_lim_const].
  - apply (is_lim_ext (fun x => (xof b - xof a) / 2 * (g x b + g x a) + tz (g x) (b :: l0))).
    { intro x. rewrite tz_cons. field. }
    rewrite tz_cons. replace ((xof b - xof a) * (g' b + g' a) / 2) with ((xof b - xof a) / 2 * (g' b + g' a)) by field.
    apply (is_lim_plus' _ _ p_infty ((xof b - xof a) / 2 * (g' b + g' a)) (tz g' (b :: l0))).
    + apply (is_lim_scal_l (fun x => g x b + g x a) ((xof b - xof a) / 2) p_infty (g' b + g' a)).
      apply (is_lim_plus' _ _ p_infty (g' b) (g' a)); apply H0; cbn; auto.
    + apply H. intros; apply H0; right; assumption.
Qed.
End Trapz.

(** ** hyperbolic functions *)
Lemma sinh_pos x : 0 < x -> 0 < sinh x.
Proof. intro H. unfold sinh. pose proof (exp_increasing (- x) x ltac:(lra)). lra. Qed.

Lemma exp_half x : exp x = exp (x / 2) * exp (x / 2).
Proof. rewrite <- exp_plus. f_equal. field. Qed.
Lemma exp_mhalf x : exp (- (x / 2)) = / exp (x / 2).
Proof. apply exp_Ropp. Qed.
Lemma exp_gt1 x : 0 < x -> 1 < exp x.
Proof. intro H. rewrite <- exp_0. apply exp_increasing. exact H. Qed.

Lemma coth_bose x : 0 < x -> 1 / 2 * coth (x / 2) = 1 / 2 + 1 / (exp x - 1).
Proof.
  intro H. unfold coth, tanh, sinh, cosh. rewrite (exp_half x), (exp_mhalf x).
  pose proof (exp_gt1 (x / 2) ltac:(lra)) as E. set (e := exp (x / 2)) in *. clearbody e.
  assert (e * e - 1 <> 0) by nra. field. repeat split; try lra; nra.
Qed.

Lemma ln_sinh x : 0 < x -> ln (2 * sinh (x / 2)) = x / 2 + ln (1 - exp (- x)).
Proof.
  intro H. assert (Q : 0 < 1 - exp (- x)).
  { pose proof (exp_increasing (- x) 0 ltac:(lra)). rewrite exp_0 in H0. lra. }
  rewrite <- (ln_exp (x / 2)) at 2. rewrite <- ln_mult by (assumption || apply exp_pos). f_equal.
  unfold sinh. replace (exp (x / 2) * (1 - exp (- x))) with (exp (x / 2) - exp (x / 2) * exp (- x)) by ring.
  rewrite <- exp_plus. replace (x / 2 + - x) with (- (x / 2)) by field. field.
Qed.

Lemma entropy_pos x : 0 < x -> 0 < x / 2 * coth (x / 2) - ln (2 * sinh (x / 2)).
Proof.
  intro H. rewrite ln_sinh by exact H.
  replace (x / 2 * coth (x / 2)) with (x * (1 / 2 * coth (x / 2))) by field. rewrite coth_bose by exact H.
  pose proof (exp_gt1 x H). assert (0 < 1 / (exp x - 1)) by (apply Rdiv_lt_0_compat; lra).
  assert (ln (1 - exp (- x)) < 0).
  { rewrite <- ln_1. pose proof (exp_increasing (- x) 0 ltac:(lra)) as L. rewrite exp_0 in L.
    pose proof (exp_pos (- x)). apply ln_increasing; lra. }
  nra.
Qed.

Lemma cosh_ge1 x : 1 <= cosh x.
Proof.
  unfold cosh. rewrite exp_Ropp. pose proof (exp_pos x) as P. set (e := exp x) in *. clearbody e.
  apply Rmult_le_reg_l with (2 * e); [lra|]. replace (2 * e * ((e + / e) / 2)) with (e * e + 1) by (field; lra).
  pose proof (Rle_0_sqr (e - 1)) as Q. unfold Rsqr in Q. nra.
Qed.

Lemma cosh_mono x y : 0 <= x <= y -> cosh x <= cosh y.
Proof.
  intro H. unfold cosh. rewrite !exp_Ropp.
  assert (exp x <= exp y) by (destruct (Rle_lt_or_eq_dec x y ltac:(lra)) as [L| ->]; [left; apply exp_increasing; exact L | lra]).
  assert (1 <= exp x). { rewrite <- exp_0. destruct (Rle_lt_or_eq_dec 0 x ltac:(lra)) as [L| <-]; [left; apply exp_increasing; exact L | lra]. }
  set (a := exp x) in *. set (b := exp y) in *. clearbody a b.
  apply Rmult_le_reg_l with (2 * a * b); [nra|].
  replace (2 * a * b * ((a + / a) / 2)) with (a * a * b + b) by (field; lra).
  replace (2 * a * b * ((b + / b) / 2)) with (a * b * b + a) by (field; lra).
  assert (0 <= (b - a) * (a * b - 1)) by (apply Rmult_le_pos; nra). nra.
Qed.

Lemma sinh_bounds x : 0 < x -> x <= sinh x <= x * cosh x.
Proof.
  intro H. destruct (MVT_cor2 sinh cosh 0 x H) as (c & E & C).
  { intros. apply derivable_pt_lim_sinh. }
  replace (sinh 0) with 0 in E by (unfold sinh; rewrite Ropp_0; field).
  pose proof (cosh_ge1 c). pose proof (cosh_mono c x ltac:(lra)). nra.
Qed.

(** ** the formulas at one frequency *)
Section Point.
Variables hh kb eV : R.
Hypothesis Hh : 0 < hh.
Hypothesis Hkb : 0 < kb.
Hypothesis HeV : 0 < eV.

Variables f T : R.
Hypothesis Hf : 0 < f.
Hypothesis HT : 0 < T.

Lemma arg_pos : 0 < hh * f / (kb * T).
Proof. apply Rdiv_lt_0_compat; apply Rmult_lt_0_compat; assumption. Qed.

Lemma s_point : 1 / 2 / T * (hh / kb) * f * coth (hh * f / (kb * T) / 2) = hh * f / (kb * T) / 2 * coth (hh * f / (kb * T) / 2).
Proof. field. lra. Qed.

Lemma e_point : f * (1 / 2 + 1 / (exp (hh * f / (kb * T)) - 1)) * (hh / eV) =
  ln (2 * sinh (hh * f / (kb * T) / 2)) * T * (kb / eV) +
  T * (1 / 2 / T * (hh / kb) * f * coth (hh * f / (kb * T) / 2) - ln (2 * sinh (hh * f / (kb * T) / 2))) * (kb / eV).
Proof.
  rewrite <- coth_bose by apply arg_pos. field. lra.
Qed.

Lemma f_derive : is_derive (fun t => ln (2 * sinh (hh * f / (kb * t) / 2)) * t) T
  (- (1 / 2 / T * (hh / kb) * f * coth (hh * f / (kb * T) / 2) - ln (2 * sinh (hh * f / (kb * T) / 2)))).
Proof.
  pose proof arg_pos as A. pose proof (sinh_pos (hh * f / (kb * T) / 2) ltac:(lra)) as S.
  assert (KT : kb * T <> 0) by (apply Rgt_not_eq; apply Rmult_lt_0_compat; assumption).
  unfold coth, tanh, sinh, cosh in *. auto_derive.
  - split; [exact KT|]. split; [exact KT|]. split; [|exact Logic.I]. unfold Rdiv, Rminus in S. lra.
  - replace (hh * f * / (kb * T) * / 2) with (hh * f / (kb * T) / 2) by reflexivity.
    set (y := hh * f / (kb * T) / 2) in *.
    set (L := ln (2 * ((exp y + - exp (- y)) * / 2))).
    replace (ln (2 * ((exp y - exp (- y)) / 2))) with L by reflexivity. clearbody L.
    assert (exp y - exp (- y) <> 0) by lra.
    assert (exp y + exp (- y) <> 0) by (pose proof (exp_pos y); pose proof (exp_pos (- y)); lra).
    clearbody y. field. repeat split; lra.
Qed.

Lemma e_derive : is_derive (fun t => f * (1 / 2 + 1 / (exp (hh * f / (kb * t)) - 1)) * (hh / eV)) T
  (kb / eV * (f ^ 2 / sinh (hh * f / (kb * T) / 2) ^ 2 * (hh / (kb * 2 * T)) ^ 2)).
Proof.
  pose proof arg_pos as A. pose proof (exp_gt1 _ A) as E.
  assert (S2 : sinh (hh * f / (kb * T) / 2) ^ 2 = (exp (hh * f / (kb * T)) - 1) ^ 2 / (4 * exp (hh * f / (kb * T)))).
  { unfold sinh. rewrite (exp_half (hh * f / (kb * T))), (exp_mhalf (hh * f / (kb * T))).
    pose proof (exp_pos (hh * f / (kb * T) / 2)). field. lra. }
  assert (KT : kb * T <> 0) by (apply Rgt_not_eq; apply Rmult_lt_0_compat; assumption).
  rewrite S2. auto_derive.
  - split; [exact KT|]. split; [|exact Logic.I]. unfold Rdiv, Rminus in E. lra.
  - replace (hh * f * / (kb * T)) with (hh * f / (kb * T)) by reflexivity.
    set (e := exp (hh * f / (kb * T))) in *. clearbody e. field. repeat split; lra.
Qed.

Lemma cv_point : let y := hh * f / (kb * T) / 2 in
  f ^ 2 / sinh y ^ 2 * (hh / (kb * 2 * T)) ^ 2 = (y / sinh y) ^ 2.
Proof.
  cbv zeta. pose proof arg_pos. pose proof (sinh_pos (hh * f / (kb * T) / 2) ltac:(lra)). field. repeat split; lra.
Qed.

Lemma cv_bounds : 0 <= f ^ 2 / sinh (hh * f / (kb * T) / 2) ^ 2 * (hh / (kb * 2 * T)) ^ 2 <= 1.
Proof.
  pose proof cv_point as E. cbv zeta in E. rewrite E. clear E. pose proof arg_pos as A.
  set (y := hh * f / (kb * T) / 2). assert (Y : 0 < y) by (unfold y; lra). clearbody y.
  pose proof (sinh_bounds y Y). assert (0 <= y / sinh y <= 1).
  { split; [apply Rlt_le, Rdiv_lt_0_compat; [exact Y | apply sinh_pos; exact Y]|].
    apply Rmult_le_reg_r with (sinh y); [apply sinh_pos; exact Y|].
    unfold Rdiv. rewrite Rmult_assoc, Rinv_l by (pose proof (sinh_pos y Y); lra). lra. }
  nra.
Qed.
End Point.

(** high temperature: (y / sinh y)^2 -> 1 *)
Lemma cv_lim hh kb f : 0 < hh -> 0 < kb -> 0 < f ->
  is_lim (fun T => f ^ 2 / sinh (hh * f / (kb * T) / 2) ^ 2 * (hh / (kb * 2 * T)) ^ 2) p_infty 1.
Proof.
  intros Hh Hk Hf.
  assert (Y0 : is_lim (fun T => hh * f / (kb * T) / 2) p_infty 0).
  { apply (is_lim_ext_loc (fun T => hh * f / (2 * kb) * / T)).
    { exists 0. intros x Hx. field. lra. }
    replace (Finite 0) with (Rbar_mult (hh * f / (2 * kb)) 0) by (cbn; f_equal; ring).
    apply is_lim_scal_l. replace (Finite 0) with (Rbar_inv p_infty) by reflexivity. apply is_lim_inv; [apply is_lim_id | discriminate]. }
  apply (is_lim_le_le_loc (fun T => / (cosh (hh * f / (kb * T) / 2)) ^ 2) (fun _ => 1)).
  - exists 0. intros T HT.
    split; [|apply cv_bounds; assumption].
    pose proof (cv_point hh kb Hh Hk f T Hf HT) as E. cbv zeta in E. rewrite E. clear E.
    pose proof (arg_pos hh kb Hh Hk f T Hf HT) as A.
    set (y := hh * f / (kb * T) / 2). assert (Yp : 0 < y) by (unfold y; lra). clearbody y.
    pose proof (sinh_bounds y Yp) as B. pose proof (sinh_pos y Yp) as S. pose proof (cosh_ge1 y) as C.
    replace (/ cosh y ^ 2) with ((/ cosh y) ^ 2) by (field; lra).
    apply pow_incr. split; [left; apply Rinv_0_lt_compat; lra|].
    apply Rmult_le_reg_r with (cosh y * sinh y); [nra|].
    replace (/ cosh y * (cosh y * sinh y)) with (sinh y) by (field; lra).
    replace (y / sinh y * (cosh y * sinh y)) with (y * cosh y) by (field; lra). lra.
  - replace (Finite 1) with (Finite (/ cosh 0 ^ 2)).
    2:{ unfold cosh. rewrite Ropp_0, exp_0. f_equal. field. }
    apply (is_lim_comp_continuous (fun T => hh * f / (kb * T) / 2) (fun y => / cosh y ^ 2) p_infty 0 Y0).
    unfold cosh. apply (ex_derive_continuous (fun y => / ((exp y + exp (- y)) / 2) ^ 2)). auto_derive.
    rewrite Ropp_0, exp_0. lra.
  - apply is_lim_const.
Qed.


Section Methods.
Variables hplanck c0 kb eV : R.
Hypothesis Hp : 0 < hplanck.
Hypothesis Hc : 0 < c0.
Hypothesis Hkb : 0 < kb.
Hypothesis HeV : 0 < eV.

Lemma h_pos : 0 < h hplanck c0.
Proof. unfold h. nra. Qed.

Definition pts (ha : harmonic) := combine (doses ha) (freqs ha).

Lemma snd_pts ha : positive_freqs ha -> map snd (pts ha) = freqs ha.
Proof.
  intros [L _]. unfold pts. revert L. generalize (doses ha) (freqs ha).
  induction l as [|d l IH]; intros [|f fs] L; try discriminate; [reflexivity|]. cbn. f_equal. apply IH. cbn in L. lia.
Qed.
Lemma fst_pts ha : positive_freqs ha -> map fst (pts ha) = doses ha.
Proof.
  intros [L _]. unfold pts. revert L. generalize (doses ha) (freqs ha).
  induction l as [|d l IH]; intros [|f fs] L; try discriminate; [reflexivity|]. cbn. f_equal. apply IH. cbn in L. lia.
Qed.

Lemma pts_in ha d f : positive_freqs ha -> In (d, f) (pts ha) -> 0 < f.
Proof. intros [_ F] I. rewrite Forall_forall in F. apply F. unfold pts in I. eapply in_combine_r. exact I. Qed.
Lemma pts_dos ha d f : proper ha -> In (d, f) (pts ha) -> 0 <= d.
Proof. intros (_ & _ & F) I. rewrite Forall_forall in F. apply F. unfold pts in I. eapply in_combine_l. exact I. Qed.

Lemma integrate_tz ha g : positive_freqs ha -> integrate trapz ha g = tz snd (fun df => g (fst df) (snd df)) (pts ha).
Proof. intro P. unfold integrate, tz. rewrite snd_pts by exact P. reflexivity. Qed.

Lemma pts_sorted ha : proper ha -> StronglySorted Rle (map snd (pts ha)).
Proof. intros (P & S & _). rewrite snd_pts by exact P. exact S. Qed.

(** ** E = F + T S *)
Lemma combine_map {A} (g1 g2 : A -> R) (k : R * R -> R) l :
  map k (combine (map g1 l) (map g2 l)) = map (fun a => k (g1 a, g2 a)) l.
Proof. induction l; cbn; [reflexivity|]. f_equal. exact IHl. Qed.

Lemma pts_length ha : positive_freqs ha -> length (pts ha) = length (freqs ha).
Proof. intros [L _]. unfold pts. rewrite combine_length, L. apply Nat.min_id. Qed.

Lemma energy integ ha T : linear integ -> positive_freqs ha -> 0 < T ->
  evib1 hplanck c0 kb eV integ ha T =
  fvib1 hplanck c0 kb eV integ ha T + T * svib1 hplanck c0 kb integ ha T * (kb / eV).
Proof.
  intros Lin P HT. pose proof h_pos as Hh. unfold evib1, fvib1, svib1, integrate. fold (pts ha).
  set (hh := h hplanck c0) in *.
  set (yF := map (fun df : R * R => fst df * ln (2 * sinh (hh * snd df / (kb * T) / 2))) (pts ha)).
  set (yS := map (fun df : R * R => fst df * (1 / 2 / T * (hh / kb) * snd df * coth (hh * snd df / (kb * T) / 2) -
               ln (2 * sinh (hh * snd df / (kb * T) / 2)))) (pts ha)).
  set (c := kb * T / hh).
  assert (E : map (fun df : R * R => fst df * snd df * (1 / 2 + 1 / (exp (hh * snd df / (kb * T)) - 1))) (pts ha) =
              map (fun p => c * fst p + c * snd p) (combine yF yS)).
  { unfold yF, yS. rewrite combine_map. apply map_ext_in. intros [d f] I. cbn [fst snd].
    pose proof (e_point hh kb 1 Hh Hkb ltac:(lra) f T (pts_in ha d f P I) HT) as Ep.
    set (B := 1 / 2 + 1 / (exp (hh * f / (kb * T)) - 1)) in *.
    set (Ln := ln (2 * sinh (hh * f / (kb * T) / 2))) in *.
    set (Q := 1 / 2 / T * (hh / kb) * f * coth (hh * f / (kb * T) / 2)) in *. clearbody B Ln Q. unfold c.
    replace (d * f * B) with (d * / hh * (f * B * (hh / 1))) by (field; lra). rewrite Ep. field. lra. }
  rewrite E, Lin.
  - unfold c. field. split; lra.
  - unfold yF. rewrite map_length. apply pts_length. exact P.
  - unfold yS. rewrite map_length. apply pts_length. exact P.
Qed.

Lemma trapz_linear : linear trapz.
Proof.
  intros a b y1 y2 x L1 L2.
  assert (E : exists l : list (R * R * R), y1 = map (fun t => fst (fst t)) l /\ y2 = map (fun t => snd (fst t)) l /\ x = map snd l).
  { exists (combine (combine y1 y2) x). revert y2 x L1 L2.
    induction y1 as [|u y1 IH]; intros [|v y2] [|w x] L1 L2; try discriminate; [repeat split|].
    cbn in L1, L2. destruct (IH y2 x ltac:(lia) ltac:(lia)) as (A & B & C). cbn. rewrite <- A, <- B, <- C. auto. }
  destruct E as (l & -> & -> & ->). rewrite combine_map.
  transitivity (tz snd (fun t : R * R * R => a * fst (fst t) + b * snd (fst t)) l); [reflexivity|].
  rewrite (tz_lin snd a (fun t => fst (fst t)) (fun t => b * snd (fst t)) l).
  rewrite (tz_scal snd b (fun t => snd (fst t)) l). reflexivity.
Qed.

(** ** derivatives with respect to the temperature *)
Lemma free_derive ha T : positive_freqs ha -> 0 < T ->
  is_derive (fun t => fvib1 hplanck c0 kb eV trapz ha t) T (- (kb / eV) * svib1 hplanck c0 kb trapz ha T).
Proof.
  intros P HT. pose proof h_pos as Hh. unfold fvib1, svib1. set (hh := h hplanck c0) in *.
  assert (E : forall t, kb / eV * tz snd (fun df => fst df * (ln (2 * sinh (hh * snd df / (kb * t) / 2)) * t)) (pts ha) =
    integrate trapz ha (fun dos f => dos * ln (2 * sinh (hh * f / (kb * t) / 2))) * t * (kb / eV)).
  { intro t. rewrite integrate_tz by exact P.
    rewrite (tz_ext snd _ (fun df => t * (fst df * ln (2 * sinh (hh * snd df / (kb * t) / 2))))) by (intros; ring).
    rewrite tz_scal. ring. }
  apply (is_derive_ext _ _ _ _ E). rewrite integrate_tz by exact P.
  replace (- (kb / eV) * tz snd _ (pts ha)) with (kb / eV * tz snd (fun df => fst df *
    (- (1 / 2 / T * (hh / kb) * snd df * coth (hh * snd df / (kb * T) / 2) - ln (2 * sinh (hh * snd df / (kb * T) / 2))))) (pts ha)).
  - apply is_derive_scal. apply (tz_derive snd (fun t df => fst df * (ln (2 * sinh (hh * snd df / (kb * t) / 2)) * t))).
    intros [d f] I. cbn [fst snd]. apply is_derive_scal. apply f_derive; try assumption. exact (pts_in ha d f P I).
  - rewrite (tz_ext snd _ (fun df => (-1) * (fst df * (1 / 2 / T * (hh / kb) * snd df * coth (hh * snd df / (kb * T) / 2) - ln (2 * sinh (hh * snd df / (kb * T) / 2))))))
      by (intros; ring).
    rewrite tz_scal. ring.
Qed.

Lemma cv_tz ha T : positive_freqs ha ->
  cv1 hplanck c0 kb trapz ha T = tz snd (fun df => fst df * (snd df ^ 2 / sinh (h hplanck c0 * snd df / (kb * T) / 2) ^ 2 * (h hplanck c0 / (kb * 2 * T)) ^ 2)) (pts ha).
Proof.
  intro P. unfold cv1. rewrite integrate_tz by exact P. rewrite (Rmult_comm (tz _ _ _)), <- tz_scal. apply tz_ext. intros; unfold Rdiv; ring.
Qed.

Lemma energy_derive ha T : positive_freqs ha -> 0 < T ->
  is_derive (fun t => evib1 hplanck c0 kb eV trapz ha t) T (kb / eV * cv1 hplanck c0 kb trapz ha T).
Proof.
  intros P HT. pose proof h_pos as Hh. rewrite cv_tz by exact P. unfold evib1. set (hh := h hplanck c0) in *.
  assert (E : forall t, tz snd (fun df => fst df * (snd df * (1 / 2 + 1 / (exp (hh * snd df / (kb * t)) - 1)) * (hh / eV))) (pts ha) =
    integrate trapz ha (fun dos f => dos * f * (1 / 2 + 1 / (exp (hh * f / (kb * t)) - 1))) * (hh / eV)).
  { intro t. rewrite integrate_tz by exact P. rewrite (Rmult_comm (tz _ _ _)), <- tz_scal. apply tz_ext. intros. ring. }
  apply (is_derive_ext _ _ _ _ E). rewrite <- tz_scal.
  rewrite (tz_ext snd _ (fun df => fst df * (kb / eV * (snd df ^ 2 / sinh (hh * snd df / (kb * T) / 2) ^ 2 * (hh / (kb * 2 * T)) ^ 2))))
    by (intros; ring).
  apply (tz_derive snd (fun t df => fst df * (snd df * (1 / 2 + 1 / (exp (hh * snd df / (kb * t)) - 1)) * (hh / eV)))).
  intros [d f] I. cbn [fst snd]. apply is_derive_scal. apply e_derive; try assumption. exact (pts_in ha d f P I).
Qed.

(** ** signs and limits *)
Lemma dos_tz ha : positive_freqs ha -> trapz (doses ha) (freqs ha) = tz snd fst (pts ha).
Proof. intro P. unfold tz. rewrite snd_pts, fst_pts by exact P. reflexivity. Qed.

Lemma cv_range ha T : proper ha -> 0 < T -> 0 <= cv1 hplanck c0 kb trapz ha T <= trapz (doses ha) (freqs ha).
Proof.
  intros Pr HT. pose proof (proj1 Pr) as P. pose proof h_pos as Hh. rewrite cv_tz, dos_tz by exact P.
  assert (B : forall d f, In (d, f) (pts ha) ->
    0 <= f ^ 2 / sinh (h hplanck c0 * f / (kb * T) / 2) ^ 2 * (h hplanck c0 / (kb * 2 * T)) ^ 2 <= 1).
  { intros d f I. apply cv_bounds; try assumption. exact (pts_in ha d f P I). }
  split.
  - apply tz_pos; [apply pts_sorted; exact Pr|]. intros [d f] I. cbn [fst snd]. specialize (B d f I).
    pose proof (pts_dos ha d f Pr I). apply Rmult_le_pos; [assumption | apply B].
  - apply tz_le; [apply pts_sorted; exact Pr|]. intros [d f] I. cbn [fst snd]. specialize (B d f I).
    pose proof (pts_dos ha d f Pr I) as D. set (q := f ^ 2 / _ * _) in *. clearbody q. nra.
Qed.

Lemma cv_limit ha : positive_freqs ha ->
  is_lim (fun T => cv1 hplanck c0 kb trapz ha T) p_infty (trapz (doses ha) (freqs ha)).
Proof.
  intro P. pose proof h_pos as Hh. rewrite dos_tz by exact P.
  apply (is_lim_ext _ _ _ _ (fun T => eq_sym (cv_tz ha T P))).
  apply (tz_lim snd (fun T df => fst df * (snd df ^ 2 / sinh (h hplanck c0 * snd df / (kb * T) / 2) ^ 2 * (h hplanck c0 / (kb * 2 * T)) ^ 2))).
  intros [d f] I. cbn [fst snd].
  replace (Finite d) with (Rbar_mult d 1) by (cbn; f_equal; ring).
  apply is_lim_scal_l. apply cv_lim; try assumption. exact (pts_in ha d f P I).
Qed.

Lemma svib_pos ha T : proper ha -> 0 < T -> 0 <= svib1 hplanck c0 kb trapz ha T.
Proof.
  intros Pr HT. pose proof (proj1 Pr) as P. pose proof h_pos as Hh. unfold svib1. rewrite integrate_tz by exact P.
  apply tz_pos; [apply pts_sorted; exact Pr|]. intros [d f] I. cbn [fst snd].
  pose proof (pts_in ha d f P I) as F. pose proof (pts_dos ha d f Pr I).
  rewrite s_point by assumption. pose proof (entropy_pos _ (arg_pos _ kb Hh Hkb f T F HT)). apply Rmult_le_pos; lra.
Qed.

Lemma zero_point ha T : proper ha -> 0 < T ->
  h hplanck c0 / eV * integrate trapz ha (fun d f => d * f / 2) <= evib1 hplanck c0 kb eV trapz ha T.
Proof.
  intros Pr HT. pose proof (proj1 Pr) as P. pose proof h_pos as Hh. unfold evib1. rewrite !integrate_tz by exact P.
  rewrite (Rmult_comm (h hplanck c0 / eV)). apply Rmult_le_compat_r; [apply Rlt_le, Rdiv_lt_0_compat; assumption|].
  apply tz_le; [apply pts_sorted; exact Pr|]. intros [d f] I. cbn [fst snd].
  pose proof (pts_in ha d f P I) as F. pose proof (pts_dos ha d f Pr I) as D.
  pose proof (exp_gt1 _ (arg_pos _ kb Hh Hkb f T F HT)) as E.
  assert (0 < 1 / (exp (h hplanck c0 * f / (kb * T)) - 1)) by (apply Rdiv_lt_0_compat; lra).
  assert (0 <= d * f) by (apply Rmult_le_pos; lra). set (q := 1 / (exp _ - 1)) in *. clearbody q. nra.
Qed.
End Methods.

(** ** the constructor *)
Lemma trapz_scale c k g x : trapz (map (fun v => v / c) g) (map (fun v => v / k) x) = trapz g x / c / k.
Proof.
  destruct g as [|y0 g], x as [|x0 x]; cbn [map trapz]; try (unfold Rdiv; ring).
  revert y0 x0 x. induction g as [|y1 g IH]; intros y0 x0 [|x1 x]; cbn [map trapz_from]; try (unfold Rdiv; ring).
  rewrite IH. unfold Rdiv. ring.
Qed.
Lemma trapz_mult c y x : trapz (map (fun v => v * c) y) x = trapz y x * c.
Proof.
  destruct y as [|y0 y], x as [|x0 x]; cbn [map trapz]; try ring.
  revert y0 x0 x. induction y as [|y1 y IH]; intros y0 x0 [|x1 x]; cbn [map trapz_from]; try ring.
  rewrite IH. field.
Qed.

Lemma absmax_zero l : absmax l = 0 -> List.Forall (fun x => x = 0) l.
Proof.
  induction l as [|a l IH]; cbn; intro H; constructor.
  - pose proof (Rmax_l (Rabs a) (absmax l)). pose proof (Rabs_pos a). destruct (Req_dec a 0) as [|N]; [assumption|].
    pose proof (Rabs_pos_lt a N). unfold absmax in *. lra.
  - apply IH. pose proof (Rmax_r (Rabs a) (absmax l)). unfold absmax in *.
    assert (0 <= fold_right (fun x m => Rmax (Rabs x) m) 0 l).
    { clear. induction l; cbn; [lra|]. pose proof (Rmax_r (Rabs a) (fold_right (fun x m => Rmax (Rabs x) m) 0 l)). lra. }
    lra.
Qed.

Lemma trapz_zero_y y x : List.Forall (fun v => v = 0) y -> trapz y x = 0.
Proof.
  intro F. replace y with (map (fun v => v * 0) y).
  - rewrite trapz_mult. ring.
  - rewrite <- (map_id y) at 2. apply map_ext_in. intros a I. rewrite Forall_forall in F. rewrite (F a I). ring.
Qed.
Lemma trapz_zero_x y x : List.Forall (fun v => v = 0) x -> trapz y x = 0.
Proof.
  intro F. destruct y as [|y0 y], x as [|x0 x]; cbn [trapz]; try reflexivity. inversion F as [|? ? X0 F']; subst. clear F.
  revert y0 x F'. induction y as [|y1 y IH]; intros y0 [|x1 x] F; cbn [trapz_from]; try reflexivity.
  inversion F; subst. rewrite IH by assumption. field.
Qed.

Lemma norm_area y x area : trapz y x <> 0 -> trapz (norm_int trapz y x area) x = area.
Proof.
  intro N. unfold norm_int. cbv zeta. rewrite trapz_scale.
  assert (absmax y <> 0) by (intro Z; apply N; apply trapz_zero_y; apply absmax_zero; exact Z).
  assert (absmax x <> 0) by (intro Z; apply N; apply trapz_zero_x; apply absmax_zero; exact Z).
  replace (trapz y x / absmax y / absmax x * absmax x * absmax y) with (trapz y x) by (field; auto).
  replace (map (fun v => v * area / trapz y x) y) with (map (fun v => v * (area / trapz y x)) y)
    by (apply map_ext; intro; unfold Rdiv; ring).
  rewrite trapz_mult. field. exact N.
Qed.
