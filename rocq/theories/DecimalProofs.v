From Coq Require Import Ascii String List ZArith Reals Lia Lra Psatz.
From Flocq Require Import Core BinarySingleNaN.
From Verif Require Import Comb ArrayIO Regex RegexProofs PdbProofs Decimal.
Import ListNotations.
Local Open Scope list_scope.
Local Notation length := List.length.

(** ** Digits *)
Lemma digit_nat d : (0 <= d < 10)%Z -> nat_of_ascii (digit_char d) = 48 + Z.to_nat d.
Proof. intros H. unfold digit_char. apply nat_ascii_embedding. lia. Qed.
Lemma digit_is d : (0 <= d < 10)%Z -> digit (digit_char d) = true.
Proof.
  intros H. unfold digit, between. rewrite digit_nat by exact H. change (nat_of_ascii "0") with 48. change (nat_of_ascii "9") with 57.
  apply andb_true_intro. split; apply Nat.leb_le; lia.
Qed.
Lemma fix_length n M : length (fixdigits n M) = n.
Proof. revert M. induction n as [|n IH]; intros M; [reflexivity|]. cbn [fixdigits]. rewrite app_length, IH. cbn. lia. Qed.
Lemma fix_digit n M : (0 <= M)%Z -> all digit (fixdigits n M).
Proof.
  revert M. induction n as [|n IH]; intros M H; [constructor|]. cbn [fixdigits]. apply Forall_app. split; [apply IH; now apply Z.div_pos|].
  constructor; [|constructor]. apply digit_is. apply Z.mod_pos_bound. lia.
Qed.
Lemma fix_value n M : (0 <= M < 10 ^ Z.of_nat n)%Z -> value (fixdigits n M) = M.
Proof.
  revert M. induction n as [|n IH]; intros M H; [cbn in *; lia|]. cbn [fixdigits]. unfold value. rewrite fold_left_app. cbn [fold_left]. fold (value (fixdigits n (M / 10))).
  rewrite Nat2Z.inj_succ, Z.pow_succ_r in H by lia. rewrite IH.
  - rewrite digit_nat by (apply Z.mod_pos_bound; lia). replace (48 + Z.to_nat (M mod 10) - 48)%nat with (Z.to_nat (M mod 10)) by lia.
    rewrite Z2Nat.id by (apply Z.mod_pos_bound; lia). pose proof (Z.div_mod M 10). lia.
  - split; [apply Z.div_pos; lia|]. apply Z.div_lt_upper_bound; lia.
Qed.
Lemma span_app p u t : all p u -> stops p t -> span p (u ++ t) = (u, t).
Proof.
  intros U T. induction U as [|c u Hc U IH].
  - destruct t as [|a t]; [reflexivity|]. cbn in T |- *. now rewrite T.
  - cbn [app span]. now rewrite Hc, IH.
Qed.
Lemma digit_no_sign c : digit c = true -> sign c = false. Proof. revert c. now apply not_cases. Qed.
Lemma sign_none c t : digit c = true -> take_sign (c :: t) = (false, c :: t).
Proof. intros H. apply digit_no_sign in H. unfold sign in H. apply Bool.orb_false_elim in H as [P M]. cbn [take_sign]. now rewrite M, P. Qed.
Lemma sign_minus s c t : digit c = true -> take_sign (minus s ++ c :: t) = (s, c :: t).
Proof. intros H. destruct s; cbn [minus app]; [reflexivity|now apply sign_none]. Qed.
Lemma pstr_neq a b : a <> b -> pstr_eqb a b = false.
Proof. unfold pstr_eqb. destruct (list_eq_dec ascii_dec a b); congruence. Qed.

(** What float() makes of the text. *)
Lemma read_sci p s M k : (1 <= p)%nat -> (0 <= M < 10 ^ (Z.of_nat p + 1))%Z -> (Z.abs k < 1000)%Z ->
  read_float (minus s ++ sci p M k) = Some (of_real s (IZR M * bpow radix10 (k - Z.of_nat p))).
Proof.
  intros P HM HK. unfold sci. pose proof (fix_length (S p) M) as L. pose proof (fix_digit (S p) M (proj1 HM)) as D.
  pose proof (fix_value (S p) M) as V. rewrite Nat2Z.inj_succ in V. specialize (V HM). destruct (fixdigits (S p) M) as [|a b]; [discriminate|].
  pose proof (Forall_inv D) as Da. apply Forall_inv_tail in D as Db. injection L as L.
  set (n := if (Z.abs k <? 100)%Z then 2 else 3). set (sg := if (k <? 0)%Z then "-"%char else "+"%char).
  assert (E : (0 <= Z.abs k < 10 ^ Z.of_nat n)%Z).
  { subst n. destruct (Z.ltb_spec (Z.abs k) 100); cbn; lia. }
  pose proof (fix_digit n (Z.abs k) (proj1 E)) as De. pose proof (fix_value n (Z.abs k) E) as Ve. pose proof (fix_length n (Z.abs k)) as Le.
  assert (Nn : n <> 0) by (subst n; now destruct (Z.ltb_spec (Z.abs k) 100)).
  unfold read_float. rewrite sign_minus by exact Da.
  rewrite !pstr_neq by (intros Q; injection Q as Q _; rewrite Q in Da; discriminate).
  change (a :: "."%char :: b ++ "e"%char :: sg :: fixdigits n (Z.abs k)) with ([a] ++ "."%char :: b ++ "e"%char :: sg :: fixdigits n (Z.abs k)).
  rewrite (span_app digit [a]); [|now repeat constructor|reflexivity]. rewrite Ascii.eqb_refl. rewrite (span_app digit b); [|exact Db|reflexivity].
  change ([a] ++ b) with (a :: b). cbn [length Nat.eqb]. change (Ascii.eqb "e" "e") with true. cbn [orb].
  assert (TS : take_sign (sg :: fixdigits n (Z.abs k)) = ((k <? 0)%Z, fixdigits n (Z.abs k))).
  { subst sg. destruct (Z.ltb_spec k 0); reflexivity. }
  rewrite TS. rewrite <- (app_nil_r (fixdigits n (Z.abs k))) at 1. rewrite span_app; [|exact De|exact I].
  destruct (fixdigits n (Z.abs k)) as [|e0 e] eqn:Ee; [cbn in Le; lia|]. rewrite <- Ee in *. rewrite V, L.
  replace (if (k <? 0)%Z then (- value (fixdigits n (Z.abs k)))%Z else value (fixdigits n (Z.abs k))) with k; [reflexivity|]. rewrite Ve. destruct (Z.ltb_spec k 0); lia.
Qed.

(** ** Rounding *)
Local Open Scope R_scope.
Lemma exp64_eq e : exp64 e = Z.max (e - 53) (-1074).
Proof. reflexivity. Qed.
#[local] Instance valid64 : Valid_exp exp64 := fexp_correct 53 1024 _.
Lemma pow_ineq : bpow radix10 (-16) < bpow radix2 (-53).
Proof.
  rewrite !bpow_opp || idtac. change (-16)%Z with (- (16))%Z. change (-53)%Z with (- (53))%Z. rewrite !bpow_opp. apply Rinv_lt_contravar; [apply Rmult_lt_0_compat; apply bpow_gt_0|].
  change 53%Z with (Z.of_nat 53). change 16%Z with (Z.of_nat 16). rewrite <- !IZR_Zpower_nat. apply IZR_lt. reflexivity.
Qed.
(** Distinct binary64 numbers are further apart than the decimal ones. *)
Lemma gap x y : generic_format radix2 exp64 x -> generic_format radix2 exp64 y -> 0 < x -> y <> x -> x * bpow radix10 (-16) < Rabs (y - x).
Proof.
  intros Fx Fy Px N.
  assert (X : x * bpow radix10 (-16) < x * bpow radix2 (-53)) by (apply Rmult_lt_compat_l; [exact Px|exact pow_ineq]).
  assert (U : x * bpow radix2 (-53) <= ulp radix2 exp64 x).
  { rewrite ulp_neq_0 by lra. unfold cexp. rewrite exp64_eq. apply Rle_trans with (bpow radix2 (mag radix2 x - 53)).
    - pose proof (bpow_mag_gt radix2 x) as B. rewrite Rabs_pos_eq in B by lra. unfold Z.sub. rewrite bpow_plus. apply Rmult_le_compat_r; [apply bpow_ge_0|lra].
    - apply bpow_le. lia. }
  destruct (Rdichotomy _ _ N) as [H|H].
  - pose proof (pred_ge_gt radix2 exp64 y x Fy Fx H) as G. rewrite pred_eq_pos in G by lra. rewrite Rabs_left by lra. unfold pred_pos in G.
    destruct (Req_bool_spec x (bpow radix2 (mag radix2 x - 1))) as [E|E]; [|lra].
    assert (W : x * bpow radix2 (-53) <= bpow radix2 (exp64 (mag radix2 x - 1))).
    { rewrite E at 1. rewrite <- bpow_plus. apply bpow_le. rewrite exp64_eq. lia. }
    lra.
  - pose proof (succ_le_lt radix2 exp64 x y Fx Fy H) as G. rewrite succ_eq_pos in G by lra. rewrite Rabs_pos_eq by lra. lra.
Qed.
Lemma round_back x d k p : generic_format radix2 exp64 x -> 0 < x -> bpow radix10 k <= x -> (16 <= p)%Z -> Rabs (d - x) <= / 2 * bpow radix10 (k - p) ->
  round radix2 exp64 ZnearestE d = x.
Proof.
  intros Fx Px K P D. set (r := round radix2 exp64 ZnearestE d).
  assert (Fr : generic_format radix2 exp64 r) by (apply generic_format_round; typeclasses eauto).
  destruct (Req_dec r x) as [E|N]; [exact E|exfalso].
  pose proof (gap x r Fx Fr Px N) as G. destruct (round_N_pt radix2 exp64 (fun n => negb (Z.even n)) d) as [_ M]. specialize (M x Fx). fold r in M.
  assert (B : bpow radix10 (k - p) <= x * bpow radix10 (-16)).
  { apply Rle_trans with (bpow radix10 (k - 16)); [apply bpow_le; lia|]. unfold Z.sub. rewrite bpow_plus. apply Rmult_le_compat_r; [apply bpow_ge_0|exact K]. }
  assert (T : Rabs (r - x) <= Rabs (r - d) + Rabs (d - x)) by (replace (r - x) with ((r - d) + (d - x)) by ring; apply Rabs_triang).
  replace (Rabs (x - d)) with (Rabs (d - x)) in M by apply Rabs_minus_sym. change (Znearest (fun n : Z => negb (Z.even n))) with ZnearestE in M. fold r in M. lra.
Qed.

(** ** Numbers of the text *)
Lemma expo_bounds v : 0 < v -> bpow radix10 (expo v) <= v < bpow radix10 (expo v + 1).
Proof.
  intros H. unfold expo. destruct (mag radix10 v) as [e E]. cbn. specialize (E ltac:(lra)). rewrite Rabs_pos_eq in E by lra. replace (e - 1 + 1)%Z with e by lia. exact E.
Qed.
Lemma mant_near p v : Rabs (IZR (mant p v) * bpow radix10 (expo v - Z.of_nat p) - v) <= / 2 * bpow radix10 (expo v - Z.of_nat p).
Proof.
  pose proof (Znearest_half (fun n => negb (Z.even n)) (v * bpow radix10 (Z.of_nat p - expo v))) as H. fold (mant p v) in H. change (Znearest (fun n : Z => negb (Z.even n))) with ZnearestE in H. fold (mant p v) in H.
  set (b := bpow radix10 (expo v - Z.of_nat p)). assert (B : 0 < b) by apply bpow_gt_0.
  assert (E : v = v * bpow radix10 (Z.of_nat p - expo v) * b).
  { unfold b. rewrite Rmult_assoc, <- bpow_plus. replace (Z.of_nat p - expo v + (expo v - Z.of_nat p))%Z with 0%Z by lia. cbn. lra. }
  rewrite E at 2. rewrite <- Rmult_minus_distr_r, Rabs_mult, (Rabs_pos_eq b) by lra. apply Rmult_le_compat_r; [lra|]. rewrite Rabs_minus_sym. exact H.
Qed.
Lemma mant_bounds p v : 0 < v -> (10 ^ Z.of_nat p <= mant p v <= 10 ^ (Z.of_nat p + 1))%Z.
Proof.
  intros H. destruct (expo_bounds v H) as [L U]. unfold mant. set (y := v * bpow radix10 (Z.of_nat p - expo v)).
  assert (B : 0 < bpow radix10 (Z.of_nat p - expo v)) by apply bpow_gt_0.
  assert (Y1 : IZR (10 ^ Z.of_nat p) <= y).
  { change (10 ^ Z.of_nat p)%Z with (radix10 ^ Z.of_nat p)%Z. rewrite IZR_Zpower by lia. unfold y. replace (Z.of_nat p) with (expo v + (Z.of_nat p - expo v))%Z at 1 by lia. rewrite bpow_plus. apply Rmult_le_compat_r; lra. }
  assert (Y2 : y <= IZR (10 ^ (Z.of_nat p + 1))).
  { change (10 ^ (Z.of_nat p + 1))%Z with (radix10 ^ (Z.of_nat p + 1))%Z. rewrite IZR_Zpower by lia. unfold y. replace (Z.of_nat p + 1)%Z with (expo v + 1 + (Z.of_nat p - expo v))%Z by lia. rewrite bpow_plus. apply Rmult_le_compat_r; lra. }
  split.
  - rewrite <- (Zrnd_IZR ZnearestE (10 ^ Z.of_nat p)). apply Zrnd_le; [typeclasses eauto|exact Y1].
  - rewrite <- (Zrnd_IZR ZnearestE (10 ^ (Z.of_nat p + 1))). apply Zrnd_le; [typeclasses eauto|exact Y2].
Qed.
Lemma mant_expo_ok p v : 0 < v -> let '(M, k) := mant_expo p v in
  (10 ^ Z.of_nat p <= M < 10 ^ (Z.of_nat p + 1))%Z /\ (expo v <= k <= expo v + 1)%Z /\ IZR M * bpow radix10 (k - Z.of_nat p) = IZR (mant p v) * bpow radix10 (expo v - Z.of_nat p).
Proof.
  intros H. pose proof (mant_bounds p v H) as B. unfold mant_expo. destruct (Z.eqb_spec (mant p v) (10 ^ (Z.of_nat p + 1))) as [E|E].
  - assert (P : (0 < 10 ^ Z.of_nat p)%Z) by (apply Z.pow_pos_nonneg; lia). rewrite Z.pow_add_r in * by lia. split; [lia|]. split; [lia|]. rewrite E.
    replace (10 ^ Z.of_nat p * 10 ^ 1)%Z with (10 ^ Z.of_nat p * 10)%Z by lia. rewrite mult_IZR. replace (expo v + 1 - Z.of_nat p)%Z with (1 + (expo v - Z.of_nat p))%Z by lia. rewrite bpow_plus. change (bpow radix10 1) with 10. ring.
  - split; [lia|]. split; [lia|reflexivity].
Qed.
(** Exponents of binary64 numbers have at most three digits. *)
Lemma expo_range v : bpow radix2 (-1074) <= v -> v < bpow radix2 1024 -> (-400 < expo v < 400)%Z.
Proof.
  intros L U. assert (P : 0 < v) by (pose proof (bpow_gt_0 radix2 (-1074)); lra). destruct (expo_bounds v P) as [E1 E2]. split.
  - apply (lt_bpow radix10). assert (bpow radix10 (-400 + 1) <= bpow radix2 (-1074)).
    { change (-400 + 1)%Z with (- (399))%Z. change (-1074)%Z with (- (1074))%Z. rewrite !bpow_opp. apply Rinv_le_contravar; [apply bpow_gt_0|]. rewrite <- (IZR_Zpower radix2), <- (IZR_Zpower radix10) by lia. apply IZR_le. vm_compute. discriminate. }
    assert (bpow radix10 (-400 + 1) < bpow radix10 (expo v + 1)) by lra. apply lt_bpow in H0. apply bpow_lt. lia.
  - apply (lt_bpow radix10). apply Rle_lt_trans with (1 := E1). apply Rlt_le_trans with (1 := U). rewrite <- (IZR_Zpower radix2), <- (IZR_Zpower radix10) by lia. apply IZR_le. vm_compute. discriminate.
Qed.

(** ** binary64 *)
Lemma of_real_ok s v (x : float64) : is_finite x = true -> B2R x <> 0 -> Bsign x = s -> round radix2 exp64 ZnearestE v = Rabs (B2R x) -> of_real s v = x.
Proof.
  intros Fi NZ Sg E.
  assert (R : round radix2 exp64 ZnearestE (if s then - v else v) = B2R x).
  { assert (D : (s = true /\ B2R x < 0) \/ (s = false /\ 0 < B2R x)).
    { rewrite <- Sg. destruct x as [b|b| |b m e H]; cbn in NZ, Fi; try (exfalso; auto; discriminate). cbn [Bsign B2R]. destruct b; [left|right]; (split; [reflexivity|]); [apply F2R_lt_0|apply F2R_gt_0]; reflexivity. }
    destruct D as [[-> D]|[-> D]].
    - rewrite round_NE_opp, E, Rabs_left by exact D. ring.
    - rewrite E, Rabs_pos_eq by lra. reflexivity. }
  unfold of_real. rewrite R. pose proof (binary_normalize_correct 53 1024 _ _ mode_NE (Ztrunc (scaled_mantissa radix2 exp64 (B2R x))) (cexp radix2 exp64 (B2R x)) s) as C. cbv zeta in C.
  assert (G : F2R (Float radix2 (Ztrunc (scaled_mantissa radix2 exp64 (B2R x))) (cexp radix2 exp64 (B2R x))) = B2R x) by (symmetry; apply generic_format_B2R).
  rewrite G in C. rewrite round_generic in C; [|typeclasses eauto|apply generic_format_B2R]. rewrite Rlt_bool_true in C by apply abs_B2R_lt_emax.
  destruct C as (C1 & C2 & C3). apply B2R_Bsign_inj; auto. rewrite C3, Sg. 
  destruct x as [b|b| |b m e H]; cbn in NZ, Fi; try (exfalso; auto; discriminate). cbn [Bsign] in Sg. subst b. cbn [B2R]. destruct s; [rewrite Rcompare_Lt|rewrite Rcompare_Gt]; try reflexivity; [apply F2R_lt_0|apply F2R_gt_0]; reflexivity.
Qed.
Lemma of_real_zero s : of_real s 0 = B754_zero s.
Proof.
  assert (R : round radix2 exp64 ZnearestE (if s then - 0 else 0) = 0) by (destruct s; [rewrite Ropp_0|]; apply round_0; typeclasses eauto).
  unfold of_real. rewrite R. pose proof (binary_normalize_correct 53 1024 _ _ mode_NE (Ztrunc (scaled_mantissa radix2 exp64 0)) (cexp radix2 exp64 0) s) as C. cbv zeta in C.
  assert (G : F2R (Float radix2 (Ztrunc (scaled_mantissa radix2 exp64 0)) (cexp radix2 exp64 0)) = 0) by (symmetry; apply generic_format_0).
  rewrite G in C. rewrite round_0, Rabs_R0, Rlt_bool_true in C by (typeclasses eauto || apply bpow_gt_0). destruct C as (C1 & C2 & C3). rewrite Rcompare_Eq in C3 by reflexivity.
  apply B2R_Bsign_inj; auto.
Qed.
Lemma finite_range (x : float64) : B2R x <> 0 -> bpow radix2 (-1074) <= Rabs (B2R x) < bpow radix2 1024.
Proof.
  intros NZ. split; [|apply abs_B2R_lt_emax]. destruct x as [b|b| |b m e H]; cbn in NZ; try (exfalso; auto; fail). cbn [B2R]. rewrite <- F2R_Zabs, abs_cond_Zopp.
  assert (E : (-1074 <= e)%Z). { unfold SpecFloat.bounded in H. apply andb_prop in H as [H _]. unfold SpecFloat.canonical_mantissa in H. apply Zeq_bool_eq in H. unfold SpecFloat.fexp, SpecFloat.emin in H. lia. }
  apply Rle_trans with (bpow radix2 e); [now apply bpow_le|]. unfold F2R. cbn [Fnum Fexp Z.abs]. rewrite <- (Rmult_1_l (bpow radix2 e)) at 1. apply Rmult_le_compat_r; [apply bpow_ge_0|]. apply IZR_le. lia.
Qed.
(** Seventeen digits are enough. *)
Lemma read_fmt p (x : float64) : (16 <= p)%nat -> read_float (fmt_e p x) = Some x.
Proof.
  intros P. destruct x as [s|s| |s m e H] eqn:Ex.
  - unfold fmt_e. rewrite read_sci by (try lia; cbn; lia || (split; [lia|apply Z.pow_pos_nonneg; lia])). rewrite Rmult_0_l. now rewrite of_real_zero.
  - destruct s; reflexivity.
  - reflexivity.
  - rewrite <- Ex. assert (NZ : B2R x <> 0). { rewrite Ex. cbn [B2R]. apply F2R_neq_0. destruct s; discriminate. }
    pose proof (finite_range x NZ) as [L U]. set (v := Rabs (B2R x)) in *. assert (V : 0 < v) by (apply Rabs_pos_lt; exact NZ).
    pose proof (expo_range v L U) as K. pose proof (mant_expo_ok p v V) as MK. pose proof (mant_near p v) as NE. destruct (expo_bounds v V) as [EB _].
    assert (FE : fmt_e p x = minus s ++ (let '(M, k) := mant_expo p v in sci p M k)) by (unfold v; rewrite Ex; reflexivity). rewrite FE.
    destruct (mant_expo p v) as [M k]. destruct MK as (MB & KB & EQ). assert (P0 : (0 < 10 ^ Z.of_nat p)%Z) by (apply Z.pow_pos_nonneg; lia).
    rewrite read_sci by lia. f_equal. apply of_real_ok; [now rewrite Ex|exact NZ|now rewrite Ex|].
    rewrite EQ. apply (round_back v _ (expo v) (Z.of_nat p)); [unfold v; apply generic_format_abs, generic_format_B2R|exact V|exact EB|lia|exact NE].
Qed.
