(** The number of frames in [read_dcd_data] (dcd.py line 195) is a quotient of binary64 numbers.
    Rounding to the nearest binary64 number, ties to even, as IEEE 754 division does. *)
From Coq Require Import ZArith Reals Lia Lra.
From Flocq Require Import Core Relative.
Local Open Scope R_scope.

(** dcd.py line 195: [fd_rest / (... * 1.0)], both operands exact *)
Definition b64 (x : R) : R := round radix2 (FLT_exp (-1074) 53) ZnearestE x.
Definition float_nstep (fd_rest per_step : Z) : R := b64 (IZR fd_rest / IZR per_step).

Lemma b64_int k : (Z.abs k <= 2 ^ 53)%Z -> b64 (IZR k) = IZR k.
Proof.
  intro H. unfold b64. apply round_generic; [apply valid_rnd_N|].
  destruct (Z.eq_dec (Z.abs k) (2 ^ 53)) as [E|E].
  - assert (k = 2 ^ 53 \/ k = - 2 ^ 53)%Z as [-> | ->] by lia.
    + change (IZR (2 ^ 53)) with (bpow radix2 53). apply generic_format_bpow. cbn. lia.
    + rewrite opp_IZR. apply generic_format_opp.
      change (IZR (2 ^ 53)) with (bpow radix2 53). apply generic_format_bpow. cbn. lia.
  - apply generic_format_FLT. exists (Float radix2 k 0).
    + unfold F2R. cbn. lra.
    + cbn [Fnum]. change (Zpower radix2 53) with (2 ^ 53)%Z. lia.
    + cbn. lia.
Qed.

Lemma b64_rel x : bpow radix2 (-1022) <= Rabs x -> Rabs (b64 x - x) <= bpow radix2 (-53) * Rabs x.
Proof.
  intro H.
  pose proof (relative_error_N_FLT radix2 (-1074) 53 eq_refl (fun z => negb (Z.even z)) x H) as E.
  replace (/ 2 * bpow radix2 (- (53) + 1)) with (bpow radix2 (-53)) in E; [exact E|].
  change (-53)%Z with (-1 + (-52))%Z. rewrite bpow_plus. f_equal.
Qed.

Lemma float_nstep_divides a b k : (0 < b)%Z -> (0 <= k)%Z -> (k * b < 2 ^ 53)%Z ->
  (a = k * b)%Z -> float_nstep a b = IZR k.
Proof.
  intros B K L ->. unfold float_nstep. rewrite mult_IZR.
  replace (IZR k * IZR b / IZR b) with (IZR k).
  - apply b64_int. nia.
  - field. apply not_0_IZR. lia.
Qed.

Lemma float_nstep_integer a b m : (0 < b < 2 ^ 53)%Z -> (0 <= a < 2 ^ 53)%Z ->
  float_nstep a b = IZR m -> (a = m * b)%Z.
Proof.
  intros B A E.
  destruct (Z.eq_dec a 0) as [->|NZ].
  { unfold float_nstep in E. unfold Rdiv in E. rewrite Rmult_0_l in E.
    unfold b64 in E. rewrite round_0 in E by apply valid_rnd_N.
    apply eq_IZR in E. lia. }
  destruct (Z.eq_dec a (m * b)) as [Q|Q]; [exact Q|exfalso].
  assert (Bp : 0 < IZR b) by (apply IZR_lt; lia).
  assert (Ap : 1 <= IZR a) by (apply IZR_le; lia).
  assert (Xp : 0 < IZR a / IZR b) by (apply Rdiv_lt_0_compat; lra).
  assert (P53 : bpow radix2 53 = IZR (2 ^ 53)) by reflexivity.
  assert (X : bpow radix2 (-1022) <= Rabs (IZR a / IZR b)).
  { rewrite Rabs_pos_eq by lra.
    apply Rle_trans with (bpow radix2 (-53)); [apply bpow_le; lia|].
    apply Rmult_le_reg_r with (IZR b); [exact Bp|].
    unfold Rdiv. rewrite Rmult_assoc, Rinv_l, Rmult_1_r by lra.
    apply Rle_trans with (bpow radix2 (-53) * bpow radix2 53).
    - apply Rmult_le_compat_l; [apply bpow_ge_0|]. rewrite P53. apply IZR_le. lia.
    - rewrite <- bpow_plus. change (bpow radix2 (-53 + 53)) with 1. exact Ap. }
  pose proof (b64_rel _ X) as H. fold (float_nstep a b) in H. rewrite E in H.
  rewrite (Rabs_pos_eq (IZR a / IZR b)) in H by lra.
  assert (D : 1 / IZR b <= Rabs (IZR m - IZR a / IZR b)).
  { replace (IZR m - IZR a / IZR b) with ((IZR (m * b - a)) / IZR b)
      by (rewrite minus_IZR, mult_IZR; field; lra).
    unfold Rdiv. rewrite Rabs_mult, (Rabs_pos_eq (/ IZR b)) by (apply Rlt_le, Rinv_0_lt_compat; lra).
    apply Rmult_le_compat_r; [apply Rlt_le, Rinv_0_lt_compat; lra|].
    rewrite <- abs_IZR. apply IZR_le. lia. }
  assert (F : 1 <= bpow radix2 (-53) * IZR a).
  { apply Rmult_le_reg_r with (/ IZR b); [apply Rinv_0_lt_compat; lra|].
    unfold Rdiv in D, H. lra. }
  assert (G : bpow radix2 (-53) * IZR a < bpow radix2 (-53) * bpow radix2 53).
  { apply Rmult_lt_compat_l; [apply bpow_gt_0|]. rewrite P53. apply IZR_lt. lia. }
  rewrite <- bpow_plus in G. change (bpow radix2 (-53 + 53)) with 1 in G. lra.
Qed.

Lemma float_nstep_exact a b : (0 < b < 2 ^ 53)%Z -> (0 <= a < 2 ^ 53)%Z ->
  ((exists m, float_nstep a b = IZR m) <-> (a mod b = 0)%Z) /\
  ((a mod b = 0)%Z -> float_nstep a b = IZR (a / b)).
Proof.
  intros B A.
  assert (G : (a mod b = 0)%Z -> float_nstep a b = IZR (a / b)).
  { intro M. pose proof (Z.div_mod a b ltac:(lia)) as D. rewrite M, Z.add_0_r in D.
    assert (0 <= a / b)%Z by (apply Z.div_pos; lia).
    apply float_nstep_divides; nia. }
  split; [|exact G]. split.
  - intros (m & E). apply float_nstep_integer in E; try assumption. subst a. apply Z.mod_mul. lia.
  - intro M. exists (a / b)%Z. apply G, M.
Qed.
