(** C79: numbers survive being written with 17 digits and read again. *)
From Coq Require Import Ascii String List ZArith Reals Lia Lra.
From Flocq Require Import Core BinarySingleNaN.
From Verif Require Import Comb ArrayIO ArrayIOSpec Regex RegexProofs PdbProofs Cif CifSpec P_Cif Decimal DecimalSpec DecimalProofs.
Import ListNotations.
Local Open Scope list_scope.
Local Notation length := List.length.

Lemma value_number ds : all digit ds -> value ds = number ds.
Proof.
  assert (G : forall ds a, all digit ds -> fold_left (fun a c => 10 * a + Z.of_nat (nat_of_ascii c - 48))%Z ds a = (a * 10 ^ Z.of_nat (length ds) + number ds)%Z).
  { clear. induction ds as [|c ds IH]; intros a D; [cbn; lia|]. cbn [fold_left number]. rewrite IH by exact (Forall_inv_tail D).
    pose proof (Forall_inv D) as Dc. cbn beta in Dc. unfold digit, between in Dc. apply andb_prop in Dc as [Dc _]. apply Nat.leb_le in Dc. change (nat_of_ascii "0") with 48 in Dc.
    cbn [List.length]. rewrite (Nat2Z.inj_succ (length ds)), Z.pow_succ_r, Nat2Z.inj_sub by lia. ring. }
  intros D. unfold value. rewrite G by exact D. lia.
Qed.
Lemma sci_scientific s p M k : (0 <= M < 10 ^ (Z.of_nat p + 1))%Z -> (Z.abs k < 1000)%Z -> scientific (minus s ++ sci p M k) s p M k.
Proof.
  intros HM HK. unfold sci. pose proof (fix_length (S p) M) as L. pose proof (fix_digit (S p) M (proj1 HM)) as D.
  pose proof (fix_value (S p) M) as V. rewrite Nat2Z.inj_succ in V. specialize (V HM). destruct (fixdigits (S p) M) as [|a b]; [discriminate|].
  set (n := if (Z.abs k <? 100)%Z then 2 else 3). set (sg := if (k <? 0)%Z then "-"%char else "+"%char).
  assert (E : (0 <= Z.abs k < 10 ^ Z.of_nat n)%Z) by (subst n; destruct (Z.ltb_spec (Z.abs k) 100); cbn; lia).
  exists a, b, sg, (fixdigits n (Z.abs k)). split; [reflexivity|]. pose proof (fix_digit n (Z.abs k) (proj1 E)) as De. split.
  - intros c H. destruct H as [<- |H]; [exact (Forall_inv D)|]. apply in_app_or in H as [H|H]; [exact (proj1 (Forall_forall _ _) (Forall_inv_tail D) c H)|exact (proj1 (Forall_forall _ _) De c H)].
  - split; [now injection L|]. rewrite fix_length. split; [subst n; destruct (Z.ltb_spec (Z.abs k) 100); lia|]. rewrite <- !value_number by assumption. split; [exact V|].
    rewrite fix_value by exact E. subst sg. destruct (Z.ltb_spec k 0); [right|left]; (split; [reflexivity|lia]).
Qed.

(** Every binary64 number, zeros of both signs, infinities and NaN among them. *)
Theorem C79_round_trip p (x : float64) : 16 <= p -> read_float (fmt_e p x) = Some x.
Proof. apply read_fmt. Qed.
(** The text has the form d.ddde±dd, the right sign, no leading zero, and is off by at most half a
    unit of the last digit. *)
Theorem C79_nearest p (x : float64) : is_finite x = true -> B2R x <> 0%R ->
  exists M k, scientific (fmt_e p x) (Bsign x) p M k /\ (10 ^ Z.of_nat p <= M < 10 ^ (Z.of_nat p + 1))%Z /\
    (Rabs (IZR M * bpow radix10 (k - Z.of_nat p) - Rabs (B2R x)) <= / 2 * bpow radix10 (k - Z.of_nat p))%R.
Proof.
  intros Fi NZ. pose proof (finite_range x NZ) as [L U]. set (v := Rabs (B2R x)) in *. assert (V : (0 < v)%R) by (apply Rabs_pos_lt; exact NZ).
  pose proof (expo_range v L U) as K. pose proof (mant_expo_ok p v V) as MK. pose proof (mant_near p v) as NE.
  assert (FE : fmt_e p x = minus (Bsign x) ++ (let '(M, k) := mant_expo p v in sci p M k)).
  { unfold v. destruct x; try discriminate; [exfalso; apply NZ; reflexivity|reflexivity]. }
  destruct (mant_expo p v) as [M k]. destruct MK as (MB & KB & EQ). assert (P0 : (0 < 10 ^ Z.of_nat p)%Z) by (apply Z.pow_pos_nonneg; lia).
  exists M, k. split; [rewrite FE; apply sci_scientific; lia|]. split; [exact MB|]. rewrite EQ. eapply Rle_trans; [exact NE|].
  apply Rmult_le_compat_l; [lra|]. apply bpow_le. lia.
Qed.
(** So the numbers of text arrays (C48) and CIF files (C78) are of the kind asked for there. *)
Lemma fmt_chars p x c : In c (fmt_e p x) -> digit c = true \/ In c (text ".e+-nainf").
Proof.
  assert (S : forall M k, (0 <= M)%Z -> (Z.abs k < 1000)%Z -> In c (sci p M k) -> digit c = true \/ In c (text ".e+-nainf")).
  { intros M k HM HK H. unfold sci in H. pose proof (fix_digit (S p) M HM) as D. destruct (fixdigits (S p) M) as [|a b]; [destruct H|].
    pose proof (fix_digit (if (Z.abs k <? 100)%Z then 2 else 3) (Z.abs k) ltac:(lia)) as De.
    destruct H as [<- |H]; [left; exact (Forall_inv D)|]. destruct H as [<- |H]; [right; cbn; tauto|]. apply in_app_or in H as [H|H]; [left; exact (proj1 (Forall_forall _ _) (Forall_inv_tail D) c H)|].
    destruct H as [<- |H]; [right; cbn; tauto|]. destruct H as [<- |H]; [right; destruct (k <? 0)%Z; cbn; tauto|]. left. exact (proj1 (Forall_forall _ _) De c H). }
  assert (G : forall s t, (In c t -> digit c = true \/ In c (text ".e+-nainf")) -> In c (minus s ++ t) -> digit c = true \/ In c (text ".e+-nainf")).
  { intros s t H I. apply in_app_or in I as [I|I]; [|auto]. right. destruct s; [|destruct I]. destruct I as [<- |[]]. cbn. tauto. }
  destruct x as [s|s| |s m e H] eqn:Ex.
  - apply G. now apply S.
  - apply G. cbn. tauto.
  - cbn. tauto.
  - rewrite <- Ex. assert (NZ : B2R x <> 0%R). { rewrite Ex. cbn [B2R]. apply F2R_neq_0. destruct s; discriminate. }
    pose proof (finite_range x NZ) as [L U]. set (v := Rabs (B2R x)) in *. assert (V : (0 < v)%R) by (apply Rabs_pos_lt; exact NZ).
    pose proof (expo_range v L U) as K. pose proof (mant_expo_ok p v V) as MK.
    assert (FE : fmt_e p x = minus s ++ (let '(M, k) := mant_expo p v in sci p M k)) by (unfold v; rewrite Ex; reflexivity). rewrite FE.
    destruct (mant_expo p v) as [M k]. destruct MK as (MB & KB & _). assert (P0 : (0 < 10 ^ Z.of_nat p)%Z) by (apply Z.pow_pos_nonneg; lia). apply G. apply S; lia.
Qed.
Theorem C79_readable p : 16 <= p -> readable (fmt_e p) read_float /\ forall x, survives (fmt_e p) read_float x.
Proof.
  intros P. assert (C : forall x c, In c (fmt_e p x) -> is_space c = false /\ c <> "#"%char /\ c <> "("%char).
  { intros x c H. apply fmt_chars in H as [H|H].
    - split; [now apply digit_no_space|]. split; intros ->; discriminate.
    - cbn in H. repeat (destruct H as [<- |H]; [repeat split; discriminate|]). destruct H. }
  split.
  - intros x. split; [now apply read_fmt|]. split.
    + intros E. pose proof (read_fmt p x P) as R. rewrite E in R. discriminate R.
    + intros c H. destruct (C x c H) as (A & B & _). now split.
  - intros x. split; [now apply read_fmt|]. intros H. destruct (C x _ H) as (_ & _ & B). now apply B.
Qed.
(** A structure written as CIF file comes back bit by bit. *)
Theorem C79_cif symbols (consts : list float64) coords :
  Forall (fun s => s <> [] /\ made_of letter s) symbols -> length consts = 6 -> Forall (fun row => length row = 3) coords ->
  exists b, write_cif (fmt_e 16) symbols consts coords = Some b /\
    get_symbols b = Some (Some symbols) /\ get_cryst_const read_float b = Some consts /\ get_coords_frac read_float b = Some (Some coords).
Proof.
  intros S C R. destruct (C78_round_trip float64 (fmt_e 16) read_float symbols consts coords) as (b & H1 & H2 & H3 & H4 & _); auto; [|now exists b].
  apply C79_readable. lia.
Qed.
(** 16 digits are not enough, and neither are fewer, for instance the 14 of lammps.struct_str: the
    number after 1000 is written as 1000. *)
Definition after1000 : float64 := @B754_finite 53 1024 false 8796093022208001 (-43) eq_refl.
Theorem C79_fewer_refuted p : 1 <= p <= 15 -> read_float (fmt_e p after1000) <> Some after1000.
Proof.
  intros P. set (v := Rabs (B2R after1000)).
  assert (E : v = (1000 + bpow radix2 (-43))%R).
  { unfold v. cbn [B2R after1000 cond_Zopp]. unfold F2R. cbn [Fnum Fexp]. rewrite Rabs_pos_eq by (apply Rmult_le_pos; [apply IZR_le; lia|apply bpow_ge_0]).
    replace (IZR 8796093022208001) with (1000 * bpow radix2 43 + 1)%R by (rewrite <- (IZR_Zpower radix2) by lia; rewrite <- mult_IZR, <- plus_IZR; reflexivity).
    rewrite Rmult_plus_distr_r, Rmult_assoc, <- bpow_plus. change (43 + -43)%Z with 0%Z. change (bpow radix2 0) with 1%R. ring. }
  assert (B43 : (0 < bpow radix2 (-43) < / 1000000000000)%R).
  { split; [apply bpow_gt_0|]. change (-43)%Z with (- (43))%Z. rewrite bpow_opp. apply Rinv_lt_contravar; [apply Rmult_lt_0_compat; [lra|apply bpow_gt_0]|]. rewrite <- (IZR_Zpower radix2) by lia. apply IZR_lt. reflexivity. }
  assert (X : expo v = 3%Z).
  { unfold expo. rewrite (mag_unique radix10 v 4); [reflexivity|]. rewrite Rabs_pos_eq by lra. change (bpow radix10 (4 - 1)) with 1000%R. change (bpow radix10 4) with 10000%R. lra. }
  assert (M : mant p v = (10 ^ Z.of_nat p)%Z).
  { unfold mant. rewrite X. apply Znearest_imp. rewrite E, Rmult_plus_distr_r. change (10 ^ Z.of_nat p)%Z with (radix10 ^ Z.of_nat p)%Z. rewrite IZR_Zpower by lia.
    replace (1000 * bpow radix10 (Z.of_nat p - 3))%R with (bpow radix10 (Z.of_nat p)).
    - replace (bpow radix10 (Z.of_nat p) + bpow radix2 (-43) * bpow radix10 (Z.of_nat p - 3) - bpow radix10 (Z.of_nat p))%R with (bpow radix2 (-43) * bpow radix10 (Z.of_nat p - 3))%R by ring.
      assert (B : (0 < bpow radix10 (Z.of_nat p - 3) <= bpow radix10 12)%R) by (split; [apply bpow_gt_0|apply bpow_le; lia]).
      assert (B12 : (bpow radix2 (-43) * bpow radix10 12 < / 2)%R).
      { change (-43)%Z with (- (43))%Z. rewrite bpow_opp. rewrite <- (IZR_Zpower radix2), <- (IZR_Zpower radix10) by lia. change (radix2 ^ 43)%Z with 8796093022208%Z. change (radix10 ^ 12)%Z with 1000000000000%Z. lra. }
      rewrite Rabs_pos_eq by (apply Rmult_le_pos; lra). apply Rle_lt_trans with (2 := B12). apply Rmult_le_compat_l; lra.
    - change 1000%R with (bpow radix10 3). rewrite <- bpow_plus. f_equal. lia. }
  assert (ME : mant_expo p v = (10 ^ Z.of_nat p, 3)%Z).
  { unfold mant_expo. rewrite M, X. destruct (Z.eqb_spec (10 ^ Z.of_nat p) (10 ^ (Z.of_nat p + 1))) as [Q|Q]; [|reflexivity]. apply Z.pow_inj_r in Q; lia. }
  change (fmt_e p after1000) with (minus false ++ (let '(M, k) := mant_expo p v in sci p M k)). rewrite ME.
  rewrite read_sci; [|lia| |reflexivity].
  2: { split; [apply Z.pow_nonneg; lia|apply Z.pow_lt_mono_r; lia]. }
  change (10 ^ Z.of_nat p)%Z with (radix10 ^ Z.of_nat p)%Z. rewrite IZR_Zpower by lia. rewrite <- bpow_plus. replace (Z.of_nat p + (3 - Z.of_nat p))%Z with 3%Z by lia.
  change (bpow radix10 3) with 1000%R. set (y := @B754_finite 53 1024 false 8796093022208000 (-43) eq_refl : float64).
  assert (Y : B2R y = 1000%R).
  { unfold y. cbn [B2R cond_Zopp]. unfold F2R. cbn [Fnum Fexp]. change (-43)%Z with (- (43))%Z. rewrite bpow_opp. rewrite <- (IZR_Zpower radix2) by lia. change (radix2 ^ 43)%Z with 8796093022208%Z. lra. }
  rewrite (of_real_ok false 1000 y); [discriminate|reflexivity|rewrite Y; lra|reflexivity|]. rewrite Y, Rabs_pos_eq by lra. apply round_generic; [typeclasses eauto|]. rewrite <- Y. apply generic_format_B2R.
Qed.
(** 1.5, printed. *)
Example C79_case : let x := @B754_finite 53 1024 false 6755399441055744 (-52) eq_refl : float64 in
  B2R x = (3 / 2)%R /\ fmt_e 16 x = text "1.5000000000000000e+00".
Proof.
  cbv zeta. set (x := @B754_finite 53 1024 false 6755399441055744 (-52) eq_refl : float64).
  assert (Y : B2R x = (3 / 2)%R).
  { unfold x. cbn [B2R cond_Zopp]. unfold F2R. cbn [Fnum Fexp]. change (-52)%Z with (- (52))%Z. rewrite bpow_opp. rewrite <- (IZR_Zpower radix2) by lia. change (radix2 ^ 52)%Z with 4503599627370496%Z. lra. }
  split; [exact Y|]. change (fmt_e 16 x) with (let '(M, k) := mant_expo 16 (Rabs (B2R x)) in sci 16 M k). rewrite Y, Rabs_pos_eq by lra.
  assert (X : expo (3 / 2) = 0%Z). { unfold expo. rewrite (mag_unique radix10 (3 / 2) 1); [reflexivity|]. rewrite Rabs_pos_eq by lra. change (bpow radix10 (1 - 1)) with 1%R. change (bpow radix10 1) with 10%R. lra. }
  assert (M : mant 16 (3 / 2) = 15000000000000000%Z).
  { unfold mant. rewrite X. apply Znearest_imp. change (bpow radix10 (Z.of_nat 16 - 0)) with (bpow radix10 16). rewrite <- (IZR_Zpower radix10) by lia. change (radix10 ^ 16)%Z with 10000000000000000%Z.
    replace (3 / 2 * 10000000000000000 - 15000000000000000)%R with 0%R by lra. rewrite Rabs_R0. lra. }
  unfold mant_expo. rewrite M, X. vm_compute. reflexivity.
Qed.

Print Assumptions C79_round_trip.
Print Assumptions C79_nearest.
Print Assumptions C79_readable.
Print Assumptions C79_cif.
Print Assumptions C79_fewer_refuted.
