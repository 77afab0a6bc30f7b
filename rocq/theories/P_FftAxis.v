(** C96: transforms along an axis, windows, filters *)
From Coq Require Import Reals Lra List ZArith Lia Arith Bool String.
From Coquelicot Require Import Coquelicot.
From Verif Require Import Nd FftAxis FftAxisSpec FftAxisProofs.
From Verif Require Signal.
Import ListNotations.
Local Open Scope R_scope.
Local Open Scope list_scope.
Local Notation length := List.length.

(** ** fft_1d_loop *)
(** any transform of 1d arrays which keeps their length and only refuses empty ones *)
Theorem C96_axis A (fft1 : list A -> option (list A)) g dflt junk (a : arr A) k : (forall l, l <> [] -> fft1 l = Some (g l) /\ length (g l) = length l) ->
  (k < length (shape a))%nat -> (0 < nth k (shape a) 0)%nat -> exists r, fft_1d_loop fft1 dflt junk a (Z.of_nat k) = Some r /\ along dflt g k a r.
Proof. apply loop_ok. Qed.
Lemma axis_last A (fft1 : list A -> option (list A)) dflt junk (a : arr A) z : (z < 0)%Z -> shape a <> [] -> fft_1d_loop fft1 dflt junk a z = fft_1d_loop fft1 dflt junk a (Z.of_nat (length (shape a) - 1)).
Proof.
  intros Z N. unfold fft_1d_loop. destruct (Z.ltb_spec z 0); [|lia]. destruct (Z.ltb_spec (Z.of_nat (length (shape a) - 1)) 0); [lia|]. destruct (shape a) as [|n s]; [contradiction|]. cbn [length]. replace (Z.of_nat (S (length s)) - 1)%Z with (Z.of_nat (S (length s) - 1)) by lia. reflexivity.
Qed.
(** the transform of scipy: Fourier sums of all lines along the axis; -1 is the last axis *)
Definition fft1 (l : list C) : option (list C) := match l with [] => None | _ => Some (Signal.fft l) end.
Lemma fft_len l : length (Signal.fft l) = length l. Proof. unfold Signal.fft. now rewrite map_length, seq_length. Qed.
Lemma fft_nth l k : (k < length l)%nat -> nth k (Signal.fft l) (RtoC 0) = fourier_sum l k.
Proof.
  intros K. unfold Signal.fft, fourier_sum. set (f := fun k => Signal.csum _). rewrite (nth_indep _ (RtoC 0) (f 0%nat)) by now rewrite map_length, seq_length. rewrite (map_nth f). rewrite seq_nth by exact K. reflexivity.
Qed.
Theorem C96_fft junk (a : arr C) z k : (k < length (shape a))%nat -> (0 < nth k (shape a) 0)%nat -> z = Z.of_nat k \/ (z = -1)%Z /\ k = (length (shape a) - 1)%nat ->
  exists r, fft_1d_loop fft1 (RtoC 0) junk a z = Some r /\ shape r = shape a /\
    forall i, Forall2 lt i (shape a) -> at_ r i = fourier_sum (on_line a k i) (nth k i 0%nat).
Proof.
  intros K N Z. assert (E : fft_1d_loop fft1 (RtoC 0) junk a z = fft_1d_loop fft1 (RtoC 0) junk a (Z.of_nat k)).
  { destruct Z as [->|(-> & ->)]; [reflexivity|]. apply axis_last; [lia|]. intros Q. rewrite Q in K. cbn in K. lia. }
  destruct (C96_axis C fft1 Signal.fft (RtoC 0) junk a k) as (r & ER & S & V); [|exact K|exact N|].
  - intros [|x l] NE; [contradiction|]. split; [reflexivity|apply fft_len].
  - exists r. rewrite E. split; [exact ER|]. split; [exact S|]. intros i FI. rewrite V by exact FI. apply fft_nth. unfold on_line. rewrite map_length, seq_length.
    clear -FI K. revert k K. induction FI as [|x n i s L FI IH]; intros k K; [cbn in K; lia|]. destruct k as [|k]; [exact L|]. cbn in *. apply IH. lia.
Qed.
(** all negative axes are the last one; in numpy -2 is the one before *)
Theorem C96_negative_refuted A (fft1 : list A -> option (list A)) dflt junk (a : arr A) z : (z < 0)%Z -> fft_1d_loop fft1 dflt junk a z = fft_1d_loop fft1 dflt junk a (-1).
Proof. intros Z. unfold fft_1d_loop. destruct (Z.ltb_spec z 0); [reflexivity|lia]. Qed.
Theorem C96_negative_differs_refuted : exists (a : arr nat) r, fft_1d_loop (fun l => Some (rev l)) 0%nat (fun _ => 0%nat) a (-2) = Some r /\ ~ along 0%nat (@rev nat) 0 a r.
Proof.
  exists (Array [2; 2]%nat (fun i => match i with [x; y] => (2 * x + y)%nat | _ => 0%nat end)). eexists. split; [vm_compute; reflexivity|]. intros (_ & V). specialize (V [0; 0]%nat ltac:(repeat constructor)). vm_compute in V. discriminate V.
Qed.
(** an axis which is too large is refused, unless there is no element *)
Theorem C96_large A (fft1 : list A -> option (list A)) dflt junk (a : arr A) z : (Z.of_nat (length (shape a)) <= z)%Z -> List.Forall (fun n => 0 < n)%nat (shape a) -> fft_1d_loop fft1 dflt junk a z = None.
Proof. apply loop_bad. Qed.

(** ** ezfft *)
Theorem C96_ezfft (y : list C) dt : y <> [] -> exists f d, ezfft fft1 y dt = Some (f, d) /\ length f = (length y / 2)%nat /\ length d = (length y / 2)%nat /\
  forall k, (k < length y / 2)%nat -> nth k f 0 = INR k / (INR (length y) * dt) /\ nth k d (RtoC 0) = fourier_sum y k.
Proof.
  intros NE. unfold ezfft. assert (E : fft1 y = Some (Signal.fft y)) by (destruct y; [contradiction|reflexivity]). rewrite E. do 2 eexists. split; [reflexivity|].
  assert (LY : (1 <= length y)%nat) by (destruct y; [contradiction|cbn; lia]). set (n := length y) in *.
  assert (HD : (n / 2 <= S ((n - 1) / 2))%nat). { assert (A := Nat.div_mod n 2 ltac:(lia)). assert (B := Nat.div_mod (n - 1) 2 ltac:(lia)). assert (C := Nat.mod_upper_bound n 2 ltac:(lia)). assert (D := Nat.mod_upper_bound (n - 1) 2 ltac:(lia)). lia. }
  assert (HN : (S ((n - 1) / 2) <= n)%nat). { assert (B := Nat.div_mod (n - 1) 2 ltac:(lia)). lia. }
  assert (LF : length (fftfreq n dt) = n) by (unfold fftfreq; rewrite map_length, app_length, !map_length, !seq_length; lia). rewrite LF.
  assert (H2 : (n / 2 <= n)%nat) by (apply Nat.div_le_upper_bound; lia).
  split; [rewrite firstn_length, LF; lia|]. split; [rewrite firstn_length, fft_len; fold n; lia|]. intros k K.
  assert (FN : forall B (l : list B) d j m, (j < m)%nat -> nth j (firstn m l) d = nth j l d).
  { intros B l d j. revert l. induction j as [|j IH]; intros [|x l] [|m] J; try lia; try reflexivity. cbn. apply IH. lia. }
  rewrite !FN by exact K. split; [|apply fft_nth; fold n; lia].
  unfold fftfreq. rewrite map_app. rewrite app_nth1 by (rewrite !map_length, seq_length; lia). rewrite map_map. set (f := fun x => IZR (Z.of_nat x) / (INR n * dt)). rewrite (nth_indep _ 0 (f 0%nat)) by (rewrite map_length, seq_length; lia). rewrite (map_nth f), seq_nth by lia. unfold f. now rewrite <- INR_IZR_INZ.
Qed.
(** with an odd number of points the highest positive frequency is left out *)
Theorem C96_ezfft_refuted (y : list C) dt m : length y = (2 * m + 1)%nat -> (0 < m)%nat -> 0 < dt ->
  (In (INR m / (INR (length y) * dt)) (fftfreq (length y) dt) /\ 0 < INR m / (INR (length y) * dt)) /\
  exists f d, ezfft fft1 y dt = Some (f, d) /\ ~ In (INR m / (INR (length y) * dt)) f.
Proof.
  intros L M D. assert (PN : 0 < INR (length y)) by (apply lt_0_INR; lia). assert (PD : 0 < INR (length y) * dt) by now apply Rmult_lt_0_compat. split; [split|].
  - unfold fftfreq. apply in_map_iff. exists (Z.of_nat m). split; [now rewrite <- INR_IZR_INZ|]. apply in_or_app. left. apply in_map. apply in_seq. rewrite L. replace (2 * m + 1 - 1)%nat with (m * 2)%nat by lia. rewrite Nat.div_mul by lia. lia.
  - apply Rdiv_lt_0_compat; [apply lt_0_INR; lia|exact PD].
  - destruct (C96_ezfft y dt) as (f & d & E & LF & _ & V); [intros ->; cbn in L; lia|]. exists f, d. split; [exact E|]. intros I. apply (In_nth _ _ 0) in I as (k & K & EK). rewrite LF in K. rewrite (proj1 (V k K)) in EK. replace (length y / 2)%nat with m in K by (rewrite L; apply Nat.div_unique with 1%nat; lia).
    assert (INR k = INR m). { apply (f_equal (fun z => z * (INR (length y) * dt))) in EK. unfold Rdiv in EK. rewrite !Rmult_assoc, Rinv_l, !Rmult_1_r in EK by lra. exact EK. } apply INR_eq in H. lia.
Qed.

(** ** lorentz *)
Lemma max_is x l : is_max (fold_left Rmax l x) (x :: l).
Proof.
  revert x. induction l as [|y l IH]; intros x; cbn [fold_left]; [split; [now left|intros z [<-|[]]; lra]|]. destruct (IH (Rmax x y)) as (I & M). split.
  - destruct I as [I|I]; [|right; now right]. rewrite <- I. unfold Rmax. destruct (Rle_dec x y); [right; now left|now left].
  - assert (B := M _ (or_introl eq_refl)). intros z [<-|[<-|Z]]; [eapply Rle_trans; [apply Rmax_l|exact B]|eapply Rle_trans; [apply Rmax_r|exact B]|apply M; now right].
Qed.
Lemma min_is x l : is_min (fold_left Rmin l x) (x :: l).
Proof.
  revert x. induction l as [|y l IH]; intros x; cbn [fold_left]; [split; [now left|intros z [<-|[]]; lra]|]. destruct (IH (Rmin x y)) as (I & M). split.
  - destruct I as [I|I]; [|right; now right]. rewrite <- I. unfold Rmin. destruct (Rle_dec x y); [now left|right; now left].
  - assert (B := M _ (or_introl eq_refl)). intros z [<-|[<-|Z]]; [eapply Rle_trans; [exact B|apply Rmin_l]|eapply Rle_trans; [exact B|apply Rmin_r]|apply M; now right].
Qed.
Lemma max_unique m m' l : is_max m l -> is_max m' l -> m = m'.
Proof. intros (I & A) (J & B). specialize (A _ J). specialize (B _ I). lra. Qed.
Lemma min_unique m m' l : is_min m l -> is_min m' l -> m = m'.
Proof. intros (I & A) (J & B). specialize (A _ J). specialize (B _ I). lra. Qed.
Lemma sym_form M std d j : 0 < std -> (j < M)%nat -> Rabs (INR j - (INR M - 1) / 2) = d -> (forall i, (i < M)%nat -> d <= Rabs (INR i - (INR M - 1) / 2)) ->
  exists w, lorentz_sym M std = Some w /\ length w = M /\ forall i, (i < M)%nat -> nth i w 0 = lorentzian std ((INR M - 1) / 2) d (INR i).
Proof.
  intros S J D H. unfold lorentz_sym. set (c := (INR M - 1) / 2) in *. set (h := fun i => let n := INR i - c in std / (n ^ 2 + std ^ 2)).
  assert (P : forall i, 0 < (INR i - c) ^ 2 + std ^ 2) by (intros i; assert (0 < std ^ 2) by (apply pow_lt; lra); assert (0 <= (INR i - c) ^ 2) by apply pow2_ge_0; lra).
  assert (SQ : forall x, x ^ 2 = Rabs x ^ 2) by (intros x; now rewrite pow2_abs).
  assert (MX : is_max (h j) (map h (seq 0 M))).
  { split; [apply in_map, in_seq; lia|]. intros x X. apply in_map_iff in X as (i & <- & I). apply in_seq in I. unfold h. cbv zeta. apply Rmult_le_compat_l; [lra|]. apply Rinv_le_contravar; [apply P|]. assert (B := H i ltac:(lia)). rewrite (SQ (INR j - c)), (SQ (INR i - c)), D. assert (0 <= d) by (rewrite <- D; apply Rabs_pos). assert (d ^ 2 <= Rabs (INR i - c) ^ 2) by (apply pow_incr; lra). lra. }
  destruct (map h (seq 0 M)) as [|x l] eqn:E; [destruct M; [lia|discriminate E]|]. cbn [maximum]. rewrite (max_unique _ _ _ (max_is x l) MX). eexists. split; [reflexivity|]. rewrite <- E. split; [now rewrite !map_length, seq_length|]. intros i I. rewrite map_map. set (h2 := fun i => h i / h j). rewrite (nth_indep _ 0 (h2 0%nat)) by now rewrite map_length, seq_length. rewrite (map_nth h2), seq_nth by exact I. unfold h2, h, lorentzian. cbv zeta. assert (B := P j). assert (B2 := P (0 + i)%nat). rewrite (SQ (INR j - c)), D in *. cbn [Nat.add] in *. field. repeat split; nra.
Qed.
(** the window is a Lorentz function with its largest value scaled to 1, on M points *)
Theorem C96_lorentz M std sym : (1 <= M)%nat -> 0 < std -> exists w, lorentz (Z.of_nat M) std sym = Some w /\ length w = M /\ forall i, (i < M)%nat -> nth i w 0 =
  if Nat.odd M then lorentzian std ((INR M - 1) / 2) 0 (INR i)
  else if sym then lorentzian std ((INR M - 1) / 2) (1 / 2) (INR i) else lorentzian std (INR M / 2) 0 (INR i).
Proof.
  intros M1 S. unfold lorentz. destruct (Z.ltb_spec (Z.of_nat M) 1); [lia|]. destruct (Z.eqb_spec (Z.of_nat M) 1) as [E|E].
  { assert (M = 1)%nat by lia. subst M. exists [1]. split; [reflexivity|]. split; [reflexivity|]. intros i I. assert (i = 0)%nat by lia. subst i. cbn. unfold lorentzian. field. lra. }
  assert (OD : Z.odd (Z.of_nat M) = Nat.odd M).
  { destruct (Nat.odd M) eqn:O; [apply Nat.odd_spec in O as (q & ->); replace (Z.of_nat (2 * q + 1)) with (2 * Z.of_nat q + 1)%Z by lia; rewrite Z.add_comm, Z.odd_add_mul_2; reflexivity|]. rewrite <- Nat.negb_even in O. apply negb_false_iff, Nat.even_spec in O as (q & ->). replace (Z.of_nat (2 * q)) with (0 + 2 * Z.of_nat q)%Z by lia. rewrite Z.odd_add_mul_2. reflexivity. }
  rewrite OD. assert (CEN : forall q, exists j, (j < 2 * q + 1)%nat /\ Rabs (INR j - (INR (2 * q + 1) - 1) / 2) = 0).
  { intros q. exists q. split; [lia|]. rewrite plus_INR, mult_INR. cbn [INR]. replace (INR q - ((1 + 1) * INR q + 1 - 1) / 2) with 0 by field. apply Rabs_R0. }
  destruct (Nat.odd M) eqn:O.
  - rewrite andb_false_r. rewrite Nat2Z.id. apply Nat.odd_spec in O as (q & ->). destruct (CEN q) as (j & J & D). destruct (sym_form (2 * q + 1) std 0 j S J D) as (w & W & L & V); [intros; apply Rabs_pos|]. rewrite W. exists w. now repeat split.
  - assert (EV : exists q, M = (2 * q)%nat) by (rewrite <- Nat.negb_even in O; apply negb_false_iff, Nat.even_spec in O; exact O). destruct EV as (q & ->). rewrite andb_true_r. destruct sym; cbn [negb].
    + rewrite Nat2Z.id. destruct (sym_form (2 * q) std (1 / 2) q S ltac:(lia)) as (w & W & L & V).
      * rewrite mult_INR. cbn [INR]. replace (INR q - ((1 + 1) * INR q - 1) / 2) with (1 / 2) by field. apply Rabs_pos_eq. lra.
      * intros i I. rewrite mult_INR. cbn [INR]. replace (INR i - ((1 + 1) * INR q - 1) / 2) with (INR i - INR q + 1 / 2) by field. destruct (le_lt_dec q i) as [C|C].
        -- apply le_INR in C. rewrite Rabs_pos_eq; lra.
        -- apply lt_le_S, le_INR in C. rewrite S_INR in C. rewrite Rabs_left1; lra.
      * rewrite W. exists w. now repeat split.
    + replace (Z.to_nat (Z.of_nat (2 * q) + 1)) with (2 * q + 1)%nat by lia. destruct (CEN q) as (j & J & D). destruct (sym_form (2 * q + 1) std 0 j S J D) as (w & W & L & V); [intros; apply Rabs_pos|]. rewrite W. exists (removelast w). split; [reflexivity|].
      assert (NE : w <> []) by (intros ->; cbn in L; lia). assert (AL := app_removelast_last 0 NE). assert (LR : length (removelast w) = (2 * q)%nat) by (rewrite AL, app_length in L; cbn in L; lia). split; [exact LR|]. intros i I. rewrite <- (app_nth1 _ [last w 0]) by lia. rewrite <- AL. rewrite V by lia. f_equal. rewrite plus_INR. cbn [INR]. lra.
Qed.
(** so it is symmetric (sym=True), at most 1 and positive *)
Theorem C96_lorentz_shape M std : (1 <= M)%nat -> 0 < std -> exists w, lorentz (Z.of_nat M) std true = Some w /\ length w = M /\ rev w = w /\ is_max 1 w /\ List.Forall (fun x => 0 < x) w.
Proof.
  intros M1 S. destruct (C96_lorentz M std true M1 S) as (w & W & L & V). exists w. split; [exact W|]. split; [exact L|].
  set (c := (INR M - 1) / 2) in *. set (d := if Nat.odd M then 0 else 1 / 2). assert (V2 : forall i, (i < M)%nat -> nth i w 0 = lorentzian std c d (INR i)) by (intros i I; rewrite V by exact I; unfold d; destruct (Nat.odd M); reflexivity).
  assert (PS : 0 < std ^ 2) by (apply pow_lt; lra).
  assert (H : (exists j, (j < M)%nat /\ (INR j - c) ^ 2 = d ^ 2) /\ forall i, (i < M)%nat -> d ^ 2 <= (INR i - c) ^ 2).
  { unfold d, c. destruct (Nat.odd M) eqn:O.
    - split; [|intros i I; assert (X := pow2_ge_0 (INR i - (INR M - 1) / 2)); lra]. apply Nat.odd_spec in O as (q & ->). exists q. split; [lia|]. rewrite plus_INR, mult_INR. cbn [INR]. field.
    - assert (EV : exists q, M = (2 * q)%nat) by (rewrite <- Nat.negb_even in O; apply negb_false_iff, Nat.even_spec in O; exact O). destruct EV as (q & ->). rewrite mult_INR. cbn [INR]. split.
      + exists q. split; [lia|]. field.
      + intros i I. destruct (le_lt_dec q i) as [C|C]; [apply le_INR in C|apply lt_le_S, le_INR in C; rewrite S_INR in C]; nra. }
  destruct H as ((j & J & DJ) & H). split; [|split].
  - apply nth_ext with (d := 0) (d' := 0); [apply rev_length|]. intros i I. rewrite rev_length, L in I. rewrite rev_nth by lia. rewrite L, !V2 by lia. unfold lorentzian. apply f_equal. rewrite minus_INR by lia. rewrite S_INR. unfold c. field.
  - split.
    + replace 1 with (nth j w 0); [apply nth_In; lia|]. rewrite V2 by exact J. unfold lorentzian. rewrite DJ. field. assert (0 <= d ^ 2) by apply pow2_ge_0. lra.
    + intros x X. apply (In_nth _ _ 0) in X as (i & I & <-). rewrite V2 by lia. unfold lorentzian. specialize (H i ltac:(lia)). assert (0 <= d ^ 2) by apply pow2_ge_0. apply Rmult_le_reg_r with ((INR i - c) ^ 2 + std ^ 2); [lra|]. unfold Rdiv. rewrite Rmult_assoc, Rinv_l by lra. lra.
  - apply Forall_forall. intros x X. apply (In_nth _ _ 0) in X as (i & I & <-). rewrite V2 by lia. unfold lorentzian. specialize (H i ltac:(lia)). assert (0 <= d ^ 2) by apply pow2_ge_0. apply Rdiv_lt_0_compat; lra.
Qed.

(** ** scale *)
Theorem C96_scale x lo hi : is_min lo x -> is_max hi x -> lo < hi -> exists y, scale x = Some y /\ y = map (fun v => (v - lo) / (hi - lo)) x /\ is_min 0 y /\ is_max 1 y.
Proof.
  intros LO HI LH. unfold scale. destruct x as [|a t]; [destruct LO as ([] & _)|]. cbn [minimum]. rewrite (min_unique _ _ _ (min_is a t) LO). cbn [map maximum]. set (f := fun v => v - lo).
  assert (MX : is_max (hi - lo) (f a :: map f t)).
  { split; [apply (in_map f (a :: t)); apply HI|]. intros z Z. apply (in_map_iff f (a :: t)) in Z as (v & <- & I). destruct HI as (_ & HI). specialize (HI v I). unfold f. lra. }
  change (f a) with (a - lo) in MX. rewrite (max_unique _ _ _ (max_is (a - lo) (map f t)) MX). destruct (Req_EM_T (hi - lo) 0); [lra|]. eexists. split; [reflexivity|].
  assert (E : map (fun v => v / (hi - lo)) (a - lo :: map f t) = map (fun v => (v - lo) / (hi - lo)) (a :: t)) by (cbn; now rewrite map_map). cbn [map] in E. rewrite E. split; [reflexivity|]. change ((a - lo) / (hi - lo) :: map (fun v => (v - lo) / (hi - lo)) t) with (map (fun v => (v - lo) / (hi - lo)) (a :: t)).
  assert (PI : 0 < / (hi - lo)) by (apply Rinv_0_lt_compat; lra). split; split.
  - apply in_map_iff. exists lo. split; [unfold Rdiv; lra|apply LO].
  - intros z Z. apply in_map_iff in Z as (v & <- & I). destruct LO as (_ & LO). specialize (LO v I). unfold Rdiv. apply Rmult_le_pos; lra.
  - apply in_map_iff. exists hi. split; [field; lra|apply HI].
  - intros z Z. apply in_map_iff in Z as (v & <- & I). destruct HI as (_ & HI). specialize (HI v I). apply Rmult_le_reg_r with (hi - lo); [lra|]. unfold Rdiv. rewrite Rmult_assoc, Rinv_l by lra. lra.
Qed.
(** a constant array cannot be scaled: 0/0 *)
Theorem C96_scale_refuted c n : scale (repeat c (S n)) = None.
Proof.
  unfold scale. cbn [repeat minimum map maximum]. assert (M : fold_left Rmin (repeat c n) c = c) by (apply (min_unique _ _ _ (min_is c (repeat c n))); split; [now left|]; intros x [<-|X]; [lra|apply repeat_spec in X; lra]). rewrite M.
  assert (X : fold_left Rmax (map (fun v => v - c) (repeat c n)) (c - c) = 0).
  { apply (max_unique _ _ _ (max_is (c - c) _)). split; [left; lra|]. intros x [<-|I]; [lra|]. apply in_map_iff in I as (v & <- & I). apply repeat_spec in I. lra. }
  rewrite X. destruct (Req_EM_T 0 0); [reflexivity|contradiction].
Qed.

(** ** FIRFilter *)
(** band stop filters cannot be built, whatever the arguments *)
Theorem C96_bandstop_refuted kaiserord firwin cutoff nyq ntaps ripple width window : fir_init kaiserord firwin cutoff nyq ntaps ripple width window "bandstop" = None.
Proof. unfold fir_init. destruct (match ntaps with Some _ => _ | None => _ end) as [(n, w)|]; reflexivity. Qed.
(** what the coefficients are in the other modes *)
Theorem C96_fir kaiserord firwin cutoff nyq ntaps ripple width window mode taps : fir_init kaiserord firwin cutoff nyq ntaps ripple width window mode = Some taps <->
  exists n win pass_zero, firwin n cutoff win nyq pass_zero width = Some taps /\
    (ntaps = Some n /\ win = Named window \/ ntaps = None /\ exists r w beta, ripple = Some r /\ width = Some w /\ kaiserord r (w / nyq) = Some (n, beta) /\ win = Kaiser beta) /\
    (mode = "lowpass"%string /\ pass_zero = true \/ mode = "highpass"%string /\ pass_zero = false \/ mode = "bandpass"%string /\ pass_zero = false /\ exists f1 f2, cutoff = Many [f1; f2]).
Proof.
  unfold fir_init. split.
  - set (start := match ntaps with Some _ => _ | None => _ end). destruct start as [(n, win)|] eqn:ST; [|discriminate]. intros H. exists n, win.
    assert (A : ntaps = Some n /\ win = Named window \/ ntaps = None /\ exists r w beta, ripple = Some r /\ width = Some w /\ kaiserord r (w / nyq) = Some (n, beta) /\ win = Kaiser beta).
    { unfold start in ST. destruct ntaps as [k|]; [injection ST as <- <-; now left|]. right. split; [reflexivity|]. destruct ripple as [r|]; [|discriminate ST]. destruct width as [w|]; [|discriminate ST]. destruct (kaiserord r (w / nyq)) as [(k, b)|] eqn:K; [|discriminate ST]. injection ST as <- <-. exists r, w, b. now repeat split. }
    destruct (String.eqb mode "lowpass") eqn:M1; [apply String.eqb_eq in M1; exists true; split; [exact H|]; split; [exact A|]; now left|].
    destruct (String.eqb mode "highpass") eqn:M2; [apply String.eqb_eq in M2; exists false; split; [exact H|]; split; [exact A|]; right; now left|].
    destruct (String.eqb mode "bandpass") eqn:M3; [|discriminate H]. apply String.eqb_eq in M3. destruct cutoff as [f|[|f1 [|f2 [|f3 t]]]]; try discriminate H. exists false. split; [exact H|]. split; [exact A|]. right; right. split; [exact M3|]. split; [reflexivity|]. now exists f1, f2.
  - intros (n & win & pz & F & A & B). assert (ST : match ntaps with Some n0 => Some (n0, Named window) | None => match ripple, width with Some r, Some w => match kaiserord r (w / nyq) with Some (n0, beta) => Some (n0, Kaiser beta) | None => None end | _, _ => None end end = Some (n, win)).
    { destruct A as [(-> & ->)|(-> & r & w & b & -> & -> & K & ->)]; [reflexivity|]. now rewrite K. }
    rewrite ST. destruct B as [(-> & ->)|[(-> & ->)|(-> & -> & f1 & f2 & ->)]]; exact F.
Qed.
(** a call gives as many values as the signal has; each is the sum of the last values times the
    coefficients, the signal being zero before it starts *)
Theorem C96_filter taps x n : (n < length x)%nat -> length (fir_call taps x) = length x /\
  nth n (fir_call taps x) 0 = fold_right Rplus 0 (map (fun k => nth k taps 0 * nth (n - k) x 0) (seq 0 (Nat.min (length taps) (S n)))).
Proof.
  intros N. unfold fir_call. split; [now rewrite map_length, seq_length|]. set (f := fun n => fold_right Rplus 0 _). rewrite (nth_indep _ 0 (f 0%nat)) by now rewrite map_length, seq_length. rewrite (map_nth f), seq_nth by exact N. cbn [Nat.add]. unfold f.
  assert (Z : forall l, (forall k, In k l -> (n < k)%nat) -> fold_right Rplus 0 (map (fun k => nth k taps 0 * (if (k <=? n)%nat then nth (n - k) x 0 else 0)) l) = 0).
  { induction l as [|k l IH]; intros H; [reflexivity|]. cbn. rewrite IH by (intros; apply H; now right). assert (n < k)%nat by (apply H; now left). destruct (Nat.leb_spec k n); [lia|]. lra. }
  assert (Y : forall l, (forall k, In k l -> (k <= n)%nat) -> map (fun k => nth k taps 0 * (if (k <=? n)%nat then nth (n - k) x 0 else 0)) l = map (fun k => nth k taps 0 * nth (n - k) x 0) l).
  { intros l H. apply map_ext_in. intros k K. specialize (H k K). destruct (Nat.leb_spec k n); [reflexivity|lia]. }
  assert (AP : forall l1 l2, fold_right Rplus 0 (l1 ++ l2) = fold_right Rplus 0 l1 + fold_right Rplus 0 l2) by (induction l1 as [|a l1 IH]; intros l2; cbn; [lra|rewrite IH; lra]).
  replace (length taps) with (Nat.min (length taps) (S n) + (length taps - S n))%nat at 1 by lia. rewrite seq_app, map_app, AP. rewrite (Z (seq (0 + Nat.min (length taps) (S n)) (length taps - S n))) by (intros k K; apply in_seq in K; lia). rewrite Y by (intros k K; apply in_seq in K; lia). lra.
Qed.

(** ** Examples *)
Example C96_case : exists r, fft_1d_loop fft1 (RtoC 0) (fun _ => RtoC 7) (Array [2; 3; 2]%nat (fun _ => RtoC 1)) 1 = Some r.
Proof. destruct (C96_fft (fun _ => RtoC 7) (Array [2; 3; 2]%nat (fun _ => RtoC 1)) 1 1) as (r & E & _); [cbn; lia|cbn; lia|now left|]. now exists r. Qed.
Example C96_case_scale : is_min 1 [3; 1; 2] /\ is_max 3 [3; 1; 2].
Proof. repeat split; cbn; try tauto; intros x [<-|[<-|[<-|[]]]]; lra. Qed.
Example C96_case_fir : fir_init (fun _ _ => None) (fun n _ _ _ _ _ => Some (repeat 1 n)) (Many [1; 2]) 5 (Some 3%nat) None None "hamming" "bandpass" = Some [1; 1; 1].
Proof. reflexivity. Qed.
Print Assumptions C96_axis.
Print Assumptions C96_fft.
Print Assumptions C96_negative_refuted.
Print Assumptions C96_negative_differs_refuted.
Print Assumptions C96_large.
Print Assumptions C96_ezfft.
Print Assumptions C96_ezfft_refuted.
Print Assumptions C96_lorentz.
Print Assumptions C96_lorentz_shape.
Print Assumptions C96_scale.
Print Assumptions C96_scale_refuted.
Print Assumptions C96_bandstop_refuted.
Print Assumptions C96_fir.
Print Assumptions C96_filter.
