(** C42 autocorrelation, C45 peaks, C47 fftsample, C67 Fourier transforms and windows. *)
From Coq Require Import Reals List Arith Bool ZArith String Lia Lra Sorted.
From Coquelicot Require Import Coquelicot.
From Verif Require Import Signal SignalSpec SignalProofs.
Import ListNotations.
Local Open Scope R_scope.
Local Notation length := List.length.
Local Notation Forall := List.Forall.

(** All seven methods return the autocorrelation function; other methods are refused. *)
Theorem C42_agree : forall v m, (1 <= m <= 7)%nat ->
  acorr v m false = Some (map (acf v) (seq 0 (length v))) /\
  (~ Forall (fun x => x = 0) v -> acorr v m true = Some (map (fun t => acf v t / acf v 0) (seq 0 (length v)))).
Proof.
  intros v m Hm. unfold acorr. rewrite methods_agree by assumption. split; [reflexivity|]. intros NZ.
  unfold normalise. destruct v as [|x v]; [exfalso; apply NZ; constructor|].
  change (nth 0 (map (acf (x :: v)) (seq 0 (length (x :: v)))) 0) with (acf (x :: v) 0).
  destruct (Req_EM_T _ 0) as [E|E]; [apply acf0_zero in E; contradiction|]. f_equal. apply map_map.
Qed.
Print Assumptions C42_agree.

Theorem C42_unknown_method : forall v m norm, (m = 0 \/ 8 <= m)%nat -> acorr v m norm = None.
Proof. intros v m norm H. unfold acorr. destruct m as [|[|[|[|[|[|[|[|m]]]]]]]]; try lia; reflexivity. Qed.
Print Assumptions C42_unknown_method.

(** The function is bounded by its value at zero, which vanishes only for the zero
    signal; normalised, it starts at 1 and stays within -1 and 1. *)
Theorem C42_bound : forall v t, Rabs (acf v t) <= acf v 0 /\ (acf v 0 = 0 <-> Forall (fun x => x = 0) v).
Proof. intros. split; [apply acf_bound|apply acf0_zero]. Qed.
Print Assumptions C42_bound.

Theorem C42_normalised : forall v m c, acorr v m true = Some c -> v <> [] ->
  nth 0 c 0 = 1 /\ Forall (fun x => -1 <= x <= 1) c /\ length c = length v.
Proof.
  intros v m c E NE. destruct (Nat.le_gt_cases 1 m) as [H1|H1]; [|rewrite C42_unknown_method in E by lia; discriminate].
  destruct (Nat.le_gt_cases m 7) as [H2|H2]; [|rewrite C42_unknown_method in E by lia; discriminate].
  unfold acorr in E. rewrite methods_agree in E by lia. unfold normalise in E.
  destruct v as [|x v]; [contradiction|]. cbn [length seq map nth] in E.
  destruct (Req_EM_T _ 0) as [|N]; [discriminate|]. injection E as <-.
  assert (P : 0 < acf (x :: v) 0).
  { pose proof (acf_bound (x :: v) 0) as B. pose proof (Rabs_pos (acf (x :: v) 0)). lra. }
  split; [cbn [nth]; field; lra|]. split; [|cbn [length]; rewrite !map_length, seq_length; reflexivity].
  rewrite Forall_forall. intros y Hy.
  assert (exists t, y = acf (x :: v) t / acf (x :: v) 0) as [t ->].
  { destruct Hy as [<-|Hy]; [exists 0%nat; reflexivity|]. rewrite map_map in Hy. apply in_map_iff in Hy. destruct Hy as (t & <- & _). exists t. reflexivity. }
  pose proof (acf_bound (x :: v) t) as B. apply Rabs_le_between in B.
  split; apply (Rmult_le_reg_r (acf (x :: v) 0)); try assumption; unfold Rdiv; rewrite Rmult_assoc, Rinv_l by lra; lra.
Qed.
Print Assumptions C42_normalised.

(** The zero signal has no normalised function (numpy returns nan). *)
Theorem C42_zero_signal : forall v m, v <> [] -> Forall (fun x => x = 0) v -> acorr v m true = None.
Proof.
  intros v m NE Z. destruct (Nat.le_gt_cases 1 m) as [H1|H1]; [|apply C42_unknown_method; lia].
  destruct (Nat.le_gt_cases m 7) as [H2|H2]; [|apply C42_unknown_method; lia].
  unfold acorr. rewrite methods_agree by lia. unfold normalise. destruct v as [|x v]; [contradiction|]. cbn [length seq map nth].
  destruct (Req_EM_T _ 0) as [|N]; [reflexivity|]. exfalso. apply N. apply acf0_zero. assumption.
Qed.
Print Assumptions C42_zero_signal.

Example C42_ex : acorr [1; 2; 3] 7 false = Some [14; 8; 3] /\ ~ Forall (fun x => x = 0) [1; 2; 3].
Proof.
  split.
  - rewrite (proj1 (C42_agree [1; 2; 3] 7 ltac:(lia))). unfold acf. cbn. f_equal. f_equal; [lra|]. f_equal; [lra|]. f_equal. lra.
  - intros H. inversion H. lra.
Qed.

(** Peaks: without [ymin], in increasing order, exactly the interior points higher than
    both neighbours. *)
Theorem C45_peaks : forall y, y <> [] -> exists l, find_peaks y None = Some l /\ StronglySorted lt l /\
  forall i, In i l <-> peak y i.
Proof.
  intros y NE. destruct y as [|a y]; [contradiction|]. eexists. split; [reflexivity|]. split; [apply flat_sorted|].
  apply peaks_all. reflexivity.
Qed.
Print Assumptions C45_peaks.

(** With [ymin] the left neighbour is compared with [ymin], not the peak. *)
Theorem C45_ymin : forall y m, exists l, find_peaks y (Some m) = Some l /\ StronglySorted lt l /\
  forall i, In i l <-> peak y i /\ m <= nth (i - 1) y 0.
Proof.
  intros y m. eexists. split; [reflexivity|]. split; [apply flat_sorted|]. apply peaks_spec. reflexivity.
Qed.
Print Assumptions C45_ymin.

(** So every reported peak is above [ymin], but not every peak above [ymin] is reported. *)
Theorem C45_ymin_sound : forall y m l i, find_peaks y (Some m) = Some l -> In i l -> peak y i /\ m < nth i y 0.
Proof.
  intros y m l i E H. apply (peaks_spec y m l E) in H. destruct H as [P H]. split; [assumption|]. destruct P as (_ & _ & Q & _). lra.
Qed.
Print Assumptions C45_ymin_sound.

Theorem C45_ymin_refuted : ~ (forall y m l, find_peaks y (Some m) = Some l ->
  forall i, peak y i -> m <= nth i y 0 -> In i l).
Proof.
  intros H. specialize (H [0; 5; 0] 1 _ eq_refl 1%nat).
  assert (P : peak [0; 5; 0] 1) by (unfold peak; cbn; repeat split; try lia; lra).
  specialize (H P). cbn [nth] in H. specialize (H ltac:(lra)).
  apply (peaks_spec [0; 5; 0] 1 _ eq_refl) in H. destruct H as [_ H]. cbn in H. lra.
Qed.
Print Assumptions C45_ymin_refuted.

Example C45_ex : exists l, find_peaks [0; 2; 1; 3; 0] None = Some l /\ In 1%nat l /\ In 3%nat l /\ ~ In 2%nat l.
Proof.
  destruct (C45_peaks [0; 2; 1; 3; 0] ltac:(discriminate)) as (l & E & _ & H). exists l. split; [assumption|].
  rewrite !H. unfold peak. cbn. repeat split; try lia; try lra.
Qed.

(** fftsample: frequency mode and time mode undo each other, with and without
    mirroring. *)
Theorem C47_inverse : forall a b mirr x y, 0 < a -> 0 < b ->
  (fftsample a b "f" mirr = Some (x, y) -> fftsample x y "t" mirr = Some (a, b)) /\
  (fftsample a b "t" mirr = Some (x, y) -> fftsample x y "f" mirr = Some (a, b)).
Proof.
  intros a b mirr x y Ha Hb. unfold fftsample. cbn [String.eqb Ascii.eqb Bool.eqb]. destruct mirr;
  (split; intros E; injection E as <- <-; f_equal; f_equal; field; lra).
Qed.
Print Assumptions C47_inverse.

(** The relations the documentation states: dt = 1/(2 fmax) and N dt df = 1, or 1/2
    with mirroring, so mirroring halves the number of steps. *)
Theorem C47_relations : forall fmax df mirr, 0 < fmax -> 0 < df -> exists dt N,
  fftsample fmax df "f" mirr = Some (dt, N) /\ fmax * dt = 1 / 2 /\
  N * dt * df = (if mirr then 1 / 2 else 1) /\ 0 < dt /\ 0 < N.
Proof.
  intros fmax df mirr H1 H2. unfold fftsample. cbn [String.eqb Ascii.eqb Bool.eqb]. do 2 eexists. split; [reflexivity|].
  assert (0 < / 2 / fmax) by (apply Rdiv_lt_0_compat; lra).
  split; [field; lra|]. split; [destruct mirr; field; lra|]. split; [assumption|].
  apply Rdiv_lt_0_compat; [lra|]. apply Rmult_lt_0_compat; [destruct mirr; lra|assumption].
Qed.
Print Assumptions C47_relations.

Theorem C47_bad_mode : forall a b mode mirr, mode <> "f"%string -> mode <> "t"%string -> fftsample a b mode mirr = None.
Proof.
  intros a b mode mirr H1 H2. unfold fftsample. apply String.eqb_neq in H1, H2. rewrite H1, H2. reflexivity.
Qed.
Print Assumptions C47_bad_mode.

Example C47_ex : fftsample 100 1 "f" false = Some (/ 200, 200).
Proof. unfold fftsample. cbn. f_equal. f_equal; field. Qed.

(** dft: both methods are the forward transform of fft for every complex array. *)
Theorem C67_dft : forall a m, m = "loop"%string \/ m = "matmul"%string -> dft a m = Some (fft a).
Proof. exact dft_fft. Qed.
Print Assumptions C67_dft.

(** Mirroring: length 2 n - 1 and symmetric about the middle, which is [arr[0]]. *)
Theorem C67_mirror : forall (arr : list R), arr <> [] ->
  length (mirror arr) = (2 * length arr - 1)%nat /\
  forall t, (t < length arr)%nat ->
    nth (length arr - 1 + t) (mirror arr) 0 = nth t arr 0 /\
    nth (length arr - 1 - t) (mirror arr) 0 = nth t arr 0.
Proof.
  intros [|a l] NE; [contradiction|]. unfold mirror. cbn [tl]. split.
  - rewrite app_length, rev_length. cbn [length]. lia.
  - intros t Ht. split.
    + destruct t as [|t].
      * rewrite app_nth1 by (rewrite rev_length; cbn; lia). rewrite rev_nth by (cbn; lia). cbn [length]. f_equal. lia.
      * rewrite app_nth2 by (rewrite rev_length; cbn; lia). rewrite rev_length. cbn [length nth]. f_equal. lia.
    + rewrite app_nth1 by (rewrite rev_length; cbn [length]; lia). rewrite rev_nth by (cbn [length] in *; lia). f_equal. cbn [length] in *. lia.
Qed.
Print Assumptions C67_mirror.

(** The Welch window: symmetric, between 0 and 1, zero exactly at both ends. *)
Theorem C67_welch : forall M, length (welch M) = M /\ forall n, (2 <= M)%nat -> (n < M)%nat ->
  0 <= nth n (welch M) 0 <= 1 /\ nth n (welch M) 0 = nth (M - 1 - n) (welch M) 0 /\
  (nth n (welch M) 0 = 0 <-> n = 0%nat \/ n = (M - 1)%nat) /\ ((2 * n = M - 1)%nat -> nth n (welch M) 0 = 1).
Proof.
  intros M. split; [apply welch_length|]. intros n H1 H2. destruct (welch_range M n H1 H2) as (A & B & D). repeat split; try apply A; try apply D; auto.
  intros E. rewrite welch_nth by assumption. replace (INR n) with (1 / 2 * (INR M - 1)).
  - unfold Rdiv. ring.
  - replace M with (2 * n + 1)%nat by lia. rewrite plus_INR, mult_INR. cbn. lra.
Qed.
Print Assumptions C67_welch.

Theorem C67_odd : forall n add r, odd n add = Some r -> Z.odd r = true /\ (add = 1 \/ add = -1)%Z /\
  (Z.odd n = true -> r = n) /\ (Z.odd n = false -> r = (n + add)%Z).
Proof.
  intros n add r E. unfold odd in E. destruct ((add =? 1) || (add =? -1))%Z eqn:A; [|discriminate]. injection E as <-.
  assert (add = 1 \/ add = -1)%Z as Ha by (apply orb_true_iff in A; rewrite !Z.eqb_eq in A; exact A).
  rewrite (Zmod_odd n). destruct (Z.odd n) eqn:O; cbn [Z.eqb Pos.eqb]; [repeat split; auto; discriminate|].
  rewrite Z.odd_add, O. split; [destruct Ha as [-> | ->]; reflexivity|]. repeat split; auto; discriminate.
Qed.
Print Assumptions C67_odd.
