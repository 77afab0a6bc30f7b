From Coq Require Import Reals List Arith ZArith String Lra Lia.
From Verif Require Import Signal SignalProofs Traj TrajSpec TrajProofs VacfSpec VacfProofs Smooth SmoothSpec.
Import ListNotations.
Local Notation length := List.length.
Local Notation total := VacfSpec.total.
Local Open Scope list_scope.
Local Open Scope R_scope.

Lemma nth_rep : forall (x : R) n p, (p < n)%nat -> nth p (repeat x n) 0 = x.
Proof. intros x n. induction n as [|n IH]; intros [|p] H; cbn; try lia; [reflexivity|]. apply IH. lia. Qed.
(** Slices by [nth]. *)
Lemma slice_nth : forall s (l : list R) a b d, slice_indices s (Z.of_nat (length l)) = Some (a, b, d) ->
  exists r, slice_list s l = Some r /\ length r = range_len a b d /\
    forall i, (i < range_len a b d)%nat -> nth i r 0 = nth (Z.to_nat (a + Z.of_nat i * d)) l 0.
Proof.
  intros s l a b d E. destruct (slice_list_spec s l a b d E) as (r & Hr & SL).
  assert (Hd : d <> 0%Z) by (pose proof (slice_indices_range s (Z.of_nat (length l)) a b d ltac:(lia) E); tauto).
  exists r. split; [assumption|]. assert (V : forall i, (i < range_len a b d)%nat -> nth_error r i = nth_error l (Z.to_nat (a + Z.of_nat i * d)) /\ nth_error r i <> None).
  { intros i Hi. apply (range_len_before a b d Hd i) in Hi. destruct (SL i) as [S1 _]. destruct (S1 Hi) as [S2 S3]. split; [assumption|].
    rewrite S2. apply nth_error_Some. lia. }
  split.
  - apply Nat.le_antisymm.
    + destruct (Nat.le_gt_cases (length r) (range_len a b d)) as [|G]; [assumption|]. exfalso. destruct (SL (range_len a b d)) as [_ S1].
      assert (NB : ~ before d (a + Z.of_nat (range_len a b d) * d) b) by (intros B; apply range_len_before in B; [lia|exact Hd]).
      apply S1 in NB. apply nth_error_None in NB. lia.
    + destruct (range_len a b d) as [|n] eqn:R; [lia|]. destruct (V n ltac:(lia)) as [_ N]. apply nth_error_Some in N. lia.
  - intros i Hi. destruct (V i Hi) as [E1 N1]. rewrite <- !nth_default_eq. unfold nth_default. rewrite E1. reflexivity.
Qed.

Ltac clips := unfold slice_indices, clip; cbn [start stop step]; change (-1 =? 0)%Z with false; change (-1 <? 0)%Z with true; change (-2 <? 0)%Z with true;
  change (0 <? 0)%Z with false; change (1 =? 0)%Z with false; change (1 <? 0)%Z with false; cbv iota beta zeta.

Lemma pads_length : forall data M edge dl dr, (0 < length data)%nat -> smooth_pads data M edge = Some (dl, dr) -> length dl = M /\ length dr = M /\
  (forall p, (p < M)%nat -> nth p dl 0 = continued edge data (Z.of_nat p - Z.of_nat M)) /\
  (forall p, (p < M)%nat -> nth p dr 0 = continued edge data (Z.of_nat (length data) + Z.of_nat p)).
Proof.
  intros data M edge dl dr HN E. set (N := length data) in *. unfold smooth_pads in E. fold N in E. unfold continued.
  destruct (String.eqb_spec edge "m").
  - set (npad := Z.of_nat (Nat.min M N)) in E.
    destruct (slice_nth (Slice (Some npad) (Some 0%Z) (Some (-1)%Z)) data (Z.min (Z.of_nat N - 1) npad) (Z.min (Z.of_nat N - 1) 0) (-1)) as (l & El & Ll & Nl).
    { clips. fold N. destruct (Z.ltb_spec npad 0); [lia|]. reflexivity. }
    destruct (slice_nth (Slice (Some (-2)%Z) (Some (- (npad + 2))%Z) (Some (-1)%Z)) data (Z.max (-1) (-2 + Z.of_nat N)) (Z.max (-1) (- (npad + 2) + Z.of_nat N)) (-1)) as (r & Er & Lr & Nr).
    { clips. fold N. destruct (Z.ltb_spec (- (npad + 2)) 0); [|lia]. reflexivity. }
    rewrite El, Er in E.
    assert (KL : range_len (Z.min (Z.of_nat N - 1) npad) (Z.min (Z.of_nat N - 1) 0) (-1) = Nat.min M (N - 1)).
    { unfold range_len. change (-1 <? 0)%Z with true. cbv iota. destruct (Z.ltb_spec (Z.min (Z.of_nat N - 1) 0) (Z.min (Z.of_nat N - 1) npad)).
      - change (- -1)%Z with 1%Z. rewrite Z.div_1_r. lia.
      - lia. }
    assert (KR : range_len (Z.max (-1) (-2 + Z.of_nat N)) (Z.max (-1) (- (npad + 2) + Z.of_nat N)) (-1) = Nat.min M (N - 1)).
    { unfold range_len. change (-1 <? 0)%Z with true. cbv iota. destruct (Z.ltb_spec (Z.max (-1) (- (npad + 2) + Z.of_nat N)) (Z.max (-1) (-2 + Z.of_nat N))).
      - change (- -1)%Z with 1%Z. rewrite Z.div_1_r. lia.
      - lia. }
    rewrite KL in *. rewrite KR in *. rewrite Ll, Lr, Nat.eqb_refl in E. cbn [negb] in E. set (K := Nat.min M (N - 1)) in *.
    assert (G : dl = repeat 0 (M - K) ++ l /\ dr = r ++ repeat 0 (M - K)).
    { destruct (Nat.ltb_spec K M); injection E as <- <-; [auto|]. replace (M - K)%nat with 0%nat by lia. cbn. rewrite app_nil_r. auto. }
    destruct G as [-> ->]. rewrite !app_length, repeat_length. split; [lia|]. split; [lia|]. split; intros p Hp; unfold mirrored; fold N.
    + destruct (Z.ltb_spec (Z.of_nat p - Z.of_nat M) 0); [|lia]. destruct (Z.ltb_spec (- (Z.of_nat p - Z.of_nat M)) (Z.of_nat N)).
      * rewrite app_nth2 by (rewrite repeat_length; lia). rewrite repeat_length, Nl by lia. unfold item. f_equal. lia.
      * rewrite app_nth1 by (rewrite repeat_length; lia). apply nth_repeat.
    + destruct (Z.ltb_spec (Z.of_nat N + Z.of_nat p) 0); [lia|]. destruct (Z.ltb_spec (Z.of_nat N + Z.of_nat p) (Z.of_nat N)); [lia|].
      destruct (Z.leb_spec (Z.of_nat N + Z.of_nat p) (2 * Z.of_nat N - 2)).
      * rewrite app_nth1 by lia. rewrite Nr by lia. unfold item. f_equal. lia.
      * rewrite app_nth2 by lia. apply nth_repeat.
  - destruct (String.eqb_spec edge "c"); [|discriminate]. unfold item_list in E. fold N in E.
    change (0 <? 0)%Z with false in E. change (-1 <? 0)%Z with true in E. cbv iota in E.
    destruct (Z.leb_spec (- Z.of_nat N) 0); [|lia]. destruct (Z.ltb_spec 0 (Z.of_nat N)); [|lia].
    destruct (Z.leb_spec (- Z.of_nat N) (-1)); [|lia]. destruct (Z.ltb_spec (-1) (Z.of_nat N)); [|lia]. cbn [andb] in E.
    destruct (nth_error data (Z.to_nat 0)) as [first|] eqn:E0; [|discriminate]. destruct (nth_error data (Z.to_nat (-1 + Z.of_nat N))) as [last|] eqn:E1; [|discriminate].
    injection E as <- <-. rewrite !repeat_length. split; [reflexivity|]. split; [reflexivity|].
    apply (nth_error_nth _ _ 0) in E0, E1. split; intros p Hp; rewrite nth_rep by assumption; unfold held; fold N; unfold item.
    + destruct (Z.ltb_spec (Z.of_nat p - Z.of_nat M) 0); [|lia]. symmetry. exact E0.
    + destruct (Z.ltb_spec (Z.of_nat N + Z.of_nat p) 0); [lia|]. destruct (Z.ltb_spec (Z.of_nat N + Z.of_nat p) (Z.of_nat N)); [lia|].
      rewrite <- E1. f_equal. lia.
Qed.

Lemma pads_exist : forall data M edge, (0 < length data)%nat -> edge = "m"%string \/ edge = "c"%string -> exists dl dr, smooth_pads data M edge = Some (dl, dr).
Proof.
  intros data M edge HN H. set (N := length data) in *. unfold smooth_pads. fold N. destruct H as [-> | ->].
  - change ("m" =? "m")%string with true. cbv iota. set (npad := Z.of_nat (Nat.min M N)).
    destruct (slice_nth (Slice (Some npad) (Some 0%Z) (Some (-1)%Z)) data (Z.min (Z.of_nat N - 1) npad) (Z.min (Z.of_nat N - 1) 0) (-1)) as (l & El & Ll & Nl).
    { clips. fold N. destruct (Z.ltb_spec npad 0); [lia|]. reflexivity. }
    destruct (slice_nth (Slice (Some (-2)%Z) (Some (- (npad + 2))%Z) (Some (-1)%Z)) data (Z.max (-1) (-2 + Z.of_nat N)) (Z.max (-1) (- (npad + 2) + Z.of_nat N)) (-1)) as (r & Er & Lr & Nr).
    { clips. fold N. destruct (Z.ltb_spec (- (npad + 2)) 0); [|lia]. reflexivity. }
    rewrite El, Er.
    assert (Q : length l = length r).
    { rewrite Ll, Lr. unfold range_len. change (-1 <? 0)%Z with true. cbv iota. change (- -1)%Z with 1%Z. rewrite !Z.div_1_r.
      destruct (Z.ltb_spec (Z.min (Z.of_nat N - 1) 0) (Z.min (Z.of_nat N - 1) npad));
      destruct (Z.ltb_spec (Z.max (-1) (- (npad + 2) + Z.of_nat N)) (Z.max (-1) (-2 + Z.of_nat N))); lia. }
    rewrite Q, Nat.eqb_refl. cbn [negb]. destruct (length r <? M)%nat; eauto.
  - change ("c" =? "m")%string with false. change ("c" =? "c")%string with true. cbv iota. unfold item_list. fold N.
    change (0 <? 0)%Z with false. change (-1 <? 0)%Z with true. cbv iota.
    destruct (Z.leb_spec (- Z.of_nat N) 0); [|lia]. destruct (Z.ltb_spec 0 (Z.of_nat N)); [|lia].
    destruct (Z.leb_spec (- Z.of_nat N) (-1)); [|lia]. destruct (Z.ltb_spec (-1) (Z.of_nat N)); [|lia]. cbn [andb].
    destruct (nth_error data (Z.to_nat 0)) eqn:E0; [|exfalso; apply nth_error_None in E0; fold N in E0; lia].
    destruct (nth_error data (Z.to_nat (-1 + Z.of_nat N))) eqn:E1; [eauto|exfalso; apply nth_error_None in E1; fold N in E1; lia].
Qed.

Lemma continued_inside : forall edge data i, (i < length data)%nat -> continued edge data (Z.of_nat i) = nth i data 0.
Proof.
  intros edge data i H. unfold continued. destruct (edge =? "m")%string; unfold mirrored, held, item;
    (destruct (Z.ltb_spec (Z.of_nat i) 0); [lia|]); (destruct (Z.ltb_spec (Z.of_nat i) (Z.of_nat (length data))); [|lia]); rewrite Nat2Z.id; reflexivity.
Qed.
(** The padded signal, by position. *)
Lemma signal_nth : forall data M edge dl dr, (0 < length data)%nat -> smooth_pads data M edge = Some (dl, dr) ->
  length (dl ++ data ++ dr) = (length data + 2 * M)%nat /\
  forall p, (p < length data + 2 * M)%nat -> nth p (dl ++ data ++ dr) 0 = continued edge data (Z.of_nat p - Z.of_nat M).
Proof.
  intros data M edge dl dr HN E. destruct (pads_length _ _ _ _ _ HN E) as (L1 & L2 & N1 & N2). split; [rewrite !app_length; lia|].
  intros p Hp. destruct (Nat.lt_ge_cases p M) as [A|A].
  - rewrite app_nth1 by lia. apply N1. assumption.
  - rewrite app_nth2 by lia. rewrite L1. destruct (Nat.lt_ge_cases (p - M) (length data)) as [B|B].
    + rewrite app_nth1 by assumption. replace (Z.of_nat p - Z.of_nat M)%Z with (Z.of_nat (p - M)) by lia. symmetry. apply continued_inside. assumption.
    + rewrite app_nth2 by assumption. rewrite N2 by lia. f_equal. lia.
Qed.


Lemma total_rsum : forall kern, total (length kern) (fun j => nth j kern 0) = rsum kern.
Proof.
  intros kern. rewrite <- rsum_total. f_equal. apply (nth_ext _ _ 0 0); [rewrite map_length, seq_length; reflexivity|].
  rewrite map_length, seq_length. intros i Hi. rewrite (nth_map_seq _ (fun k => nth k kern 0)) by assumption. reflexivity.
Qed.
Lemma weight_rsum : forall kern norm k, weight kern norm k = if norm then nth k kern 0 / rsum kern else nth k kern 0.
Proof. intros. unfold weight. rewrite total_rsum. reflexivity. Qed.

Lemma smooth_spec : forall data kern edge norm, (0 < length data)%nat -> (0 < length kern)%nat -> edge = "m"%string \/ edge = "c"%string ->
  (norm = true -> rsum kern <> 0) ->
  smooth data kern edge norm = Some (map (window_sum edge data (weight kern norm) (length kern)) (seq 0 (length data))).
Proof.
  intros data kern edge norm HN HM He Hs. set (N := length data) in *. set (M := length kern) in *. unfold smooth. fold N M.
  destruct (pads_exist data M edge HN He) as (dl & dr & Ep). rewrite Ep. destruct (signal_nth _ _ _ _ _ HN Ep) as [LS NS]. fold N in LS, NS.
  set (sig := dl ++ data ++ dr) in *.
  assert (K : exists kk, (if norm then if Req_EM_T (rsum kern) 0 then None else Some (map (fun x => x / rsum kern) kern) else Some kern) = Some kk /\
     length kk = M /\ forall k, (k < M)%nat -> nth k kk 0 = weight kern norm k).
  { destruct norm; [|exists kern; repeat split; auto; intros; rewrite weight_rsum; reflexivity]. specialize (Hs eq_refl). destruct (Req_EM_T (rsum kern) 0); [contradiction|]. eexists. split; [reflexivity|].
    rewrite map_length. split; [reflexivity|]. intros k Hk. rewrite (nth_indep _ 0 ((fun x => x / rsum kern) 0)) by (rewrite map_length; assumption).
    rewrite (map_nth (fun x => x / rsum kern)). rewrite weight_rsum. reflexivity. }
  destruct K as (kk & -> & LK & NK).
  assert (LR : length (convolve_valid sig kk) = (N + M + 1)%nat) by (unfold convolve_valid; rewrite map_length, seq_length, LS, LK; lia).
  rewrite LR, Nat.eqb_refl. cbn [negb].
  assert (NR : forall j, (j < N + M + 1)%nat -> nth j (convolve_valid sig kk) 0 = total M (fun k => weight kern norm k * continued edge data (Z.of_nat j - 1 - Z.of_nat k))).
  { intros j Hj. unfold convolve_valid. rewrite LK, LS.
    rewrite (nth_map_seq _ (fun j => rsum (map (fun k => nth (j + M - 1 - k) sig 0 * nth k kk 0) (seq 0 M)))) by lia.
    rewrite rsum_total. apply total_ext. intros k Hk. rewrite NS, NK by lia. rewrite Rmult_comm. do 2 f_equal. lia. }
  set (h := (M / 2)%nat). set (a := if Nat.even M then h else S h).
  assert (EO : (Nat.even M = true /\ M = 2 * h)%nat \/ (Nat.even M = false /\ M = 2 * h + 1)%nat).
  { pose proof (Nat.div_mod_eq M 2) as D. fold h in D. pose proof (Nat.mod_upper_bound M 2 ltac:(lia)). rewrite <- Nat.negb_odd. destruct (Nat.odd M) eqn:O.
    - right. split; [reflexivity|]. apply Nat.odd_spec in O. destruct O as [q Hq]. lia.
    - left. split; [reflexivity|]. rewrite <- Nat.negb_even in O. destruct (Nat.even M) eqn:V; [|discriminate]. apply Nat.even_spec in V. destruct V as [q Hq]. lia. }
  destruct (slice_nth (if Nat.even M then Slice (Some (Z.of_nat h)) (Some (- Z.of_nat h - 1)%Z) None else Slice (Some (Z.of_nat h + 1)%Z) (Some (- Z.of_nat h - 1)%Z) None)
    (convolve_valid sig kk) (Z.of_nat a) (Z.of_nat (N + M + 1) - Z.of_nat h - 1) 1) as (out & Eo & Lo & No).
  { rewrite LR. unfold a. destruct (Nat.even M); clips.
    - destruct (Z.ltb_spec (Z.of_nat h) 0); [lia|]. destruct (Z.ltb_spec (- Z.of_nat h - 1) 0); [|lia]. f_equal. f_equal. f_equal; lia.
    - destruct (Z.ltb_spec (Z.of_nat h + 1) 0); [lia|]. destruct (Z.ltb_spec (- Z.of_nat h - 1) 0); [|lia]. f_equal. f_equal. f_equal; lia. }
  rewrite Eo. assert (RL : range_len (Z.of_nat a) (Z.of_nat (N + M + 1) - Z.of_nat h - 1) 1 = N).
  { unfold range_len. change (1 <? 0)%Z with false. cbv iota. rewrite Z.div_1_r. unfold a.
    destruct EO as [[-> EM]|[-> EM]]; match goal with |- context[Z.ltb ?x ?y] => destruct (Z.ltb_spec x y) end; lia. }
  rewrite RL in *. rewrite Lo, Nat.eqb_refl. f_equal. apply (nth_ext _ _ 0 0); [rewrite map_length, seq_length; assumption|].
  intros i Hi. rewrite Lo in Hi. rewrite No by assumption. rewrite (nth_map_seq _ (window_sum edge data (weight kern norm) M)) by assumption.
  assert (A : (a + i < N + M + 1)%nat) by (unfold a; destruct EO as [[-> EM]|[-> EM]]; lia).
  replace (Z.to_nat (Z.of_nat a + Z.of_nat i * 1)) with (a + i)%nat by lia. rewrite NR by assumption. unfold window_sum. apply total_ext. intros k Hk. do 2 f_equal.
  assert (C : ((M - 1) / 2 + 1 = a)%nat).
  { unfold a. destruct EO as [[-> EM]|[-> EM]]; rewrite EM.
    - replace (2 * h - 1)%nat with (1 + (h - 1) * 2)%nat by lia. rewrite Nat.div_add by lia. change (1 / 2)%nat with 0%nat. lia.
    - replace (2 * h + 1 - 1)%nat with (h * 2)%nat by lia. rewrite Nat.div_mul by lia. lia. }
  lia.
Qed.

Lemma smooth_some : forall data kern edge norm out, (0 < length data)%nat -> (0 < length kern)%nat -> smooth data kern edge norm = Some out ->
  (edge = "m"%string \/ edge = "c"%string) /\ (norm = true -> rsum kern <> 0).
Proof.
  intros data kern edge norm out HN HM E. unfold smooth in E. destruct (smooth_pads data (length kern) edge) as [[dl dr]|] eqn:Ep; [|discriminate]. split.
  - unfold smooth_pads in Ep. destruct (String.eqb_spec edge "m"); [auto|]. destruct (String.eqb_spec edge "c"); [auto|discriminate].
  - intros ->. destruct (Req_EM_T (rsum kern) 0); [discriminate|assumption].
Qed.

(** ** Consequences *)
Lemma continued_in : forall edge data z, (0 < length data)%nat ->
  edge = "c"%string \/ (- Z.of_nat (length data) < z <= 2 * Z.of_nat (length data) - 2)%Z ->
  edge = "m"%string \/ edge = "c"%string -> In (continued edge data z) data.
Proof.
  intros edge data z HN C He. assert (I : forall q, (0 <= q < Z.of_nat (length data))%Z -> In (item data q) data)
    by (intros q Hq; apply nth_In; lia).
  unfold continued. destruct He as [-> | ->].
  - destruct C as [C|C]; [discriminate|]. change ("m" =? "m")%string with true. cbv iota. unfold mirrored.
    destruct (Z.ltb_spec z 0); [destruct (Z.ltb_spec (- z) (Z.of_nat (length data))); [apply I|]; lia|].
    destruct (Z.ltb_spec z (Z.of_nat (length data))); [apply I; lia|]. destruct (Z.leb_spec z (2 * Z.of_nat (length data) - 2)); [apply I; lia|lia].
  - change ("c" =? "m")%string with false. cbv iota. unfold held.
    destruct (Z.ltb_spec z 0); [apply I; lia|]. destruct (Z.ltb_spec z (Z.of_nat (length data))); apply I; lia.
Qed.
Lemma weights_one : forall kern, rsum kern <> 0 -> total (length kern) (weight kern true) = 1.
Proof.
  intros kern NZ. rewrite (total_ext _ _ (fun k => / rsum kern * nth k kern 0)) by (intros; rewrite weight_rsum; unfold Rdiv; ring).
  rewrite total_scal, total_rsum. field. assumption.
Qed.

(** Positions the window reaches. *)
Lemma reach : forall N M i k, (i < N)%nat -> (k < M)%nat -> (M <= 2 * N - 1)%nat ->
  (- Z.of_nat N < Z.of_nat i + Z.of_nat ((M - 1) / 2) - Z.of_nat k <= 2 * Z.of_nat N - 2)%Z.
Proof.
  intros N M i k Hi Hk HM. pose proof (Nat.div_mod_eq (M - 1) 2). pose proof (Nat.mod_upper_bound (M - 1) 2 ltac:(lia)). lia.
Qed.

Lemma smooth_within : forall data kern edge out lo hi, (0 < length data)%nat -> (0 < length kern)%nat ->
  smooth data kern edge true = Some out -> (forall x, In x kern -> 0 <= x) ->
  edge = "c"%string \/ (length kern <= 2 * length data - 1)%nat ->
  (forall x, In x data -> lo <= x <= hi) -> forall y, In y out -> lo <= y <= hi.
Proof.
  intros data kern edge out lo hi HN HM E P C B y Hy. destruct (smooth_some _ _ _ _ _ HN HM E) as [He Hs]. specialize (Hs eq_refl).
  rewrite smooth_spec in E by auto. injection E as <-. apply in_map_iff in Hy. destruct Hy as (i & <- & Hi). apply in_seq in Hi.
  pose proof (weights_one kern Hs) as W1.
  assert (PS : 0 < rsum kern).
  { assert (0 <= rsum kern); [|lra]. clear - P. induction kern as [|x l IH]; [cbn; lra|]. change (0 <= x + rsum l). pose proof (P x (or_introl eq_refl)).
    assert (0 <= rsum l) by (apply IH; intros; apply P; right; assumption). lra. }
  assert (WP : forall k, (k < length kern)%nat -> 0 <= weight kern true k).
  { intros k Hk. rewrite weight_rsum. apply Rmult_le_pos; [apply P; apply nth_In; assumption|apply Rlt_le, Rinv_0_lt_compat; assumption]. }
  assert (V : forall k, (k < length kern)%nat -> lo <= continued edge data (Z.of_nat i + Z.of_nat ((length kern - 1) / 2) - Z.of_nat k) <= hi).
  { intros k Hk. apply B. apply continued_in; [assumption| |assumption]. destruct C as [C|C]; [auto|right]. apply reach; lia. }
  unfold window_sum. split.
  - rewrite <- (Rmult_1_r lo), <- W1, <- total_scal. apply total_le. intros k Hk. specialize (WP k Hk). specialize (V k Hk). nra.
  - rewrite <- (Rmult_1_r hi), <- W1, <- total_scal. apply total_le. intros k Hk. specialize (WP k Hk). specialize (V k Hk). nra.
Qed.

Lemma smooth_constant : forall data kern edge out c, (0 < length data)%nat -> (0 < length kern)%nat ->
  smooth data kern edge true = Some out -> edge = "c"%string \/ (length kern <= 2 * length data - 1)%nat ->
  (forall x, In x data -> x = c) -> out = data.
Proof.
  intros data kern edge out c HN HM E C B. destruct (smooth_some _ _ _ _ _ HN HM E) as [He Hs]. specialize (Hs eq_refl).
  rewrite smooth_spec in E by auto. injection E as <-. apply (nth_ext _ _ 0 0); [rewrite map_length, seq_length; reflexivity|].
  rewrite map_length, seq_length. intros i Hi. rewrite (nth_map_seq _ (window_sum edge data (weight kern true) (length kern))) by assumption.
  rewrite (B (nth i data 0)) by (apply nth_In; assumption). unfold window_sum.
  rewrite (total_ext _ _ (fun k => c * weight kern true k)).
  - rewrite total_scal, weights_one by assumption. ring.
  - intros k Hk. rewrite (B (continued _ _ _)); [ring|]. apply continued_in; [assumption| |assumption]. destruct C as [C|C]; [auto|right]. apply reach; lia.
Qed.

Lemma total_single : forall n f k, (k < n)%nat -> (forall j, (j < n)%nat -> j <> k -> f j = 0) -> total n f = f k.
Proof.
  induction n as [|n IH]; intros f k Hk H; [lia|]. cbn. destruct (Nat.eq_dec k n) as [->|NE].
  - rewrite (total_ext _ _ (fun _ => 0 * 0)) by (intros; rewrite H by lia; ring). rewrite total_scal. ring.
  - rewrite (IH f k) by (try lia; intros; apply H; lia). rewrite (H n) by lia. ring.
Qed.
(** A kernel that is 1 in the middle and 0 elsewhere reproduces the data. *)
Lemma smooth_delta : forall data kern edge norm out, (0 < length data)%nat ->
  (forall k, (k < length kern)%nat -> nth k kern 0 = if (k =? (length kern - 1) / 2)%nat then 1 else 0) -> (0 < length kern)%nat ->
  smooth data kern edge norm = Some out -> out = data.
Proof.
  intros data kern edge norm out HN D HM E. destruct (smooth_some _ _ _ _ _ HN HM E) as [He Hs].
  rewrite smooth_spec in E by auto. injection E as <-. apply (nth_ext _ _ 0 0); [rewrite map_length, seq_length; reflexivity|].
  rewrite map_length, seq_length. intros i Hi. rewrite (nth_map_seq _ (window_sum edge data (weight kern norm) (length kern))) by assumption.
  set (c := ((length kern - 1) / 2)%nat) in *. assert (Hc : (c < length kern)%nat).
  { unfold c. pose proof (Nat.div_mod_eq (length kern - 1) 2). lia. }
  assert (S1 : rsum kern = 1).
  { replace (rsum kern) with (total (length kern) (fun k => nth k kern 0)).
    - rewrite (total_single _ _ c Hc); [rewrite D, Nat.eqb_refl by assumption; reflexivity|]. intros j Hj NE. rewrite D by assumption.
      destruct (Nat.eqb_spec j c); [contradiction|reflexivity].
    - rewrite <- rsum_total. f_equal. apply (nth_ext _ _ 0 0); [rewrite map_length, seq_length; reflexivity|].
      rewrite map_length, seq_length. intros q Hq. rewrite (nth_map_seq _ (fun k => nth k kern 0)) by assumption. reflexivity. }
  assert (W : forall k, (k < length kern)%nat -> weight kern norm k = if (k =? c)%nat then 1 else 0).
  { intros k Hk. rewrite weight_rsum, S1, D by assumption. destruct norm; [|reflexivity]. destruct (k =? c)%nat; lra. }
  unfold window_sum. rewrite (total_single _ _ c Hc).
  - rewrite W, Nat.eqb_refl by assumption. fold c. rewrite Rmult_1_l. replace (Z.of_nat i + Z.of_nat c - Z.of_nat c)%Z with (Z.of_nat i) by lia.
    apply continued_inside. assumption.
  - intros j Hj NE. rewrite W by assumption. destruct (Nat.eqb_spec j c); [contradiction|]. ring.
Qed.
