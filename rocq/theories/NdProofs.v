From Coq Require Import List ZArith Lia Bool Arith.
From Verif Require Import Traj Nd NdSpec.
From Verif Require TrajSpec TrajProofs.
Import ListNotations.

(** ** Lists *)
Lemma replace_length {B} (x : B) : forall l k, List.length (replace k x l) = List.length l.
Proof. induction l as [|y l IH]; intros [|k]; cbn; auto. Qed.
Lemma norm_axis_some n z k : norm_axis z n = Some k <-> axis_is n z k.
Proof.
  unfold norm_axis, axis_is. destruct (Z.leb_spec (- Z.of_nat n) z), (Z.ltb_spec z (Z.of_nat n)); cbn; (split; [intros E|intros [L E]]);
    try discriminate; try lia; try (injection E as <-; destruct (Z.ltb_spec z 0); lia); f_equal; destruct (Z.ltb_spec z 0); lia.
Qed.
Lemma norm_axis_none n z : norm_axis z n = None <-> bad_axis n z.
Proof.
  unfold norm_axis, bad_axis. destruct (Z.leb_spec (- Z.of_nat n) z), (Z.ltb_spec z (Z.of_nat n)); cbn; split; intros; try discriminate; auto; lia.
Qed.
Lemma axis_exists n z : ~ bad_axis n z -> exists k, axis_is n z k.
Proof. intros H. destruct (norm_axis z n) as [k|] eqn:E; [exists k; apply norm_axis_some, E|]. apply norm_axis_none in E. contradiction. Qed.

(** ** One axis *)
Lemma seq_nth_error n i : nth_error (seq 0 n) i = if i <? n then Some i else None.
Proof.
  destruct (Nat.ltb_spec i n) as [L|G].
  - rewrite (nth_error_nth' _ 0) by (rewrite seq_length; exact L). rewrite seq_nth by exact L. reflexivity.
  - apply nth_error_None. rewrite seq_length. exact G.
Qed.
Lemma selected_spec s n : match slice_indices s (Z.of_nat n) with
  | None => selected s n = None
  | Some (a, b, d) => exists l, selected s n = Some l /\ List.length l = range_len a b d /\ d <> 0%Z /\
      forall i, (i < List.length l)%nat -> nth i l 0 = Z.to_nat (a + Z.of_nat i * d) /\ (0 <= a + Z.of_nat i * d < Z.of_nat n)%Z
  end.
Proof.
  destruct (slice_indices s (Z.of_nat n)) as [[[a b] d]|] eqn:E.
  2:{ unfold selected, slice_list. rewrite seq_length, E. reflexivity. }
  assert (E' : slice_indices s (Z.of_nat (List.length (seq 0 n))) = Some (a, b, d)) by (rewrite seq_length; exact E).
  destruct (TrajProofs.slice_list_spec s (seq 0 n) a b d E') as (r & Hr & SL).
  assert (Hd : d <> 0%Z) by (pose proof (TrajProofs.slice_indices_range s (Z.of_nat n) a b d ltac:(lia) E); tauto).
  assert (L : List.length r = range_len a b d).
  { destruct (lt_eq_lt_dec (List.length r) (range_len a b d)) as [[C|C]|C]; [|exact C|].
    - destruct (SL (List.length r)) as [S1 _]. apply TrajProofs.range_len_before in C; [|exact Hd]. destruct (S1 C) as [S2 S3].
      rewrite (proj2 (nth_error_None r (List.length r))) in S2 by lia. rewrite seq_nth_error in S2. rewrite seq_length in S3.
      destruct (Nat.ltb_spec (Z.to_nat (a + Z.of_nat (List.length r) * d)) n); [discriminate|lia].
    - destruct (SL (range_len a b d)) as [_ S1].
      assert (NB : ~ TrajSpec.before d (a + Z.of_nat (range_len a b d) * d) b) by (intros B; apply TrajProofs.range_len_before in B; [lia|exact Hd]).
      apply S1 in NB. apply nth_error_None in NB. lia. }
  exists r. repeat split; auto.
  1: assert (B : TrajSpec.before d (a + Z.of_nat i * d) b) by (apply TrajProofs.range_len_before; [exact Hd|lia]).
  1: destruct (SL i) as [S1 _]; destruct (S1 B) as [S2 S3]; rewrite seq_length in S3; rewrite seq_nth_error in S2.
  1: destruct (Nat.ltb_spec (Z.to_nat (a + Z.of_nat i * d)) n); [|lia].
  1: apply nth_error_nth with (d := 0) in S2; exact S2.
  all: assert (B : TrajSpec.before d (a + Z.of_nat i * d) b) by (apply TrajProofs.range_len_before; [exact Hd|lia]);
    destruct (SL i) as [S1 _]; destruct (S1 B) as [S2 S3]; rewrite seq_length in S3; lia.
Qed.
Lemma selected_in s n l : selected s n = Some l -> NoDup l /\ forall i, In i l -> (i < n)%nat.
Proof.
  intros E. pose proof (selected_spec s n) as H. destruct (slice_indices s (Z.of_nat n)) as [[[a b] d]|]; [|congruence].
  destruct H as (l' & E' & L & Hd & H). rewrite E in E'. injection E' as <-. split.
  - apply (NoDup_nth l 0). intros i j Hi Hj EQ. destruct (H i Hi) as [A1 A2], (H j Hj) as [B1 B2]. rewrite A1, B1 in EQ. nia.
  - intros i Hi. apply (In_nth _ _ 0) in Hi as (k & Hk & <-). destruct (H k Hk). lia.
Qed.
Lemma selected_full n : selected (Slice None None None) n = Some (seq 0 n).
Proof.
  pose proof (selected_spec (Slice None None None) n) as H.
  change (slice_indices (Slice None None None) (Z.of_nat n)) with (Some (0, Z.of_nat n, 1)%Z) in H. cbv iota in H.
  destruct H as (l & E & L & _ & H).
  rewrite E. f_equal. unfold range_len in L. cbn [Z.ltb Z.compare] in L.
  assert (Ln : List.length l = n). { destruct (Z.ltb_spec 0 (Z.of_nat n)); rewrite ?Z.div_1_r in L; lia. }
  apply TrajProofs.nth_error_ext. intros i. rewrite seq_nth_error. destruct (Nat.ltb_spec i n).
  - rewrite (nth_error_nth' _ 0) by lia. destruct (H i ltac:(lia)) as [-> _]. f_equal. lia.
  - apply nth_error_None. lia.
Qed.

(** ** Index tuples of slices *)
Lemma view_slices : forall ss sh ls, per_axis ss sh ls ->
  exists f, view (map ISlice ss) sh = Some (map (@List.length nat) ls, f) /\
    forall p, index_of (map (@List.length nat) ls) p -> f p = source ls p.
Proof.
  induction 1 as [|s n l ss sh ls E H (f & V & F)].
  - exists (fun i => i). split; [reflexivity|]. intros p Hp. inversion Hp. reflexivity.
  - cbn [map view]. pose proof (selected_spec s n) as S. destruct (slice_indices s (Z.of_nat n)) as [[[a b] d]|]; [|congruence].
    destruct S as (l' & E' & L & Hd & S). rewrite E in E'. injection E' as <-. rewrite V. eexists. split; [rewrite L; reflexivity|].
    intros p Hp. inversion Hp as [|k n' p' sh' H1 H2]; subst. cbn [hd tl source]. f_equal; [|apply F; assumption].
    symmetry. apply S. assumption.
Qed.
Lemma view_slices_none : forall ss sh, List.length ss = List.length sh ->
  (forall ls, ~ per_axis ss sh ls) -> view (map ISlice ss) sh = None.
Proof.
  induction ss as [|s ss IH]; intros [|n sh] L N; try discriminate.
  - exfalso. apply (N []). constructor.
  - cbn [map view]. pose proof (selected_spec s n) as S. destruct (slice_indices s (Z.of_nat n)) as [[[a b] d]|]; [|reflexivity].
    destruct S as (l & E & _). rewrite IH; auto. intros ls H. apply (N (l :: ls)). constructor; assumption.
Qed.
Lemma source_in ls : forall p, index_of (map (@List.length nat) ls) p -> Forall2 (fun i l => In i l) (source ls p) ls.
Proof.
  induction ls as [|l ls IH]; intros p Hp; inversion Hp; subst; cbn; constructor; auto. apply nth_In. assumption.
Qed.
Lemma source_inj ls : Forall (@NoDup nat) ls -> forall p q, index_of (map (@List.length nat) ls) p -> index_of (map (@List.length nat) ls) q ->
  source ls p = source ls q -> p = q.
Proof.
  induction 1 as [|l ls N _ IH]; intros p q Hp Hq E; inversion Hp; inversion Hq; subst; [reflexivity|].
  cbn in E. injection E as E1 E2. f_equal; [|auto]. apply (proj1 (NoDup_nth l 0) N); assumption.
Qed.
Lemma per_nodup ss sh ls : per_axis ss sh ls -> Forall (@NoDup nat) ls.
Proof. induction 1; constructor; auto. eapply selected_in. eassumption. Qed.
Lemma indices_in : forall sh i, In i (indices sh) <-> index_of sh i.
Proof.
  induction sh as [|n sh IH]; intros i; cbn.
  - split; [intros [<-|[]]; constructor|intros H; inversion H; auto].
  - rewrite in_flat_map. setoid_rewrite in_map_iff. split.
    + intros (x & Hx & p & <- & Hp). apply in_seq in Hx. apply IH in Hp. constructor; [lia|exact Hp].
    + intros H. inversion H as [|x ? p ? H1 H2]; subst. exists x. split; [apply in_seq; lia|]. exists p. split; [reflexivity|]. apply IH, H2.
Qed.
Lemma idx_eqb_true i j : idx_eqb i j = true <-> i = j.
Proof. unfold idx_eqb. destruct (list_eq_dec Nat.eq_dec i j); split; intros; try discriminate; auto; contradiction. Qed.

(** ** slicetake *)
Lemma repeat_per sh : per_axis (repeat (Slice None None None) (List.length sh)) sh (map (seq 0) sh).
Proof. induction sh as [|n sh IH]; cbn; constructor; auto. apply selected_full. Qed.
Lemma per_replace s l : forall k ss sh ls n, per_axis ss sh ls -> nth_error sh k = Some n -> selected s n = Some l ->
  per_axis (replace k s ss) sh (replace k l ls).
Proof.
  intros k ss sh ls n H. revert k. induction H as [|s' n' l' ss sh ls E H IH]; intros [|k] N S; try discriminate; cbn in *.
  - injection N as ->. constructor; assumption.
  - constructor; auto.
Qed.
Lemma map_replace {B C} (f : B -> C) x : forall l k, map f (replace k x l) = replace k (f x) (map f l).
Proof. induction l as [|y l IH]; intros [|k]; cbn; auto. rewrite IH. reflexivity. Qed.
Lemma map_length_seq sh : map (@List.length nat) (map (seq 0) sh) = sh.
Proof. rewrite map_map. rewrite <- (map_id sh) at 2. apply map_ext. intros n. apply seq_length. Qed.
Lemma source_full : forall sh p, index_of sh p -> source (map (seq 0) sh) p = p.
Proof. induction 1; cbn; [reflexivity|]. rewrite seq_nth by assumption. f_equal. assumption. Qed.
Lemma source_replace l : forall k sh p, index_of (replace k (List.length l) sh) p -> (k < List.length sh)%nat ->
  source (replace k l (map (seq 0) sh)) p = replace k (nth (nth k p 0) l 0) p.
Proof.
  induction k as [|k IH]; intros [|n sh] p H L; cbn in L; try lia; cbn in H; inversion H; subst; cbn.
  - f_equal. apply source_full. assumption.
  - rewrite seq_nth by assumption. f_equal. apply IH; [assumption|lia].
Qed.
Lemma map_full n : repeat full n = map ISlice (repeat (Slice None None None) n).
Proof. induction n as [|n IH]; [reflexivity|]. cbn [repeat map]. rewrite IH. reflexivity. Qed.
Section Take.
Context {A : Type}.
Lemma slicetake_slice (a : arr A) s z k : axis_is (List.length (shape a)) z k ->
  match selected s (nth k (shape a) 0) with
  | None => slicetake a (ISlice s) z = None
  | Some l => exists r, slicetake a (ISlice s) z = Some r /\ shape r = replace k (List.length l) (shape a) /\
      forall i, index_of (shape r) i -> at_ r i = at_ a (replace k (nth (nth k i 0) l 0) i)
  end.
Proof.
  intros AX. pose proof AX as [Lk _]. apply norm_axis_some in AX.
  assert (N : nth_error (shape a) k = Some (nth k (shape a) 0)) by (apply nth_error_nth'; exact Lk).
  unfold slicetake, set_item. rewrite repeat_length, AX, map_full, <- map_replace. unfold getitem.
  destruct (selected s (nth k (shape a) 0)) as [l|] eqn:E.
  - pose proof (per_replace s l k _ _ _ _ (repeat_per (shape a)) N E) as P. destruct (view_slices _ _ _ P) as (f & V & F).
    rewrite V. eexists. split; [reflexivity|]. cbn [shape at_]. rewrite map_replace, map_length_seq in *. split; [reflexivity|].
    intros i Hi. rewrite F by exact Hi. rewrite source_replace by (try exact Lk; exact Hi). reflexivity.
  - rewrite view_slices_none; [reflexivity|rewrite replace_length, repeat_length; reflexivity|].
    intros ls P. clear - P N E. revert N E. generalize (nth k (shape a) 0). revert P. generalize (shape a) ls k.
    clear. induction l as [|n sh IH]; intros ls [|k] P m N E; cbn [replace repeat nth_error List.length] in *; try discriminate.
    + injection N as ->. inversion P. congruence.
    + inversion P. eapply IH; eassumption.
Qed.
Lemma slicetake_bad (a : arr A) sl z : bad_axis (List.length (shape a)) z -> slicetake a sl z = None.
Proof. intros B. unfold slicetake, set_item. rewrite repeat_length. apply norm_axis_none in B. rewrite B. reflexivity. Qed.
Lemma view_int z j : forall k sh, (k < List.length sh)%nat -> axis_is (nth k sh 0) z j ->
  exists f, view (replace k (IInt z) (repeat full (List.length sh))) sh = Some (remove k sh, f) /\
    forall i, index_of (remove k sh) i -> f i = insert k j i.
Proof.
  assert (FU : forall sh, exists f, view (repeat full (List.length sh)) sh = Some (sh, f) /\ forall i, index_of sh i -> f i = i).
  { intros sh. destruct (view_slices _ _ _ (repeat_per sh)) as (f & V & F). exists f. rewrite map_full, V, map_length_seq. split; [reflexivity|].
    intros i Hi. rewrite F by (rewrite map_length_seq; exact Hi). apply source_full, Hi. }
  induction k as [|k IH]; intros [|n sh] L H; cbn in L; try lia.
  - cbn [nth] in H. apply norm_axis_some in H. unfold norm_axis in H. cbn [List.length repeat replace view].
    destruct ((- Z.of_nat n <=? z) && (z <? Z.of_nat n))%Z; [|discriminate]. injection H as H. destruct (FU sh) as (f & V & F).
    rewrite V, H. eexists. split; [reflexivity|]. intros i Hi. cbn in *. rewrite F by exact Hi. reflexivity.
  - cbn [nth] in H. destruct (IH sh ltac:(lia) H) as (f & V & F). cbn [List.length repeat replace view]. cbn [full view].
    pose proof (selected_spec (Slice None None None) n) as S. destruct (slice_indices (Slice None None None) (Z.of_nat n)) as [[[a b] d]|]; [|rewrite selected_full in S; discriminate].
    destruct S as (l & E & Ll & _ & S). rewrite selected_full in E. injection E as <-. rewrite seq_length in Ll. rewrite V.
    eexists. cbn [remove]. split; [rewrite <- Ll; reflexivity|]. intros i Hi. inversion Hi as [|x ? i' ? H1 H2]; subst. cbn [hd tl insert].
    f_equal; [|apply F, H2]. rewrite seq_length in S. destruct (S x H1) as [S1 _]. rewrite <- S1. apply seq_nth, H1.
Qed.
Lemma slicetake_int (a : arr A) z k y j : axis_is (List.length (shape a)) z k -> axis_is (nth k (shape a) 0) y j ->
  exists r, slicetake a (IInt y) z = Some r /\ shape r = remove k (shape a) /\
    forall i, index_of (shape r) i -> at_ r i = at_ a (insert k j i).
Proof.
  intros AX AY. pose proof AX as [Lk _]. apply norm_axis_some in AX. unfold slicetake, set_item. rewrite repeat_length, AX.
  destruct (view_int y j k (shape a) Lk AY) as (f & V & F). unfold getitem. rewrite V. eexists. split; [reflexivity|]. cbn [shape at_].
  split; [reflexivity|]. intros i Hi. rewrite F by exact Hi. reflexivity.
Qed.
Lemma slicetake_all_spec (a : arr A) ss ls : per_axis ss (shape a) ls ->
  exists r, slicetake_all a (map ISlice ss) = Some r /\ shape r = map (@List.length nat) ls /\
    forall i, index_of (shape r) i -> at_ r i = at_ a (source ls i).
Proof.
  intros P. destruct (view_slices _ _ _ P) as (f & V & F). unfold slicetake_all, getitem. rewrite V. eexists. split; [reflexivity|].
  cbn [shape at_]. split; [reflexivity|]. intros i Hi. rewrite F by exact Hi. reflexivity.
Qed.
(** ** sliceput *)
Lemma put_loop (f : list nat -> list nat) (b : list nat -> A) : forall ps (a : arr A),
  let r := fold_left (fun a p => Array (shape a) (fun i => if idx_eqb (f p) i then b p else at_ a i)) ps a in
  shape r = shape a /\ (forall i, (forall p, In p ps -> f p <> i) -> at_ r i = at_ a i) /\
  (forall p, In p ps -> (forall q, In q ps -> f q = f p -> q = p) -> at_ r (f p) = b p).
Proof.
  induction ps as [|p ps IH]; intros a; [cbn; repeat split; auto; intros ? []|]. cbn [fold_left].
  destruct (IH (Array (shape a) (fun i => if idx_eqb (f p) i then b p else at_ a i))) as (S & O & P).
  repeat split; [exact S|..].
  - intros i H. rewrite O by (intros q Hq; apply H; right; exact Hq). cbn. destruct (idx_eqb (f p) i) eqn:E; [|reflexivity].
    apply idx_eqb_true in E. exfalso. apply (H p); [left; reflexivity|exact E].
  - intros q Hq U. destruct (in_dec (list_eq_dec Nat.eq_dec) q ps) as [I|NI].
    + apply P; [exact I|]. intros q' Hq'. apply U. right. exact Hq'.
    + destruct Hq as [<-|Hq]; [|contradiction]. rewrite O.
      * cbn. rewrite (proj2 (idx_eqb_true _ _) eq_refl). reflexivity.
      * intros q' Hq' E. rewrite <- (U q' (or_intror Hq') E) in NI. contradiction.
Qed.
Lemma setitem_spec (a : arr A) ss ls b : per_axis ss (shape a) ls ->
  exists r, setitem a (map ISlice ss) b = Some r /\ shape r = shape a /\
    (forall p, index_of (map (@List.length nat) ls) p -> at_ r (source ls p) = b p) /\
    (forall i, ~ Forall2 (fun x l => In x l) i ls -> at_ r i = at_ a i).
Proof.
  intros P. destruct (view_slices _ _ _ P) as (f & V & F). unfold setitem. rewrite V. eexists. split; [reflexivity|].
  destruct (put_loop f b (indices (map (@List.length nat) ls)) a) as (S & O & Q). split; [exact S|]. split.
  - intros p Hp. rewrite <- F by exact Hp. apply Q; [apply indices_in, Hp|]. intros q Hq E. apply indices_in in Hq.
    rewrite !F in E by assumption. apply (source_inj ls (per_nodup _ _ _ P)) in E; auto.
  - intros i N. apply O. intros p Hp <-. apply N. apply indices_in in Hp. rewrite F by exact Hp. apply source_in, Hp.
Qed.
(** ** extend_array *)
Lemma view_new : forall k sh, (k <= List.length sh)%nat ->
  exists f, view (replace k INew (repeat full (S (List.length sh)))) sh = Some (insert k 1 sh, f) /\
    forall i, index_of (insert k 1 sh) i -> f i = remove k i.
Proof.
  induction k as [|k IH]; intros sh L.
  - cbn [repeat replace view]. destruct (view_slices _ _ _ (repeat_per sh)) as (f & V & F). rewrite map_full, V, map_length_seq.
    eexists. split; [reflexivity|]. intros i Hi. cbn in Hi. inversion Hi; subst. cbn. rewrite F by (rewrite map_length_seq; assumption). apply source_full. assumption.
  - destruct sh as [|n sh]; cbn in L; [lia|]. destruct (IH sh ltac:(lia)) as (f & V & F).
    change (repeat full (S (List.length (n :: sh)))) with (full :: repeat full (S (List.length sh))). cbn [replace].
    cbn [view full]. rewrite V.
    pose proof (selected_spec (Slice None None None) n) as S. destruct (slice_indices (Slice None None None) (Z.of_nat n)) as [[[a b] d]|]; [|rewrite selected_full in S; discriminate].
    destruct S as (l & E & Ll & _ & S). rewrite selected_full in E. injection E as <-. rewrite seq_length in Ll.
    eexists. cbn [insert]. split; [rewrite <- Ll; reflexivity|]. intros i Hi. inversion Hi as [|x ? i' ? H1 H2]; subst. cbn [hd tl remove].
    f_equal; [|apply F, H2]. rewrite seq_length in S. destruct (S x H1) as [S1 _]. rewrite <- S1. apply seq_nth, H1.
Qed.
Lemma insert_length {B} (x : B) : forall k l, (k <= List.length l)%nat -> List.length (insert k x l) = S (List.length l).
Proof. induction k as [|k IH]; intros [|y l] L; cbn in *; try lia. rewrite IH; lia. Qed.
Lemma nth_insert {B} (x d : B) : forall k l, (k <= List.length l)%nat -> nth k (insert k x l) d = x.
Proof. induction k as [|k IH]; intros [|y l] L; cbn in *; try lia; auto. apply IH. lia. Qed.
Lemma replace_insert {B} (x y : B) : forall k l, (k <= List.length l)%nat -> replace k y (insert k x l) = insert k y l.
Proof. induction k as [|k IH]; intros [|z l] L; cbn in *; try lia; auto. rewrite IH by lia. reflexivity. Qed.
Lemma remove_replace {B} (y : B) : forall k l, remove k (replace k y l) = remove k l.
Proof. induction k as [|k IH]; intros [|z l]; cbn; auto. rewrite IH. reflexivity. Qed.
Lemma index_insert n m x : forall k sh i, (k <= List.length sh)%nat -> index_of (insert k n sh) i -> (nth k i 0 < n -> x < m) ->
  index_of (insert k m sh) (replace k x i).
Proof.
  induction k as [|k IH]; intros [|z sh] i L H C; cbn in *; try lia; inversion H; subst; cbn; constructor; auto.
  - apply IH; auto. lia.
Qed.
Lemma extend_spec (a : arr A) nstep z k : (k <= List.length (shape a))%nat ->
  z = Z.of_nat k \/ (z = (-1)%Z /\ k = List.length (shape a)) ->
  exists r, extend_array a nstep z = Some r /\ shape r = insert k nstep (shape a) /\
    forall i, index_of (shape r) i -> at_ r i = at_ a (remove k i).
Proof.
  intros L Z_. assert (AX : norm_axis z (S (List.length (shape a))) = Some k) by (apply norm_axis_some; unfold axis_is; lia).
  unfold extend_array. destruct (Z.leb_spec (-1) z); [|lia]. destruct (Z.leb_spec z (Z.of_nat (List.length (shape a)))); [|lia].
  cbn [andb]. unfold set_item. rewrite repeat_length, AX. destruct (view_new k (shape a) L) as (f & V & F). unfold getitem. rewrite V.
  unfold np_repeat. cbn [shape at_]. rewrite insert_length by exact L. rewrite AX. eexists. split; [reflexivity|]. cbn [shape at_].
  rewrite nth_insert, replace_insert by exact L. rewrite Nat.mul_1_l. split; [reflexivity|]. intros i Hi.
  rewrite F; [rewrite remove_replace; reflexivity|]. eapply index_insert; [exact L|exact Hi|].
  intros Lt. rewrite Nat.div_small by exact Lt. lia.
Qed.
Lemma extend_bad (a : arr A) nstep z : ~ (-1 <= z <= Z.of_nat (List.length (shape a)))%Z -> extend_array a nstep z = None.
Proof.
  intros H. unfold extend_array. destruct (Z.leb_spec (-1) z), (Z.leb_spec z (Z.of_nat (List.length (shape a)))); try reflexivity. lia.
Qed.
End Take.
