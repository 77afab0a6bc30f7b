From Coq Require Import List Reals Lra Lia Bool Arith String Sorting.Permutation Sorting.Sorted.
From Verif Require Import Neigh NeighSpec.
Import ListNotations.
Local Open Scope R_scope.

Lemma rlt_true a b : rlt a b = true <-> a < b.
Proof. unfold rlt. destruct (Rlt_dec a b); split; intros; try discriminate; try lra; reflexivity. Qed.
Lemma only_true sym skip i : only_msk sym skip i = true <-> ~ In (sym i) skip.
Proof.
  unfold only_msk. rewrite negb_true_iff. split.
  - intros H I. assert (E : existsb (String.eqb (sym i)) skip = true) by (apply existsb_exists; exists (sym i); split; [exact I|apply String.eqb_refl]). congruence.
  - intros H. apply not_true_is_false. intros E. apply existsb_exists in E as (s & Hs & E). apply String.eqb_eq in E. subst. auto.
Qed.

Section P.
Variables (n : nat) (dist : nat -> R) (sym : nat -> string) (idx : nat) (l : list nat).
Hypothesis SORT : sorts n dist l.
Let le := fun i j => dist i <= dist j.
Lemma trans_le : Relations_1.Transitive le.
Proof. intros a b c. unfold le. lra. Qed.
Lemma strong : StronglySorted le l.
Proof. apply Sorted_StronglySorted; [exact trans_le|apply SORT]. Qed.
Lemma strong_filter f : forall l', StronglySorted le l' -> StronglySorted le (List.filter f l').
Proof.
  induction 1 as [|a l' H IH F]; cbn; [constructor|]. destruct (f a); [|exact IH]. constructor; [exact IH|].
  apply Forall_forall. intros x Hx. apply filter_In in Hx as [Hx _]. rewrite Forall_forall in F. auto.
Qed.
Lemma l_in i : In i l <-> (i < n)%nat.
Proof.
  destruct SORT as [P _]. split; intros H.
  - apply (Permutation_in _ P) in H. apply in_seq in H. lia.
  - apply (Permutation_in _ (Permutation_sym P)). apply in_seq. lia.
Qed.
Lemma l_nodup : NoDup l.
Proof. destruct SORT as [P _]. apply (Permutation_NoDup (Permutation_sym P)), seq_NoDup. Qed.
Lemma strong_firstn : forall k l', StronglySorted le l' -> StronglySorted le (firstn k l') /\
  forall i j, In i (firstn k l') -> In j (skipn k l') -> le i j.
Proof.
  induction k as [|k IH]; intros l' H; [split; [constructor|intros i j []]|]. destruct l' as [|a l']; [split; [constructor|intros i j []]|].
  cbn. inversion H as [|? ? H1 H2]; subst. destruct (IH _ H1) as [S1 S2]. rewrite Forall_forall in H2. split.
  - constructor; [exact S1|]. apply Forall_forall. intros x Hx. apply H2. rewrite <- (firstn_skipn k l'). apply in_or_app. auto.
  - intros i j [<-|Hi] Hj; [|auto]. apply H2. rewrite <- (firstn_skipn k l'). apply in_or_app. auto.
Qed.
Lemma nodup_firstn {A} k (l' : list A) : NoDup l' -> NoDup (firstn k l') /\ forall x, In x (firstn k l') -> ~ In x (skipn k l').
Proof.
  intros H. rewrite <- (firstn_skipn k l') in H. revert H. generalize (firstn k l') (skipn k l').
  induction l0 as [|a l0 IH]; intros l1 N; [split; [constructor|intros x []]|]. cbn in N. inversion N; subst.
  destruct (IH _ H2) as [N1 N2]. split.
  - constructor; [|exact N1]. intros I. apply H1, in_or_app. auto.
  - intros x [<-|Hx]; [|auto]. intros I. apply H1, in_or_app. auto.
Qed.
(** the first k of a sorted list of the allowed atoms *)
Lemma firstn_nearest (ok : nat -> Prop) k l' : StronglySorted le l' -> NoDup l' -> (forall i, In i l' <-> (i < n)%nat /\ ok i) ->
  k_nearest n dist ok k (firstn k l') /\ StronglySorted le (firstn k l').
Proof.
  intros S N I. destruct (strong_firstn k _ S) as [S1 S2]. destruct (nodup_firstn k _ N) as [N1 N2].
  assert (SP : forall j, In j l' <-> In j (firstn k l') \/ In j (skipn k l')).
  { intros j. rewrite <- (firstn_skipn k l') at 1. apply in_app_iff. }
  repeat split; auto.
  - apply I. apply SP. auto.
  - apply I. apply SP. auto.
  - rewrite firstn_length. lia.
  - intros i j Hi Hj Oj Nj. apply S2; [exact Hi|]. destruct (proj1 (SP j) (proj2 (I j) (conj Hj Oj))); tauto.
  - intros j Hj Oj Nj. rewrite firstn_length. destruct (Nat.le_gt_cases k (List.length l')) as [L|G]; [lia|].
    exfalso. apply Nj. rewrite firstn_all2 by lia. apply I. auto.
Qed.
Variable skip : list string.
Hypothesis CEN : central n dist idx.
Lemma head_central : ~ In (sym idx) skip -> exists t, List.filter (only_msk sym skip) l = idx :: t.
Proof.
  intros NS. destruct CEN as (Hi & D0 & DP).
  assert (I : In idx (List.filter (only_msk sym skip) l)) by (apply filter_In; split; [apply l_in, Hi|apply only_true, NS]).
  pose proof (strong_filter (only_msk sym skip) l strong) as SS.
  destruct (List.filter (only_msk sym skip) l) as [|a t] eqn:E; [destruct I|].
  exists t. destruct I as [->|I]; [reflexivity|]. f_equal.
  assert (Ha : (a < n)%nat). { apply l_in. eapply proj1. apply filter_In. rewrite E. left. reflexivity. }
  destruct (Nat.eq_dec a idx) as [|Ne]; [assumption|].
  apply StronglySorted_inv in SS as [_ F]. rewrite Forall_forall in F. specialize (F _ I). unfold le in F.
  specialize (DP a Ha Ne). lra.
Qed.
Lemma by_num_spec k : ~ In (sym idx) skip ->
  k_nearest n dist (fun i => i <> idx /\ ~ In (sym i) skip) k (by_num sym l skip k) /\
  StronglySorted le (by_num sym l skip k).
Proof.
  intros NS. destruct (head_central NS) as [t E]. unfold by_num. rewrite E. cbn [skipn].
  pose proof (strong_filter (only_msk sym skip) l strong) as SS. rewrite E in SS. apply StronglySorted_inv in SS as [SS _].
  pose proof (NoDup_filter (only_msk sym skip) l_nodup) as ND. rewrite E in ND. inversion ND as [|? ? H1 H2]; subst.
  apply firstn_nearest; auto. intros i. split.
  - intros Hi. assert (F : In i (List.filter (only_msk sym skip) l)) by (rewrite E; right; exact Hi).
    apply filter_In in F as [F1 F2]. apply l_in in F1. apply only_true in F2. repeat split; auto. intros ->. contradiction.
  - intros (Hi & Ne & Ns). assert (F : In i (List.filter (only_msk sym skip) l)) by (apply filter_In; split; [apply l_in, Hi|apply only_true, Ns]).
    rewrite E in F. destruct F as [->|F]; [congruence|exact F].
Qed.
(** the central atom's species is skipped: the nearest allowed atom is missing *)
Lemma by_num_lost k : In (sym idx) skip -> (exists j, (j < n)%nat /\ ~ In (sym j) skip) ->
  exists near, k_nearest n dist (fun i => ~ In (sym i) skip) 1 [near] /\ near <> idx /\ ~ In near (by_num sym l skip k).
Proof.
  intros S (j & Hj & Nj).
  assert (I : In j (List.filter (only_msk sym skip) l)) by (apply filter_In; split; [apply l_in, Hj|apply only_true, Nj]).
  pose proof (strong_filter (only_msk sym skip) l strong) as SS.
  pose proof (NoDup_filter (only_msk sym skip) l_nodup) as ND. unfold by_num.
  assert (Q : forall i, In i (List.filter (only_msk sym skip) l) <-> (i < n)%nat /\ ~ In (sym i) skip).
  { intros i. rewrite filter_In, l_in, only_true. reflexivity. }
  destruct (List.filter (only_msk sym skip) l) as [|a t] eqn:E; [destruct I|]. exists a. split; [|split].
  - apply (firstn_nearest (fun i => ~ In (sym i) skip) 1 (a :: t)); auto.
  - intros ->. apply (proj1 (Q idx)); [left; reflexivity|exact S].
  - cbn [skipn]. intros X. inversion ND; subst. apply H1. rewrite <- (firstn_skipn k t). apply in_or_app. auto.
Qed.
Lemma by_cutoff_spec c : NoDup (by_cutoff dist sym l skip c) /\ StronglySorted le (by_cutoff dist sym l skip c) /\
  forall i, In i (by_cutoff dist sym l skip c) <-> (i < n)%nat /\ i <> idx /\ ~ In (sym i) skip /\ dist i < c.
Proof.
  destruct CEN as (Hi & D0 & DP). unfold by_cutoff.
  split; [apply NoDup_filter, l_nodup|split; [apply strong_filter, strong|]]. intros i. split.
  - intros H. apply filter_In in H as [H1 H2]. apply l_in in H1. apply andb_true_iff in H2 as [H2 H3]. apply andb_true_iff in H2 as [H2 H4].
    apply rlt_true in H2, H4. apply only_true in H3. repeat split; auto. intros ->. lra.
  - intros (H1 & H2 & H3 & H4). apply filter_In. split; [apply l_in, H1|]. rewrite !andb_true_iff, !rlt_true, only_true. auto.
Qed.
Lemma unsort_spec r : (forall i, In i r -> (i < n)%nat) -> NoDup r -> Permutation (unsort n r) r /\ StronglySorted Nat.lt (unsort n r).
Proof.
  intros B N. unfold unsort.
  assert (I : forall i, In i (List.filter (fun i => existsb (Nat.eqb i) r) (seq 0 n)) <-> In i r).
  { intros i. rewrite filter_In, in_seq, existsb_exists. split.
    - intros [_ (x & Hx & E)]. apply Nat.eqb_eq in E. subst. exact Hx.
    - intros H. split; [specialize (B _ H); lia|]. exists i. split; [exact H|apply Nat.eqb_refl]. }
  split; [apply NoDup_Permutation; auto; apply NoDup_filter, seq_NoDup|].
  assert (G : forall a m, StronglySorted Nat.lt (seq a m)).
  { intros a m. revert a. induction m as [|m IH]; intros a; cbn; constructor; auto. apply Forall_forall. intros x Hx. apply in_seq in Hx. unfold Nat.lt. lia. }
  specialize (G 0%nat n). clear - G. induction G as [|a l' H IH F]; cbn; [constructor|]. destruct (existsb (Nat.eqb a) r); [|exact IH].
  constructor; [exact IH|]. apply Forall_forall. intros x Hx. apply filter_In in Hx as [Hx _]. rewrite Forall_forall in F. auto.
Qed.
End P.
