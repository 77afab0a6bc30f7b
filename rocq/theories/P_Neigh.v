(** C36: nearest neighbours. *)
From Coq Require Import List Reals Lra Lia Arith String Sorting.Permutation Sorting.Sorted.
From Verif Require Import Neigh NeighSpec NeighProofs.
Import ListNotations.
Local Open Scope R_scope.

(** num=k: the k nearest other atoms of the species not skipped, nearest first *)
Theorem C36_num : forall n dist sym idx idx_sort skip k, sorts n dist idx_sort -> central n dist idx -> ~ In (sym idx) skip ->
  exists r, nearest n dist sym idx_sort (Some k) None skip true = Some r /\
    k_nearest n dist (fun i => i <> idx /\ ~ In (sym i) skip) k r /\ StronglySorted (fun i j => dist i <= dist j) r.
Proof. exact (fun n dist sym idx l skip k S C N => ex_intro _ _ (conj eq_refl (by_num_spec n dist sym idx l S skip C k N))). Qed.
(** cutoff=c: exactly the other atoms of these species closer than c *)
Theorem C36_cutoff : forall n dist sym idx idx_sort skip c, sorts n dist idx_sort -> central n dist idx ->
  exists r, nearest n dist sym idx_sort None (Some c) skip true = Some r /\
    NoDup r /\ StronglySorted (fun i j => dist i <= dist j) r /\
    forall i, In i r <-> (i < n)%nat /\ i <> idx /\ ~ In (sym i) skip /\ dist i < c.
Proof. exact (fun n dist sym idx l skip c S C => ex_intro _ _ (conj eq_refl (by_cutoff_spec n dist sym idx l S skip C c))). Qed.
(** sort=False: the same atoms in increasing index order *)
Theorem C36_unsorted : forall n dist sym idx_sort num cutoff skip r, sorts n dist idx_sort ->
  nearest n dist sym idx_sort num cutoff skip true = Some r ->
  exists r', nearest n dist sym idx_sort num cutoff skip false = Some r' /\ Permutation r' r /\ StronglySorted Nat.lt r'.
Proof.
  intros n dist sym l num cutoff skip r S E.
  assert (B : forall i, In i r -> (i < n)%nat).
  { intros i Hi. apply (l_in n dist l S). destruct num as [k|], cutoff as [c|]; try discriminate; injection E as <-.
    - assert (X : In i (List.filter (only_msk sym skip) l)).
      { rewrite <- (firstn_skipn 1 (List.filter _ l)). apply in_or_app. right. rewrite <- (firstn_skipn k (skipn 1 _)). apply in_or_app. left. exact Hi. }
      apply filter_In in X. tauto.
    - apply filter_In in Hi. tauto. }
  assert (N : NoDup r).
  { destruct num as [k|], cutoff as [c|]; try discriminate; injection E as <-.
    - apply nodup_firstn. pose proof (NoDup_filter (only_msk sym skip) (l_nodup n dist l S)) as H.
      destruct (List.filter _ l); [constructor|]. inversion H; assumption.
    - apply NoDup_filter, (l_nodup n dist l S). }
  exists (unsort n r). split; [|exact (unsort_spec n r B N)].
  destruct num as [k|], cutoff as [c|]; try discriminate; injection E as <-; reflexivity.
Qed.
(** If the species of the central atom is skipped, num= drops the nearest allowed atom *)
Theorem C36_lost : forall n dist sym idx idx_sort skip k, sorts n dist idx_sort -> In (sym idx) skip ->
  (exists j, (j < n)%nat /\ ~ In (sym j) skip) ->
  exists near r, nearest n dist sym idx_sort (Some k) None skip true = Some r /\
    k_nearest n dist (fun i => ~ In (sym i) skip) 1 [near] /\ near <> idx /\ ~ In near r.
Proof.
  exact (fun n dist sym idx l skip k S I J => match by_num_lost n dist sym idx l S skip k I J with
         | ex_intro _ near H => ex_intro _ near (ex_intro _ _ (conj eq_refl H)) end).
Qed.
(** three atoms, the third the nearest of the first *)
Example C36_ex : let d := fun i => match i with 0%nat => 0 | 1%nat => 2 | _ => 1 end in
  sorts 3 d [0; 2; 1]%nat /\ central 3 d 0.
Proof.
  cbv zeta. repeat split; try lra; try lia.
  - cbn. apply perm_skip, perm_swap.
  - repeat constructor; cbn; lra.
  - intros [|[|j]]; intros; try lra; contradiction.
Qed.
Print Assumptions C36_num. Print Assumptions C36_cutoff. Print Assumptions C36_unsorted. Print Assumptions C36_lost.
