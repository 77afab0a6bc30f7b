(** C37 (selecting, putting and repeating along an axis) and C38 (sums over axes). *)
From Coq Require Import List ZArith Lia Bool Arith.
From Verif Require Import Traj Nd NdSpec NdProofs NdSumProofs.
Import ListNotations.

(** ** C37 *)
Theorem C37_take_slice : forall A (a : arr A) s z k, axis_is (List.length (shape a)) z k ->
  match selected s (nth k (shape a) 0) with
  | None => slicetake a (ISlice s) z = None
  | Some l => exists r, slicetake a (ISlice s) z = Some r /\ shape r = replace k (List.length l) (shape a) /\
      forall i, index_of (shape r) i -> at_ r i = at_ a (replace k (nth (nth k i 0) l 0) i)
  end.
Proof. exact (@slicetake_slice). Qed.
Theorem C37_take_int : forall A (a : arr A) z k y j, axis_is (List.length (shape a)) z k -> axis_is (nth k (shape a) 0) y j ->
  exists r, slicetake a (IInt y) z = Some r /\ shape r = remove k (shape a) /\
    forall i, index_of (shape r) i -> at_ r i = at_ a (insert k j i).
Proof. exact (@slicetake_int). Qed.
Theorem C37_take_tuple : forall A (a : arr A) ss ls, per_axis ss (shape a) ls ->
  exists r, slicetake_all a (map ISlice ss) = Some r /\ shape r = map (@List.length nat) ls /\
    forall i, index_of (shape r) i -> at_ r i = at_ a (source ls i).
Proof. exact (@slicetake_all_spec). Qed.
Theorem C37_take_bad_axis : forall A (a : arr A) sl z, bad_axis (List.length (shape a)) z -> slicetake a sl z = None.
Proof. exact (@slicetake_bad). Qed.
(** sliceput changes the selected elements and no others *)
Theorem C37_put_tuple : forall A (a : arr A) ss ls b, per_axis ss (shape a) ls ->
  exists r, sliceput_all a b (map ISlice ss) = Some r /\ shape r = shape a /\
    (forall p, index_of (map (@List.length nat) ls) p -> at_ r (source ls p) = b p) /\
    (forall i, ~ Forall2 (fun x l => In x l) i ls -> at_ r i = at_ a i).
Proof. exact (@setitem_spec). Qed.
(** what was put is what slicetake takes *)
Theorem C37_put_take : forall A (a : arr A) ss ls b, per_axis ss (shape a) ls ->
  exists r t, sliceput_all a b (map ISlice ss) = Some r /\ slicetake_all r (map ISlice ss) = Some t /\
    shape t = map (@List.length nat) ls /\ forall i, index_of (shape t) i -> at_ t i = b i.
Proof.
  intros A a ss ls b P. destruct (setitem_spec a ss ls b P) as (r & R & S & H & _).
  assert (P' : per_axis ss (shape r) ls) by (rewrite S; exact P).
  destruct (slicetake_all_spec r ss ls P') as (t & T & St & Ht). exists r, t. repeat split; auto.
  intros i Hi. rewrite Ht by exact Hi. apply H. rewrite <- St. exact Hi.
Qed.
(** with axis=, the same holds where numpy takes a list as a tuple; newer versions raise always *)
Theorem C37_put_axis : forall A (a : arr A) b s z k l, axis_is (List.length (shape a)) z k ->
  selected s (nth k (shape a) 0) = Some l ->
  exists r, sliceput true a b (ISlice s) z = Some r /\ shape r = shape a /\
    (forall i, index_of (replace k (List.length l) (shape a)) i -> at_ r (replace k (nth (nth k i 0) l 0) i) = b i) /\
    (forall i, ~ In (nth k i 0) l -> at_ r i = at_ a i).
Proof.
  intros A a b s z k l AX E. pose proof AX as [Lk _]. apply norm_axis_some in AX.
  assert (N : nth_error (shape a) k = Some (nth k (shape a) 0)) by (apply nth_error_nth'; exact Lk).
  unfold sliceput, set_item. rewrite repeat_length, AX, map_full, <- map_replace.
  pose proof (per_replace s l k _ _ _ _ (repeat_per (shape a)) N E) as P.
  destruct (setitem_spec a _ _ b P) as (r & R & S & H1 & H2). exists r. repeat split; auto.
  - intros i Hi. rewrite <- (source_replace l k (shape a)) by assumption. apply H1. rewrite map_replace, map_length_seq. exact Hi.
  - intros i NI. apply H2. intros F. apply NI. clear - F Lk. revert i F Lk. generalize (shape a). revert k.
    induction k as [|k IH]; intros [|n sh] i F L; cbn in L; try lia; cbn in F; inversion F; subst; cbn; [assumption|].
    apply (IH sh); [assumption|lia].
Qed.
Theorem C37_put_axis_refuted : forall A (a : arr A) b sl z, sliceput false a b sl z = None.
Proof. intros. unfold sliceput. destruct (set_item _ _ _); reflexivity. Qed.
(** extend_array inserts an axis along which nothing changes *)
Theorem C37_extend : forall A (a : arr A) nstep z k, (k <= List.length (shape a))%nat ->
  z = Z.of_nat k \/ (z = (-1)%Z /\ k = List.length (shape a)) ->
  exists r, extend_array a nstep z = Some r /\ shape r = insert k nstep (shape a) /\
    forall i, index_of (shape r) i -> at_ r i = at_ a (remove k i).
Proof. exact (@extend_spec). Qed.
Theorem C37_extend_bad_axis : forall A (a : arr A) nstep z,
  ~ (-1 <= z <= Z.of_nat (List.length (shape a)))%Z -> extend_array a nstep z = None.
Proof. exact (@extend_bad). Qed.
Example C37_ex : axis_is 3 (-1) 2 /\ selected (Slice (Some 1%Z) None (Some 2%Z)) 6 = Some [1; 3; 5] /\
  per_axis [Slice None (Some 2%Z) None; Slice None None (Some (-1)%Z)] [3; 2] [[0; 1]; [1; 0]].
Proof. repeat split; try lia. repeat constructor. Qed.

(** ** C38: elements of any commutative monoid *)
Theorem C38_sum : forall A (zero : A) add, (forall x y, add x y = add y x) -> (forall x y z, add x (add y z) = add (add x y) z) ->
  (forall x, add zero x = x) -> forall axes (a : arr A), NoDup axes -> Forall (fun k => (k < List.length (shape a))%nat) axes ->
  exists r, sum zero add a (ATuple (map Z.of_nat axes)) false = Some r /\ is_sum zero add a axes r.
Proof.
  intros A zero add C AS Z axes a N F. destruct (sum_rec_spec zero add C AS Z axes a N F) as (r & R & S).
  exists r. split; [|exact S]. unfold sum. rewrite map_length. exact R.
Qed.
(** the order of the axes does not matter *)
Theorem C38_order : forall A (zero : A) add, (forall x y, add x y = add y x) -> (forall x y z, add x (add y z) = add (add x y) z) ->
  (forall x, add zero x = x) -> forall axes axes' (a : arr A), NoDup axes -> NoDup axes' -> (forall k, In k axes <-> In k axes') ->
  Forall (fun k => (k < List.length (shape a))%nat) axes ->
  exists r r', sum zero add a (ATuple (map Z.of_nat axes)) false = Some r /\
    sum zero add a (ATuple (map Z.of_nat axes')) false = Some r' /\ shape r = shape r' /\
    forall i, index_of (shape r) i -> at_ r i = at_ r' i.
Proof.
  intros A zero add C AS Z axes axes' a N N' P F.
  assert (F' : Forall (fun k => (k < List.length (shape a))%nat) axes') by (rewrite Forall_forall in *; intros k Hk; apply F, P, Hk).
  destruct (C38_sum A zero add C AS Z axes a N F) as (r & R & S1 & S2). destruct (C38_sum A zero add C AS Z axes' a N' F') as (r' & R' & S1' & S2').
  exists r, r'. assert (E : shape r = shape r') by (rewrite S1, S1'; apply others_perm, P). repeat split; auto.
  intros i Hi. rewrite S2 by exact Hi. rewrite S2' by (rewrite <- E; exact Hi). apply sum_over_perm, P.
Qed.
(** keepdims=True: the axes given (in increasing order) are kept, the others summed *)
Theorem C38_keepdims : forall A (zero : A) add, (forall x y, add x y = add y x) -> (forall x y z, add x (add y z) = add (add x y) z) ->
  (forall x, add zero x = x) -> forall axes (a : arr A),
  exists r others_, sum zero add a (ATuple (map Z.of_nat axes)) true = Some r /\ is_sum zero add a others_ r /\
    (forall k, In k others_ <-> (k < List.length (shape a))%nat /\ ~ In k axes) /\ shape r = those axes (shape a).
Proof.
  intros A zero add C AS Z axes a. destruct (rest_ok a axes) as [N F].
  destruct (sum_rec_spec zero add C AS Z _ a N F) as (r & R & S). exists r, (rest (List.length (shape a)) axes). split; [|split; [exact S|split]].
  - unfold sum. rewrite (keepdims_axes a _ axes); [rewrite map_length; exact R|]. intros k _. split; [|apply in_map].
    intros I. apply in_map_iff in I as (x & E & Hx). apply Nat2Z.inj in E. subst. exact Hx.
  - intros k. unfold rest. rewrite filter_In, in_seq, negb_true_iff. rewrite <- not_true_iff_false, mem_true. intuition lia.
  - destruct S as [S _]. rewrite S. apply rest_others.
Qed.
Theorem C38_int : forall A (zero : A) add, (forall x y, add x y = add y x) -> (forall x y z, add x (add y z) = add (add x y) z) ->
  (forall x, add zero x = x) -> forall (a : arr A) z k, axis_is (List.length (shape a)) z k ->
  exists r, sum zero add a (AInt z) false = Some r /\ sum zero add a (ATuple [z]) false = Some r /\ is_sum zero add a [k] r.
Proof.
  intros A zero add C AS Z a z k AX.
  destruct (sum_rec_spec zero add C AS Z [k] a ltac:(repeat constructor; intros []) ltac:(repeat constructor; apply AX)) as (r & R & S).
  exists r. cbn in R. unfold sum_axis in R.
  rewrite (proj2 (norm_axis_some (List.length (shape a)) (Z.of_nat k) k)) in R by (split; [apply AX|left; reflexivity]).
  apply norm_axis_some in AX. cbn. unfold sum_axis. rewrite AX. injection R as <-. auto.
Qed.
Theorem C38_all : forall A (zero : A) add (a : arr A), exists r, sum zero add a ANone false = Some r /\
  shape r = [] /\ at_ r [] = total zero add (map (at_ a) (indices (shape a))).
Proof. intros. eexists. split; [reflexivity|]. split; reflexivity. Qed.
(** Negative axes in a tuple: (-1, 0) of a 2 x 3 x 5 array sums over axes 2 and 1 *)
Theorem C38_negative_refuted : exists (a : arr nat) r, sum 0 Nat.add a (ATuple [-1; 0]%Z) false = Some r /\
  shape r = [2] /\ others [2; 0] (shape a) = [3].
Proof. exists (Array [2; 3; 5] (fun _ => 1)). eexists. split; [reflexivity|]. split; reflexivity. Qed.
(** keepdims=True with negative axes only: everything is summed, nothing kept *)
Theorem C38_keepdims_negative_refuted : forall A (zero : A) add, (forall x y, add x y = add y x) -> (forall x y z, add x (add y z) = add (add x y) z) ->
  (forall x, add zero x = x) -> forall (l : list Z) (a : arr A), Forall (fun z => (z < 0)%Z) l ->
  exists r, sum zero add a (ATuple l) true = Some r /\ shape r = [] /\ at_ r [] = total zero add (map (at_ a) (indices (shape a))).
Proof.
  intros A zero add C AS Z l a H. destruct (rest_ok a []) as [N F].
  destruct (sum_rec_spec zero add C AS Z _ a N F) as (r & R & S). exists r. split.
  - unfold sum. rewrite (keepdims_axes a l []); [rewrite map_length; exact R|]. intros k _. split; [|intros []].
    intros I. rewrite Forall_forall in H. specialize (H _ I). lia.
  - apply (total_all zero add a r). unfold rest in S. rewrite filter_all in S by reflexivity. exact S.
Qed.
(** the same axis twice: numpy raises, num.sum sums over two different axes *)
Theorem C38_twice_refuted : exists (a : arr nat) r, sum 0 Nat.add a (ATuple [0; 0]%Z) false = Some r /\
  shape r = [5] /\ shape a = [2; 3; 5].
Proof. exists (Array [2; 3; 5] (fun _ => 1)). eexists. split; [reflexivity|]. split; reflexivity. Qed.
Example C38_ex : exists r, sum 0 Nat.add (Array [2; 3; 2] (fun i => nth 1 i 0)) (ATuple [2; 0]%Z) false = Some r /\
  map (at_ r) (indices (shape r)) = [0; 4; 8].
Proof. eexists. split; reflexivity. Qed.

Print Assumptions C37_take_slice. Print Assumptions C37_take_int. Print Assumptions C37_take_tuple. Print Assumptions C37_take_bad_axis.
Print Assumptions C37_put_tuple. Print Assumptions C37_put_take. Print Assumptions C37_put_axis. Print Assumptions C37_put_axis_refuted. Print Assumptions C37_extend.
Print Assumptions C37_extend_bad_axis. Print Assumptions C38_sum. Print Assumptions C38_order. Print Assumptions C38_keepdims.
Print Assumptions C38_int. Print Assumptions C38_all. Print Assumptions C38_negative_refuted. Print Assumptions C38_keepdims_negative_refuted. Print Assumptions C38_twice_refuted.
