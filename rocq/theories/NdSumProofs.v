From Coq Require Import List ZArith Lia Bool Arith.
From Verif Require Import Traj Nd NdSpec NdProofs.
Import ListNotations.

(** ** Positions *)
Fixpoint oth {B} (P : nat -> bool) (l : list B) : list B :=
  match l with [] => [] | x :: l => if P 0 then x :: oth (fun k => P (S k)) l else oth (fun k => P (S k)) l end.
Lemma oth_ext {B} : forall (l : list B) P Q, (forall k, (k < List.length l)%nat -> P k = Q k) -> oth P l = oth Q l.
Proof.
  induction l as [|x l IH]; intros P Q H; cbn; [reflexivity|]. rewrite (H 0) by (cbn; lia).
  rewrite (IH (fun k => P (S k)) (fun k => Q (S k))) by (intros; apply H; cbn; lia). reflexivity.
Qed.
Lemma at_axes_oth {B} P (l : list B) : at_axes P l = oth P l.
Proof.
  unfold at_axes. enough (G : forall j, map snd (List.filter (fun p => P (fst p)) (combine (seq j (List.length l)) l)) = oth (fun k => P (j + k)) l).
  { rewrite (G 0). reflexivity. }
  induction l as [|x l IH]; intros j; cbn; [reflexivity|]. rewrite Nat.add_0_r. specialize (IH (S j)).
  assert (E : oth (fun k => P (S j + k)) l = oth (fun k => P (j + S k)) l) by (apply oth_ext; intros; f_equal; lia).
  destruct (P j); cbn; rewrite IH, E; reflexivity.
Qed.
Lemma oth_remove {B} : forall k (l : list B) P, P k = false ->
  oth P l = oth (fun i => if i <? k then P i else P (S i)) (remove k l).
Proof.
  induction k as [|k IH]; intros [|x l] P H; cbn; try reflexivity.
  - rewrite H. apply oth_ext. intros i _. reflexivity.
  - rewrite (IH l (fun i => P (S i)) H).
    rewrite (oth_ext (remove k l) (fun i => if i <? k then P (S i) else P (S (S i)))
               (fun i => if S i <=? k then P (S i) else P (S (S i)))) by (intros i _; reflexivity).
    destruct (P 0); reflexivity.
Qed.
Lemma mem_true axes k : mem axes k = true <-> In k axes.
Proof.
  unfold mem. rewrite existsb_exists. split; [intros (x & Hx & E); apply Nat.eqb_eq in E; subst; exact Hx|].
  intros H. exists k. split; [exact H|apply Nat.eqb_refl].
Qed.
Lemma mem_ext axes axes' : (forall k, In k axes <-> In k axes') -> forall k, mem axes k = mem axes' k.
Proof. intros H k. apply eq_iff_eq_true. rewrite !mem_true. apply H. Qed.
Definition lower (k x : nat) : nat := if k <? x then x - 1 else x.
Lemma others_cons {B} k axes (l : list B) : ~ In k axes -> others (k :: axes) l = others (map (lower k) axes) (remove k l).
Proof.
  intros N. unfold others. rewrite !at_axes_oth. rewrite (oth_remove k).
  2:{ rewrite (proj2 (mem_true _ _)); [reflexivity|left; reflexivity]. }
  apply oth_ext. intros i _.
  assert (G : forall i, In i (map (lower k) axes) <-> if i <? k then In i axes else In (S i) axes).
  { clear - N. intros i. rewrite in_map_iff. unfold lower. split.
    - intros (x & <- & Hx). assert (x <> k) by (intros ->; contradiction). destruct (Nat.ltb_spec k x).
      + destruct (Nat.ltb_spec (x - 1) k); [lia|]. replace (S (x - 1)) with x by lia. exact Hx.
      + destruct (Nat.ltb_spec x k); [exact Hx|lia].
    - destruct (Nat.ltb_spec i k); intros H1.
      + exists i. destruct (Nat.ltb_spec k i); [lia|]. auto.
      + exists (S i). destruct (Nat.ltb_spec k (S i)); [|lia]. split; [lia|exact H1]. }
  specialize (G i). destruct (Nat.ltb_spec i k); f_equal; apply eq_iff_eq_true; rewrite !mem_true, G; cbn [In]; intuition lia.
Qed.
Lemma others_nil {B} (l : list B) : others [] l = l.
Proof. unfold others. rewrite at_axes_oth. induction l as [|x l IH]; cbn in *; [reflexivity|]. f_equal. exact IH. Qed.
Lemma remove_insert {B} (x : B) : forall k l, (k <= List.length l)%nat -> remove k (insert k x l) = l.
Proof. induction k as [|k IH]; intros [|y l] L; cbn in *; try lia; auto. f_equal. apply IH. lia. Qed.
Lemma insert_remove {B} (d : B) : forall k l, (k < List.length l)%nat -> insert k (nth k l d) (remove k l) = l.
Proof. induction k as [|k IH]; intros [|y l] L; cbn in *; try lia; auto. f_equal. apply IH. lia. Qed.
Lemma remove_length {B} : forall k (l : list B), (k < List.length l)%nat -> List.length (remove k l) = List.length l - 1.
Proof. induction k as [|k IH]; intros [|y l] L; cbn in *; try lia. rewrite IH by lia. lia. Qed.
Lemma index_length sh i : index_of sh i -> List.length i = List.length sh.
Proof. induction 1; cbn; congruence. Qed.

Section Sum.
Context {A : Type}.
Variables (zero : A) (add : A -> A -> A).
Hypothesis addC : forall x y, add x y = add y x.
Hypothesis addA : forall x y z, add x (add y z) = add (add x y) z.
Hypothesis add0 : forall x, add zero x = x.
Notation total := (total zero add).
Lemma total_app l l' : total (l ++ l') = add (total l) (total l').
Proof. unfold Nd.total. induction l as [|x l IH]; cbn; [rewrite add0; reflexivity|]. rewrite IH, addA. reflexivity. Qed.
Definition big {I} (g : I -> A) (l : list I) : A := total (map g l).
Lemma big_ext {I} (g h : I -> A) l : (forall i, In i l -> g i = h i) -> big g l = big h l.
Proof. intros H. unfold big. f_equal. apply map_ext_in, H. Qed.
Lemma big_zero {I} (l : list I) : big (fun _ => zero) l = zero.
Proof. unfold big, Nd.total. induction l as [|i l IH]; cbn; [reflexivity|]. rewrite IH. apply add0. Qed.
Lemma big_add {I} (g h : I -> A) l : big (fun i => add (g i) (h i)) l = add (big g l) (big h l).
Proof.
  unfold big, Nd.total. induction l as [|i l IH]; cbn; [rewrite add0; reflexivity|]. rewrite IH.
  rewrite <- (addA (g i)), (addA (h i)), (addC (h i)), <- (addA (fold_right add zero (map g l))), addA. reflexivity.
Qed.
Lemma big_cons {I} (g : I -> A) i l : big g (i :: l) = add (g i) (big g l).
Proof. reflexivity. Qed.
Lemma big_swap {I J} (g : I -> J -> A) l l' : big (fun i => big (g i) l') l = big (fun j => big (fun i => g i j) l) l'.
Proof.
  induction l as [|i l IH].
  - change (zero = big (fun j => zero) l'). rewrite big_zero. reflexivity.
  - rewrite big_cons, IH, <- big_add. apply big_ext. intros j _. reflexivity.
Qed.
Lemma big_flat {I J} (g : J -> A) (f : I -> list J) l : big g (flat_map f l) = big (fun i => big g (f i)) l.
Proof. induction l as [|i l IH]; [reflexivity|]. cbn [flat_map]. rewrite big_cons, <- IH. unfold big. rewrite map_app, total_app. reflexivity. Qed.
Lemma big_map {I J} (g : J -> A) (f : I -> J) l : big g (map f l) = big (fun i => g (f i)) l.
Proof. unfold big. rewrite map_map. reflexivity. Qed.
Lemma big_filter {I} (g : I -> A) P l : big g (List.filter P l) = big (fun i => if P i then g i else zero) l.
Proof. induction l as [|i l IH]; [reflexivity|]. cbn [List.filter]. rewrite (big_cons (fun i => if P i then g i else zero)), <- IH. destruct (P i); [reflexivity|]. rewrite add0. reflexivity. Qed.
Lemma fubini : forall k sh (g : list nat -> A), (k < List.length sh)%nat ->
  big g (indices sh) = big (fun p => big (fun x => g (insert k x p)) (seq 0 (nth k sh 0))) (indices (remove k sh)).
Proof.
  induction k as [|k IH]; intros [|n sh] g L; cbn in L; try lia.
  - cbn [indices remove nth]. rewrite big_flat, <- big_swap. apply big_ext. intros i _. rewrite big_map. reflexivity.
  - cbn [indices remove nth]. rewrite !big_flat. apply big_ext. intros i _. rewrite !big_map.
    rewrite (IH sh (fun p => g (i :: p))) by lia. reflexivity.
Qed.

Notation sum_over := (sum_over zero add).
Notation is_sum := (is_sum zero add).
Lemma in_remove_index k sh p : index_of (remove k sh) p -> (k < List.length sh)%nat -> (k <= List.length p)%nat.
Proof. intros H L. apply index_length in H. rewrite remove_length in H by exact L. lia. Qed.
Lemma index_unique (g : list nat -> A) : forall sh i, index_of sh i ->
  big (fun p => if idx_eqb p i then g p else zero) (indices sh) = g i.
Proof.
  intros sh i H. revert g. induction H as [|x n i sh Hx H IH]; intros g.
  - cbn. rewrite addC. apply add0.
  - cbn [indices]. rewrite big_flat.
    rewrite (big_ext _ (fun y => if Nat.eqb y x then g (x :: i) else zero)).
    + clear - addC add0 Hx.
      assert (G : forall m j, big (fun y => if Nat.eqb y x then g (x :: i) else zero) (seq j m) =
                  if (j <=? x) && (x <? j + m) then g (x :: i) else zero).
      { induction m as [|m IHm]; intros j; cbn [seq].
        - destruct (Nat.leb_spec j x), (Nat.ltb_spec x (j + 0)); cbn; try reflexivity; lia.
        - rewrite big_cons, IHm. destruct (Nat.eqb_spec j x), (Nat.leb_spec (S j) x), (Nat.leb_spec j x), (Nat.ltb_spec x (S j + m)), (Nat.ltb_spec x (j + S m)); cbn;
            try lia; rewrite ?add0; try reflexivity; rewrite addC; apply add0. }
      rewrite G. destruct (Nat.leb_spec 0 x), (Nat.ltb_spec x (0 + n)); try lia. reflexivity.
    + intros y _. rewrite big_map. destruct (Nat.eqb_spec y x) as [->|N].
      * rewrite <- (IH (fun p => g (x :: p))). apply big_ext. intros p _. unfold idx_eqb.
        destruct (list_eq_dec Nat.eq_dec (x :: p) (x :: i)) as [e|e], (list_eq_dec Nat.eq_dec p i) as [e'|e']; try reflexivity; congruence.
      * rewrite (big_ext _ (fun _ => zero)); [apply big_zero|]. intros p _. unfold idx_eqb.
        destruct (list_eq_dec Nat.eq_dec (y :: p) (x :: i)) as [e|e]; [congruence|reflexivity].
Qed.
Lemma sum_rec_spec : forall axes (a : arr A), NoDup axes -> Forall (fun k => (k < List.length (shape a))%nat) axes ->
  exists r, sum_rec zero add (List.length axes) a (map Z.of_nat axes) = Some r /\ is_sum a axes r.
Proof.
  intros axes. remember (List.length axes) as m eqn:Em. revert axes Em.
  induction m as [|m IH]; intros [|k axes] Em a N F; try discriminate.
  - exists a. split; [reflexivity|]. split; [symmetry; apply others_nil|]. intros i Hi. unfold NdSpec.sum_over. symmetry.
    change (big (at_ a) (List.filter (fun p => idx_eqb (others [] p) i) (indices (shape a))) = at_ a i). rewrite big_filter.
    rewrite <- (index_unique (at_ a) (shape a) i Hi). apply big_ext. intros p _. rewrite others_nil. reflexivity.
  - inversion N as [|? ? NI N']; subst. pose proof (Forall_inv F) as Lk. cbn beta in Lk. apply Forall_inv_tail in F.
    cbn [map sum_rec]. unfold sum_axis.
    rewrite (proj2 (norm_axis_some (List.length (shape a)) (Z.of_nat k) k)) by (unfold axis_is; lia).
    match goal with |- context [sum_rec _ _ m ?x _] => set (a' := x) end.
    assert (Ren : map (fun xx => if (Z.of_nat k <? xx)%Z then (xx - 1)%Z else xx) (map Z.of_nat axes) = map Z.of_nat (map (lower k) axes)).
    { rewrite !map_map. apply map_ext. intros x. unfold lower. destruct (Z.ltb_spec (Z.of_nat k) (Z.of_nat x)), (Nat.ltb_spec k x); lia. }
    rewrite Ren.
    assert (N'' : NoDup (map (lower k) axes)).
    { clear - N' NI. induction N' as [|x l Hx _ IHl]; cbn; constructor.
      - intros I. apply in_map_iff in I as (y & E & Hy). unfold lower in E.
        assert (x <> k) by (intros ->; apply NI; left; reflexivity). assert (y <> k) by (intros ->; apply NI; right; exact Hy).
        assert (x = y) by (destruct (Nat.ltb_spec k x), (Nat.ltb_spec k y); lia). subst. contradiction.
      - apply IHl. intros I. apply NI. right. exact I. }
    assert (F'' : Forall (fun j => (j < List.length (shape a'))%nat) (map (lower k) axes)).
    { unfold a'. cbn [shape]. rewrite remove_length by exact Lk. apply Forall_forall. intros j Hj. apply in_map_iff in Hj as (y & <- & Hy).
      rewrite Forall_forall in F. specialize (F y Hy). assert (y <> k) by (intros ->; contradiction). unfold lower. destruct (Nat.ltb_spec k y); lia. }
    destruct (IH (map (lower k) axes) ltac:(rewrite map_length; cbn in Em; lia) a' N'' F'') as (r & R & S1 & S2).
    exists r. split; [exact R|]. split.
    + rewrite S1. unfold a'. cbn [shape]. rewrite others_cons by exact NI. reflexivity.
    + intros i Hi. rewrite (S2 i Hi). unfold NdSpec.sum_over.
      change (big (at_ a') (List.filter (fun p => idx_eqb (others (map (lower k) axes) p) i) (indices (shape a'))) =
              big (at_ a) (List.filter (fun p => idx_eqb (others (k :: axes) p) i) (indices (shape a)))).
      rewrite !big_filter. rewrite (fubini k (shape a)) by exact Lk. unfold a'. cbn [shape at_]. apply big_ext. intros p Hp.
      apply indices_in in Hp. pose proof (in_remove_index k _ p Hp Lk) as Lp.
      rewrite (big_ext _ (fun x => if idx_eqb (others (map (lower k) axes) p) i then at_ a (insert k x p) else zero)).
      * destruct (idx_eqb _ i); [reflexivity|]. rewrite big_zero. reflexivity.
      * intros x _. rewrite others_cons by exact NI. rewrite remove_insert by exact Lp. reflexivity.
Qed.
Lemma filter_all {B} (f : B -> bool) l : (forall x, In x l -> f x = true) -> List.filter f l = l.
Proof. induction l as [|x l IH]; intros H; [reflexivity|]. cbn. rewrite (H x) by (left; reflexivity). f_equal. apply IH. intros y Hy. apply H. right. exact Hy. Qed.
Lemma total_all (a : arr A) r : is_sum a (seq 0 (List.length (shape a))) r -> shape r = [] /\ at_ r [] = total (map (at_ a) (indices (shape a))).
Proof.
  assert (E : forall (l : list nat) n, (List.length l <= n)%nat -> others (seq 0 n) l = []).
  { intros l n L. unfold others. rewrite at_axes_oth. rewrite (oth_ext l _ (fun _ => false)); [clear; induction l; cbn; auto|].
    intros k Hk. rewrite (proj2 (mem_true _ _)); [reflexivity|]. apply in_seq. lia. }
  intros [S V]. rewrite E in S by lia. split; [exact S|]. rewrite V by (rewrite S; constructor). unfold NdSpec.sum_over. f_equal. f_equal.
  apply filter_all. intros p Hp. apply indices_in, index_length in Hp.
  rewrite E by lia. reflexivity.
Qed.
Lemma sum_over_perm (a : arr A) axes axes' i : (forall k, In k axes <-> In k axes') -> sum_over a axes i = sum_over a axes' i.
Proof.
  intros H. unfold NdSpec.sum_over. do 2 f_equal. apply filter_ext. intros p. unfold others. rewrite !at_axes_oth. f_equal. apply oth_ext.
  intros k _. f_equal. apply mem_ext, H.
Qed.
Lemma others_perm {B} (l : list B) axes axes' : (forall k, In k axes <-> In k axes') -> others axes l = others axes' l.
Proof. intros H. unfold others. rewrite !at_axes_oth. apply oth_ext. intros k _. f_equal. apply mem_ext, H. Qed.
(** keepdims=True *)
Definition rest (n : nat) (axes : list nat) : list nat := List.filter (fun k => negb (mem axes k)) (seq 0 n).
Lemma rest_others {B} (l : list B) axes : others (rest (List.length l) axes) l = those axes l.
Proof.
  unfold others, those. rewrite !at_axes_oth. apply oth_ext. intros k Hk. unfold rest.
  destruct (mem axes k) eqn:E.
  - rewrite negb_true_iff. apply not_true_is_false. rewrite mem_true, filter_In, E. intros [_ H]. discriminate.
  - rewrite negb_false_iff. apply mem_true, filter_In. rewrite E. split; [apply in_seq; lia|reflexivity].
Qed.
Lemma keepdims_axes (a : arr A) (l : list Z) axes : (forall k, (k < List.length (shape a))%nat -> In (Z.of_nat k) l <-> In k axes) ->
  List.filter (fun xx => negb (existsb (Z.eqb xx) l)) (alldims a) = map Z.of_nat (rest (List.length (shape a)) axes).
Proof.
  intros H. unfold alldims, rest.
  assert (G : forall s, (forall k, In k s -> (k < List.length (shape a))%nat) ->
    List.filter (fun xx => negb (existsb (Z.eqb xx) l)) (map Z.of_nat s) = map Z.of_nat (List.filter (fun k => negb (mem axes k)) s)).
  { induction s as [|k s IH]; intros B; [reflexivity|]. cbn [map List.filter].
    assert (E : existsb (Z.eqb (Z.of_nat k)) l = mem axes k).
    { apply eq_iff_eq_true. rewrite mem_true, <- (H k) by (apply B; left; reflexivity). rewrite existsb_exists. split.
      - intros (x & Hx & E). apply Z.eqb_eq in E. subst. exact Hx.
      - intros I. exists (Z.of_nat k). split; [exact I|apply Z.eqb_refl]. }
    rewrite E, IH by (intros; apply B; right; assumption). destruct (mem axes k); reflexivity. }
  apply G. intros k Hk. apply in_seq in Hk. lia.
Qed.
Lemma rest_ok (a : arr A) axes : NoDup (rest (List.length (shape a)) axes) /\ Forall (fun k => (k < List.length (shape a))%nat) (rest (List.length (shape a)) axes).
Proof.
  split; [apply NoDup_filter, seq_NoDup|]. apply Forall_forall. intros k Hk. apply filter_In in Hk as [Hk _]. apply in_seq in Hk. lia.
Qed.
End Sum.
