From Coq Require Import Ascii String List Arith ZArith Bool Lia.
From Verif Require Import Comb CombSpec.
Import ListNotations.

(** ** induction on nested values *)
Section PyInd.
  Variable P : pyval -> Prop.
  Hypothesis HInt : forall z, P (PInt z).
  Hypothesis HObj : forall n, P (PObj n).
  Hypothesis HStr : forall s, P (PStr s).
  Hypothesis HBytes : forall b, P (PBytes b).
  Hypothesis HList : forall l, Forall P l -> P (PList l).
  Hypothesis HTuple : forall l, Forall P l -> P (PTuple l).
  Fixpoint pyval_ind2 (v : pyval) : P v :=
    let go := fix go (l : list pyval) : Forall P l :=
      match l with
      | [] => Forall_nil _
      | x :: xs => Forall_cons _ (pyval_ind2 x) (go xs)
      end in
    match v with
    | PInt z => HInt z
    | PObj n => HObj n
    | PStr s => HStr s
    | PBytes b => HBytes b
    | PList l => HList l (go l)
    | PTuple l => HTuple l (go l)
    end.
End PyInd.

Lemma concat_map_flat {A B} (f : A -> list B) l : concat (map f l) = flat_map f l.
Proof. induction l; simpl; congruence. Qed.

Lemma Forall2_map_r {A B} (P : A -> B -> Prop) (f : A -> B) l :
  Forall (fun x => P x (f x)) l -> Forall2 P l (map f l).
Proof. induction 1; simpl; constructor; auto. Qed.

Lemma concat_singletons {A} (l : list A) : concat (map (fun x => [x]) l) = l.
Proof. induction l; simpl; congruence. Qed.

Lemma leaves_flat_item v : leaves v (flat_item v).
Proof.
  induction v using pyval_ind2; simpl.
  1-3: apply leaf_self; intros l Hl; inversion Hl.
  - replace (map PInt b) with (concat (map (fun x => [x]) (map PInt b))) at 1
      by apply concat_singletons.
    eapply leaf_items; [constructor|].
    apply Forall2_map_r. apply Forall_forall. intros x Hx.
    apply in_map_iff in Hx. destruct Hx as [z [<- _]].
    apply leaf_self; intros l Hl; inversion Hl.
  - rewrite <- concat_map_flat. eapply leaf_items; [constructor|].
    now apply Forall2_map_r.
  - rewrite <- concat_map_flat. eapply leaf_items; [constructor|].
    now apply Forall2_map_r.
Qed.

Lemma items_of_fun v l1 l2 : items_of v l1 -> items_of v l2 -> l1 = l2.
Proof. intros H1 H2; inversion H1; subst; inversion H2; subst; reflexivity. Qed.

Lemma Forall2_fun_ind {A B} (P : A -> B -> Prop) l l1 l2 :
  Forall (fun x => forall y z, P x y -> P x z -> y = z) l ->
  Forall2 P l l1 -> Forall2 P l l2 -> l1 = l2.
Proof.
  intros HF. revert l1 l2.
  induction HF as [|x l Hx HF IH]; intros l1 l2 H1 H2.
  - inversion H1; inversion H2; reflexivity.
  - inversion H1; inversion H2; subst. f_equal; eauto.
Qed.

Lemma leaves_atom v l : (forall l, ~ items_of v l) -> leaves v l -> l = [v].
Proof. intros Hn H; inversion H; subst; [reflexivity|exfalso; eapply Hn; eauto]. Qed.

Lemma leaves_fun v l1 l2 : leaves v l1 -> leaves v l2 -> l1 = l2.
Proof.
  revert l1 l2. induction v using pyval_ind2; intros l1 l2 H1 H2.
  1-3: apply leaves_atom in H1; [|intros l Hl; inversion Hl];
       apply leaves_atom in H2; [congruence|intros l Hl; inversion Hl].
  - assert (E : forall l', leaves (PBytes b) l' -> l' = map PInt b).
    { intros l' Hl'. inversion Hl' as [? Hn|? cs lss Hi HF]; subst.
      - exfalso; eapply Hn; constructor.
      - inversion Hi; subst. clear -HF.
        rewrite <- (concat_singletons (map PInt b)) at 1. f_equal.
        remember (map PInt b) as cs. revert b Heqcs.
        induction HF; intros b Hb; destruct b; simpl in *; try discriminate; auto.
        injection Hb as -> ->. f_equal; [|eauto].
        apply leaves_atom in H; auto. intros l Hl; inversion Hl. }
    rewrite (E _ H1), (E _ H2); reflexivity.
  - inversion H1 as [? Hn|? cs lss Hi HF]; subst; [exfalso; eapply Hn; constructor|].
    inversion H2 as [? Hn|? cs2 lss2 Hi2 HF2]; subst; [exfalso; eapply Hn; constructor|].
    inversion Hi; inversion Hi2; subst. f_equal. eapply Forall2_fun_ind; eauto.
  - inversion H1 as [? Hn|? cs lss Hi HF]; subst; [exfalso; eapply Hn; constructor|].
    inversion H2 as [? Hn|? cs2 lss2 Hi2 HF2]; subst; [exfalso; eapply Hn; constructor|].
    inversion Hi; inversion Hi2; subst. f_equal. eapply Forall2_fun_ind; eauto.
Qed.

Lemma flatten_leaves seq l : flatten seq = l <-> leaves (PList seq) l.
Proof.
  split.
  - intros <-. apply (leaves_flat_item (PList seq)).
  - intros H. eapply leaves_fun; [apply (leaves_flat_item (PList seq))|exact H].
Qed.

Lemma flatten_app a b : flatten (a ++ b) = flatten a ++ flatten b.
Proof. unfold flatten. apply flat_map_app. Qed.

Lemma flat_item_not_seq v : Forall (fun x => is_seq x = false) (flat_item v).
Proof.
  induction v using pyval_ind2; simpl; auto.
  - apply Forall_forall. intros x Hx. apply in_map_iff in Hx. destruct Hx as [z [<- _]]. reflexivity.
  - induction H; simpl; [constructor|]. apply Forall_app; auto.
  - induction H; simpl; [constructor|]. apply Forall_app; auto.
Qed.

Lemma flatten_not_seq seq : Forall (fun x => is_seq x = false) (flatten seq).
Proof. apply (flat_item_not_seq (PList seq)). Qed.

Lemma flatten_flat seq : Forall (fun x => is_seq x = false) seq -> flatten seq = seq.
Proof.
  induction 1 as [|x l Hx _ IH]; [reflexivity|].
  unfold flatten in *. simpl. rewrite IH. destruct x; simpl in *; congruence.
Qed.

Lemma flatten_idem seq : flatten (flatten seq) = flatten seq.
Proof. apply flatten_flat, flatten_not_seq. Qed.

(** ** product *)
Definition prod_r {A} : list (list A) -> list (list A) :=
  fix go pools := match pools with
  | [] => [[]]
  | p :: ps => flat_map (fun y => map (cons y) (go ps)) p
  end.

Lemma flat_map_map {A B C} (f : B -> list C) (g : A -> B) l :
  flat_map f (map g l) = flat_map (fun x => f (g x)) l.
Proof. induction l; simpl; congruence. Qed.

Lemma flat_map_flat_map {A B C} (f : B -> list C) (g : A -> list B) l :
  flat_map f (flat_map g l) = flat_map (fun x => flat_map f (g x)) l.
Proof. induction l; simpl; auto. rewrite flat_map_app. congruence. Qed.

Lemma map_flat_map {A B C} (f : B -> C) (g : A -> list B) l :
  map f (flat_map g l) = flat_map (fun x => map f (g x)) l.
Proof. induction l; simpl; auto. rewrite map_app. congruence. Qed.

Lemma product_acc {A} (pools : list (list A)) acc :
  fold_left (fun result pool => flat_map (fun x => map (fun y => x ++ [y]) pool) result)
            pools acc
  = flat_map (fun x => map (fun t => x ++ t) (prod_r pools)) acc.
Proof.
  revert acc; induction pools as [|p ps IH]; intros acc.
  - simpl. induction acc as [|a acc IHa]; simpl; [reflexivity|]. rewrite app_nil_r. congruence.
  - cbn [fold_left]. rewrite IH, flat_map_flat_map. apply flat_map_ext. intros x.
    rewrite flat_map_map. cbn [prod_r]. rewrite map_flat_map. apply flat_map_ext. intros y.
    rewrite map_map. apply map_ext. intros t. rewrite <- app_assoc. reflexivity.
Qed.

Lemma product_prod_r {A} (pools : list (list A)) : product pools = prod_r pools.
Proof.
  unfold product. rewrite product_acc. simpl. rewrite app_nil_r.
  apply map_id.
Qed.

Lemma prod_r_length {A} (pools : list (list A)) :
  length (prod_r pools) = fold_right Nat.mul 1 (map (@length A) pools).
Proof.
  induction pools as [|p ps IH]; simpl; [reflexivity|].
  rewrite <- IH. induction p as [|y p IHp]; simpl; [reflexivity|].
  rewrite app_length, map_length, IHp. reflexivity.
Qed.

Lemma nth_error_flat_map_const {A B} (f : A -> list B) l n i j x y :
  (forall a, length (f a) = n) ->
  nth_error l i = Some x -> nth_error (f x) j = Some y ->
  nth_error (flat_map f l) (i * n + j) = Some y.
Proof.
  intros Hn. revert i; induction l as [|a l IH]; intros [|i] Hi Hj; simpl in *; try discriminate.
  - injection Hi as ->. rewrite nth_error_app1; auto.
    apply nth_error_Some. congruence.
  - rewrite nth_error_app2 by (rewrite Hn; lia).
    rewrite Hn. replace (n + i * n + j - n) with (i * n + j) by lia. auto.
Qed.

Lemma product_choice {A} (lists : list (list A)) ix tup :
  choice lists ix tup ->
  nth_error (product lists) (rank (map (@length A) lists) ix) = Some tup.
Proof.
  rewrite product_prod_r. revert ix tup.
  induction lists as [|p ps IH]; intros ix tup [H Hl].
  - destruct ix; [|discriminate]. inversion H; subst. reflexivity.
  - destruct ix as [|i ix]; [discriminate|]. simpl in H. inversion H; subst. simpl in *.
    eapply nth_error_flat_map_const with (f := fun y => map (cons y) (prod_r ps)).
    + intros a. rewrite map_length. apply prod_r_length.
    + eassumption.
    + erewrite map_nth_error; [reflexivity|]. apply IH. split; [assumption|lia].
Qed.

Lemma rank_bound lens ix :
  Forall2 lt ix lens -> rank lens ix < fold_right Nat.mul 1 lens.
Proof.
  induction 1 as [|i n ix lens Hi _ IH]; simpl; [lia|]. nia.
Qed.

Lemma rank_surj lens n :
  n < fold_right Nat.mul 1 lens -> exists ix, Forall2 lt ix lens /\ rank lens ix = n.
Proof.
  revert n; induction lens as [|m lens IH]; simpl; intros n Hn.
  - exists []. split; [constructor|]. lia.
  - set (p := fold_right Nat.mul 1 lens) in *.
    assert (Hp : p <> 0) by (intros E; rewrite E in Hn; lia).
    destruct (IH (n mod p)) as [ix [Hix Hr]]; [now apply Nat.mod_upper_bound|].
    exists (n / p :: ix). split.
    + constructor; [|assumption]. apply Nat.div_lt_upper_bound; lia.
    + simpl. fold p. rewrite Hr. pose proof (Nat.div_mod n p Hp). lia.
Qed.

Lemma rank_inj lens ix ix' :
  Forall2 lt ix lens -> Forall2 lt ix' lens -> rank lens ix = rank lens ix' -> ix = ix'.
Proof.
  intros H; revert ix'. induction H as [|i n ix lens Hi Hix IH]; intros ix' H' E.
  - inversion H'; reflexivity.
  - inversion H' as [|i' n' ix2 ? Hi' Hix2]; subst. simpl in E.
    pose proof (rank_bound _ _ Hix). pose proof (rank_bound _ _ Hix2).
    set (p := fold_right Nat.mul 1 lens) in *.
    assert (i = i') by nia. subst. f_equal. apply IH; [assumption|lia].
Qed.

(** the complete statement about nested_loops without flattening *)
Lemma nested_loops_nth lists flat n :
  nth_error (nested_loops lists flat) n =
  option_map (fun tup => ensure_list (if flat then PList (flatten tup) else PTuple tup))
             (nth_error (product lists) n).
Proof.
  unfold nested_loops. destruct flat; rewrite map_map; rewrite nth_error_map; reflexivity.
Qed.

Lemma choice_bound {A} (lists : list (list A)) ix tup :
  choice lists ix tup -> Forall2 lt ix (map (@length A) lists).
Proof.
  revert ix tup. induction lists as [|p ps IH]; intros ix tup [H Hl].
  - destruct ix; [constructor|discriminate].
  - destruct ix as [|i ix]; [discriminate|]. simpl in H. inversion H; subst. simpl in *.
    constructor.
    + apply nth_error_Some. congruence.
    + eapply IH. split; [eassumption|lia].
Qed.

Lemma choice_exists {A} (lists : list (list A)) ix :
  Forall2 lt ix (map (@length A) lists) -> exists tup, choice lists ix tup.
Proof.
  revert ix; induction lists as [|p ps IH]; intros ix H; inversion H; subst.
  - exists []. split; [constructor|reflexivity].
  - destruct (IH _ H4) as [t [Ht Hl]].
    destruct (nth_error p x) as [a|] eqn:E.
    + exists (a :: t). split; [|simpl; lia]. simpl. constructor; assumption.
    + apply nth_error_None in E. lia.
Qed.

Lemma nested_loops_length lists flat :
  length (nested_loops lists flat) = fold_right Nat.mul 1 (map (@length pyval) lists).
Proof.
  unfold nested_loops. destruct flat; rewrite map_length, map_length, product_prod_r; apply prod_r_length.
Qed.

Lemma nested_loops_choice lists flat ix tup :
  choice lists ix tup ->
  nth_error (nested_loops lists flat) (rank (map (@length pyval) lists) ix)
  = Some (ensure_list (if flat then PList (flatten tup) else PTuple tup)).
Proof. intros H. rewrite nested_loops_nth, (product_choice _ _ _ H). reflexivity. Qed.

(** ** ensure_list *)
Lemma ensure_list_flat v : is_seq v = true -> exists l, ensure_list v = PList l.
Proof. destruct v; simpl; try discriminate; eauto. Qed.

(** ** unique2d *)
Lemma row_eqb_spec a b : row_eqb a b = true <-> a = b.
Proof. unfold row_eqb. destruct (list_eq_dec Z.eq_dec a b); split; congruence. Qed.

Lemma existsb_row row u : existsb (row_eqb row) u = true <-> In row u.
Proof.
  rewrite existsb_exists. split.
  - intros [x [Hx E]]. apply row_eqb_spec in E. now subst.
  - intros H. exists row. split; [assumption|now apply row_eqb_spec].
Qed.

Lemma increasing_app idx i : increasing idx -> Forall (fun j => j < i) idx -> increasing (idx ++ [i]).
Proof.
  induction idx as [|a idx IH]; simpl; intros Hi Hf; [auto|].
  destruct Hi as [Ha Hi]. inversion Hf; subst. split; [|auto].
  apply Forall_app; auto.
Qed.

Definition uniq_inv (pre uniq : list (list Z)) : Prop :=
  (exists idx, increasing idx /\ (forall i, In i idx <-> first_occ pre i) /\ picks pre idx uniq).

Lemma picks_In {A} (l : list A) idx l' x :
  picks l idx l' -> (In x l' <-> exists i, In i idx /\ nth_error l i = Some x).
Proof.
  induction 1 as [|i y idx l' Hi _ IH]; simpl.
  - split; [tauto|]. intros [i [[] _]].
  - rewrite IH. split.
    + intros [->|[j [Hj E]]]; eauto.
    + intros [j [[->|Hj] E]]; [left; congruence|right; eauto].
Qed.

Lemma picks_snoc_l {A} (l l2 : list A) idx l' :
  picks l idx l' -> picks (l ++ l2) idx l'.
Proof.
  induction 1; constructor; auto. rewrite nth_error_app1; auto. apply nth_error_Some; congruence.
Qed.

(** every value has a first occurrence *)
Lemma In_first_occ {A} (dec : forall a b : A, {a = b} + {a <> b}) (l : list A) x :
  In x l -> exists i, first_occ l i /\ nth_error l i = Some x.
Proof.
  induction l as [|a l IH]; simpl; [tauto|]. intros H.
  destruct (dec a x) as [->|Hne].
  - exists 0. split; [split; simpl; [lia|intros j Hj; lia]|reflexivity].
  - destruct H as [H|H]; [congruence|]. destruct (IH H) as [i [[Hlt Hf] E]].
    exists (S i). split; [|exact E]. split; [simpl; lia|].
    intros [|j] Hj; simpl.
    + rewrite E. congruence.
    + apply Hf. lia.
Qed.

Lemma first_occ_snoc {A} (l : list A) x i :
  first_occ (l ++ [x]) i <-> first_occ l i \/ (i = length l /\ ~ In x l).
Proof.
  unfold first_occ. rewrite app_length. simpl. split.
  - intros [Hlt Hf]. destruct (Nat.eq_dec i (length l)) as [->|Hne].
    + right. split; [reflexivity|]. intros Hin. apply In_nth_error in Hin. destruct Hin as [j Hj].
      assert (j < length l) by (apply nth_error_Some; congruence).
      apply (Hf j); [assumption|]. rewrite nth_error_app1 by assumption.
      rewrite nth_error_app2, Nat.sub_diag by lia. exact Hj.
    + left. split; [lia|]. intros j Hj E. apply (Hf j Hj). rewrite !nth_error_app1 by lia. exact E.
  - intros [[Hlt Hf]|[-> Hn]]; split; try lia.
    + intros j Hj. rewrite !nth_error_app1 by lia. auto.
    + intros j Hj. rewrite nth_error_app1, nth_error_app2, Nat.sub_diag by lia. simpl.
      intros E. apply Hn. eapply nth_error_In; eauto.
Qed.

Lemma uniq_inv_step pre uniq row :
  uniq_inv pre uniq -> uniq_inv (pre ++ [row]) (uniq_step uniq row).
Proof.
  intros [idx [Hinc [Hidx Hp]]]. unfold uniq_step.
  assert (Hin : In row uniq <-> In row pre).
  { rewrite (picks_In _ _ _ _ Hp). split.
    - intros [i [_ E]]. eapply nth_error_In; eauto.
    - intros H. destruct (In_first_occ (list_eq_dec Z.eq_dec) _ _ H) as [i [Hf E]].
      exists i. split; [now apply Hidx|assumption]. }
  destruct (existsb (row_eqb row) uniq) eqn:E.
  - apply existsb_row in E. exists idx. split; [assumption|]. split; [|now apply picks_snoc_l].
    intros i; split.
    + intros Hi. apply first_occ_snoc. left. now apply Hidx.
    + intros i0. apply first_occ_snoc in i0. destruct i0 as [H|[_ H]]; [now apply Hidx|].
      exfalso; apply H, Hin, E.
  - assert (Hn : ~ In row uniq).
    { intros H. apply existsb_row in H. congruence. }
    exists (idx ++ [length pre]). split; [|split; [intros i; split|]].
    + apply increasing_app; [assumption|]. apply Forall_forall. intros i Hi.
      apply Hidx in Hi. apply Hi.
    + intros Hi. apply first_occ_snoc. apply in_app_or in Hi. destruct Hi as [Hi|[<-|[]]].
      * left. now apply Hidx.
      * right. split; [reflexivity|]. rewrite <- Hin. exact Hn.
    + intros Hi. apply first_occ_snoc in Hi. apply in_or_app. destruct Hi as [H|[-> _]].
      * left. now apply Hidx.
      * right. simpl. auto.
    + apply Forall2_app; [now apply picks_snoc_l|]. constructor; [|constructor].
      rewrite nth_error_app2, Nat.sub_diag by lia. reflexivity.
Qed.

Lemma uniq_fold pre uniq l :
  uniq_inv pre uniq -> uniq_inv (pre ++ l) (fold_left uniq_step l uniq).
Proof.
  revert pre uniq. induction l as [|r l IH]; simpl; intros pre uniq H.
  - now rewrite app_nil_r.
  - replace (pre ++ r :: l) with ((pre ++ [r]) ++ l) by now rewrite <- app_assoc.
    apply IH, uniq_inv_step, H.
Qed.

Lemma unique2d_spec arr :
  arr <> [] ->
  exists u idx, unique2d arr = Some u /\ increasing idx /\
    (forall i, In i idx <-> first_occ arr i) /\ picks arr idx u.
Proof.
  destruct arr as [|r0 rest]; [congruence|]. intros _. simpl.
  assert (E : uniq_step [r0] r0 = [r0]).
  { unfold uniq_step. replace (existsb (row_eqb r0) [r0]) with true; [reflexivity|].
    symmetry. apply existsb_row. simpl; auto. }
  rewrite E.
  assert (H : uniq_inv [r0] [r0]).
  { exists [0]. repeat split; simpl; auto.
    - destruct H as [<-|[]]. lia.
    - intros j Hj. destruct H as [<-|[]]. lia.
    - intros [Hl _]. simpl in Hl. left. lia.
    - constructor; [reflexivity|constructor]. }
  destruct (uniq_fold _ _ rest H) as [idx [H1 [H2 H3]]].
  exists (fold_left uniq_step rest [r0]), idx. auto.
Qed.

Lemma picks_fun {A} (l : list A) idx a b : picks l idx a -> picks l idx b -> a = b.
Proof.
  intros H. revert b. induction H; intros b Hb; inversion Hb; subst; [reflexivity|].
  f_equal; [congruence|auto].
Qed.

Lemma increasing_unique a b :
  increasing a -> increasing b -> (forall i, In i a <-> In i b) -> a = b.
Proof.
  revert b. induction a as [|x a IH]; intros [|y b] Ha Hb H.
  - reflexivity.
  - exfalso. apply (H y). simpl; auto.
  - exfalso. apply (H x). simpl; auto.
  - simpl in *. destruct Ha as [Hxa Ha], Hb as [Hyb Hb].
    rewrite Forall_forall in Hxa, Hyb.
    assert (x = y).
    { destruct (proj1 (H x) (or_introl eq_refl)) as [?|Hx]; [congruence|].
      destruct (proj2 (H y) (or_introl eq_refl)) as [?|Hy]; [congruence|].
      specialize (Hyb _ Hx). specialize (Hxa _ Hy). lia. }
    subst y. f_equal. apply IH; auto. intros i. split; intros Hi.
    + destruct (proj1 (H i) (or_intror Hi)) as [->|]; auto. specialize (Hxa _ Hi); lia.
    + destruct (proj2 (H i) (or_intror Hi)) as [->|]; auto. specialize (Hyb _ Hi); lia.
Qed.

Lemma unique2d_distinct arr u : unique2d arr = Some u -> NoDup u /\ (forall r, In r u <-> In r arr).
Proof.
  intros H. assert (Hne : arr <> []) by (destruct arr; [discriminate|congruence]).
  destruct (unique2d_spec arr Hne) as [u' [idx [E [Hi [Hf Hp]]]]].
  rewrite E in H; injection H as ->. split.
  - assert (Hall : forall i, In i idx -> first_occ arr i) by (intros; now apply Hf).
    clear -Hp Hi Hall. induction Hp as [|i x idx u Hx Hp IH]; [constructor|].
    simpl in Hi. destruct Hi as [Hlt Hi]. constructor.
    + intros Hin. destruct (proj1 (picks_In _ _ _ x Hp) Hin) as [j [Hj E]].
      rewrite Forall_forall in Hlt. specialize (Hlt _ Hj).
      destruct (Hall j (or_intror Hj)) as [_ Hfo]. apply (Hfo i Hlt). congruence.
    + apply IH; auto. intros j Hj. apply Hall. simpl; auto.
  - intros r. rewrite (picks_In _ _ _ r Hp). split.
    + intros [i [_ E']]. eapply nth_error_In; eauto.
    + intros Hr. destruct (In_first_occ (list_eq_dec Z.eq_dec) _ _ Hr) as [i [Hfo E']].
      exists i. split; [now apply Hf|assumption].
Qed.

Lemma uniq_nodup_fold pre l :
  NoDup (pre ++ l) -> fold_left uniq_step l pre = pre ++ l.
Proof.
  revert pre. induction l as [|r l IH]; simpl; intros pre H; [now rewrite app_nil_r|].
  unfold uniq_step at 2. destruct (existsb (row_eqb r) pre) eqn:E.
  - apply existsb_row in E. apply NoDup_remove in H. exfalso. apply H. apply in_or_app; auto.
  - rewrite IH; rewrite <- app_assoc; [reflexivity|exact H].
Qed.

Lemma unique2d_idem arr u : unique2d arr = Some u -> unique2d u = Some u.
Proof.
  intros H. pose proof (unique2d_distinct _ _ H) as [Hn Hin].
  destruct u as [|r u].
  - exfalso. destruct arr as [|r arr]; [discriminate|]. apply (Hin r). simpl; auto.
  - simpl. f_equal.
    assert (E : uniq_step [r] r = [r]).
    { unfold uniq_step. replace (existsb (row_eqb r) [r]) with true; [reflexivity|].
      symmetry. apply existsb_row. simpl; auto. }
    rewrite E. apply (uniq_nodup_fold [r] u Hn).
Qed.

(** column version *)
Lemma transpose_length n arr : length (transpose n arr) = n.
Proof. unfold transpose. now rewrite map_length, seq_length. Qed.

Lemma nth_transpose n arr j :
  j < n -> nth_error (transpose n arr) j = Some (map (fun row => nth j row 0%Z) arr).
Proof.
  intros H. unfold transpose. rewrite nth_error_map.
  rewrite (nth_error_nth' _ 0) by (now rewrite seq_length).
  rewrite seq_nth by assumption. reflexivity.
Qed.

(** ** pop_from_list *)
Section PopProofs.
  Context {A : Type} (dec : forall a b : A, {a = b} + {a <> b}).
  Let eqb a b := if dec a b then true else false.
  Notation count := (count_occ dec).

  (** keep the elements of [l] that come after the first [k x] occurrences of
      their value, where [seen x] occurrences came before. *)
  Fixpoint drop_firsts (k : A -> nat) (l : list A) : list A :=
    match l with
    | [] => []
    | x :: xs => match k x with
                 | O => x :: drop_firsts k xs
                 | S n => drop_firsts (fun y => if dec y x then n else k y) xs
                 end
    end.

  Lemma drop_firsts_ext k1 k2 l : (forall x, k1 x = k2 x) -> drop_firsts k1 l = drop_firsts k2 l.
  Proof.
    revert k1 k2; induction l as [|x l IH]; simpl; intros k1 k2 H; [reflexivity|].
    rewrite <- (H x). destruct (k1 x); [f_equal; auto|].
    apply IH. intros y. destruct (dec y x); auto.
  Qed.

  Lemma drop_firsts_0 l : drop_firsts (fun _ => 0) l = l.
  Proof. induction l; simpl; congruence. Qed.

  Lemma pop_index_drop it l r k :
    pop_index eqb it l = Some r ->
    drop_firsts (fun y => if dec y it then S (k it) else k y) l = drop_firsts k r.
  Proof.
    revert r k; induction l as [|x l IH]; simpl; intros r k H; [discriminate|].
    unfold eqb in H at 1. destruct (dec x it) as [->|Hne].
    - injection H as <-. apply drop_firsts_ext. intros y. destruct (dec y it); subst; auto.
    - destruct (pop_index eqb it l) as [r'|] eqn:E; [|discriminate]. injection H as <-. simpl.
      destruct (k x) as [|n] eqn:Ek.
      + f_equal. auto.
      + rewrite <- (IH r' (fun y => if dec y x then n else k y) eq_refl).
        apply drop_firsts_ext. intros y.
        destruct (dec y x); destruct (dec it x); destruct (dec y it); destruct (dec x it);
          congruence.
  Qed.

  Lemma pop_index_Some it l : (exists r, pop_index eqb it l = Some r) <-> In it l.
  Proof.
    induction l as [|x l IH]; simpl.
    - split; [intros [r H]; discriminate|tauto].
    - unfold eqb at 1. destruct (dec x it) as [->|Hne].
      + split; eauto.
      + destruct (pop_index eqb it l) as [r'|].
        * split; [|eauto]. intros _. right. apply IH. eauto.
        * split; [intros [r H]; discriminate|]. intros [?|H]; [congruence|].
          apply IH in H. destruct H; discriminate.
  Qed.

  Lemma pop_index_count it l r x :
    pop_index eqb it l = Some r ->
    count l x = count r x + (if dec it x then 1 else 0).
  Proof.
    revert r; induction l as [|y l IH]; simpl; intros r H; [discriminate|].
    unfold eqb in H at 1. destruct (dec y it) as [->|Hne].
    - injection H as <-. destruct (dec it x); lia.
    - destruct (pop_index eqb it l) as [r'|]; [|discriminate]. injection H as <-. simpl.
      rewrite (IH r' eq_refl). destruct (dec y x); lia.
  Qed.

  Lemma pop_from_list_spec lst items :
    (forall x, count items x <= count lst x) ->
    pop_from_list eqb lst items = Some (drop_firsts (count items) lst).
  Proof.
    revert lst; induction items as [|it its IH]; simpl; intros lst H.
    - now rewrite drop_firsts_0.
    - assert (Hin : In it lst).
      { apply (count_occ_In dec). specialize (H it). destruct (dec it it); [lia|congruence]. }
      apply pop_index_Some in Hin. destruct Hin as [r Hr]. rewrite Hr.
      rewrite IH.
      + f_equal. rewrite <- (pop_index_drop _ _ _ (count its) Hr). apply drop_firsts_ext.
        intros y. destruct (dec it y); destruct (dec y it); congruence.
      + intros x. specialize (H x). rewrite (pop_index_count _ _ _ x Hr) in H.
        destruct (dec it x); lia.
  Qed.

  Lemma drop_firsts_picks k l :
    exists idx, increasing idx /\
      (forall i, In i idx <-> exists x, nth_error l i = Some x /\ k x <= count (firstn i l) x) /\
      picks l idx (drop_firsts k l).
  Proof.
    revert k; induction l as [|x l IH]; intros k.
    - exists []. split; [exact I|]. split; [|constructor].
      intros i; split; [intros []|]. intros [x [H _]]. destruct i; discriminate.
    - assert (Hshift : forall idx l', picks l idx l' -> picks (x :: l) (map S idx) l').
      { induction 1; constructor; auto. }
      assert (Hinc : forall idx, increasing idx -> increasing (map S idx)).
      { induction idx as [|a idx IHi]; simpl; [auto|]. intros [Ha Hi]. split; [|auto].
        apply Forall_map. eapply Forall_impl; [|exact Ha]. simpl; intros; lia. }
      simpl. destruct (k x) as [|n] eqn:Ek.
      + destruct (IH k) as [idx [H1 [H2 H3]]]. exists (0 :: map S idx). split; [|split].
        * simpl. split; [|auto]. apply Forall_map, Forall_forall. intros; lia.
        * intros [|i]; simpl.
          -- split; [|auto]. intros _. exists x. split; [reflexivity|lia].
          -- rewrite in_map_iff. split.
             ++ intros [|[j [Ej Hj]]]; [discriminate|]. injection Ej as ->.
                apply H2 in Hj. destruct Hj as [y [Hy Hc]]. exists y. split; [assumption|].
                destruct (dec x y); lia.
             ++ intros [y [Hy Hc]]. right. exists i. split; [reflexivity|]. apply H2.
                exists y. split; [assumption|]. destruct (dec x y); subst; lia.
        * apply Forall2_cons; [reflexivity|apply Hshift, H3].
      + destruct (IH (fun y => if dec y x then n else k y)) as [idx [H1 [H2 H3]]].
        exists (map S idx). split; [auto|]. split; [|auto].
        intros [|i]; simpl.
        * rewrite in_map_iff. split.
          -- intros [j [? _]]; discriminate.
          -- intros [y [Hy Hc]]. injection Hy as <-. lia.
        * rewrite in_map_iff. split.
          -- intros [j [Ej Hj]]. injection Ej as ->. apply H2 in Hj. destruct Hj as [y [Hy Hc]].
             exists y. split; [assumption|]. destruct (dec y x), (dec x y); subst; try congruence; lia.
          -- intros [y [Hy Hc]]. exists i. split; [reflexivity|]. apply H2. exists y.
             split; [assumption|]. destruct (dec y x), (dec x y); subst; try congruence; lia.
  Qed.

  Lemma pop_from_list_positions lst items :
    (forall x, count items x <= count lst x) ->
    exists r idx, pop_from_list eqb lst items = Some r /\ increasing idx /\
      (forall i, In i idx <-> exists x, nth_error lst i = Some x /\
                                        count items x <= count (firstn i lst) x) /\
      picks lst idx r.
  Proof.
    intros H. destruct (drop_firsts_picks (count items) lst) as [idx [H1 [H2 H3]]].
    exists (drop_firsts (count items) lst), idx. rewrite (pop_from_list_spec _ _ H). auto.
  Qed.

  Lemma pop_from_list_None lst items x :
    count lst x < count items x -> pop_from_list eqb lst items = None.
  Proof.
    revert lst; induction items as [|it its IH]; simpl; intros lst H; [lia|].
    destruct (pop_index eqb it lst) as [r|] eqn:E; [|reflexivity].
    apply IH. pose proof (pop_index_count _ _ _ x E). destruct (dec it x); lia.
  Qed.
End PopProofs.

(** ** split and join *)
Lemma is_prefix_app p s : is_prefix p (p ++ s) = true.
Proof. induction p; simpl; [reflexivity|]. now rewrite Ascii.eqb_refl. Qed.

Lemma is_prefix_spec p s : is_prefix p s = true <-> exists t, s = p ++ t.
Proof.
  revert s; induction p as [|a p IH]; simpl; intros s; [split; eauto|].
  destruct s as [|b s]; [split; [discriminate|intros [t H]; discriminate]|].
  rewrite andb_true_iff, Ascii.eqb_eq, IH. split.
  - intros [-> [t ->]]. eauto.
  - intros [t H]. injection H as -> ->. eauto.
Qed.

Lemma split_aux_item c acc x s fuel :
  ~ In c x -> length x + S (length s) <= fuel ->
  split_aux fuel [c] acc (x ++ c :: s) =
  (acc ++ x) :: split_aux (fuel - S (length x)) [c] [] s.
Proof.
  revert acc fuel; induction x as [|a x IH]; simpl; intros acc fuel Hn Hf.
  - destruct fuel; [lia|]. simpl. rewrite Ascii.eqb_refl. simpl.
    rewrite app_nil_r, Nat.sub_0_r. reflexivity.
  - destruct fuel; [lia|]. simpl.
    destruct (Ascii.eqb_spec c a) as [->|Hne]; [tauto|]. simpl.
    rewrite IH by (tauto || lia). rewrite <- app_assoc. reflexivity.
Qed.

Lemma split_aux_last c acc x fuel :
  ~ In c x -> length x < fuel -> split_aux fuel [c] acc x = [acc ++ x].
Proof.
  revert acc fuel; induction x as [|a x IH]; simpl; intros acc fuel Hn Hf.
  - destruct fuel; [lia|]. simpl. now rewrite app_nil_r.
  - destruct fuel; [lia|]. simpl.
    destruct (Ascii.eqb_spec c a) as [->|Hne]; [tauto|]. simpl.
    rewrite IH by (tauto || lia). rewrite <- app_assoc. reflexivity.
Qed.

Lemma split_join c items fuel :
  items <> [] -> Forall (fun x => ~ In c x) items ->
  length (join [c] items) < fuel ->
  split_aux fuel [c] [] (join [c] items) = items.
Proof.
  intros Hne HF. revert fuel. induction HF as [|x xs Hx HF IH]; [congruence|].
  intros fuel Hf. destruct xs as [|y ys].
  - simpl in *. now apply split_aux_last.
  - change (join [c] (x :: y :: ys)) with (x ++ c :: join [c] (y :: ys)) in *.
    rewrite app_length in Hf. cbn [length] in Hf.
    rewrite split_aux_item by (assumption || lia).
    rewrite IH by (congruence || lia). reflexivity.
Qed.

Lemma str2seq_seq2str c items :
  items <> [] -> Forall (fun x => ~ In c x) items ->
  str2seq (seq2str items [c]) (Some [c]) = Some items.
Proof.
  intros H1 H2. unfold str2seq, seq2str, split_sep. f_equal. apply split_join; auto.
Qed.

Lemma split_ws_item acc x c s :
  Forall (fun a => is_space a = false) x -> is_space c = true -> acc ++ x <> [] ->
  split_ws acc (x ++ c :: s) = (acc ++ x) :: split_ws [] s.
Proof.
  intros H Hc. revert acc. induction H as [|a x Ha H IH]; simpl; intros acc Hne.
  - rewrite Hc. destruct acc; [now elim Hne|]. now rewrite app_nil_r.
  - rewrite Ha, IH; rewrite <- app_assoc; simpl; [reflexivity|assumption].
Qed.

Lemma split_ws_last acc x :
  Forall (fun a => is_space a = false) x -> acc ++ x <> [] -> split_ws acc x = [acc ++ x].
Proof.
  intros H. revert acc. induction H as [|a x Ha H IH]; simpl; intros acc Hne.
  - destruct acc; [now elim Hne|]. now rewrite app_nil_r.
  - rewrite Ha, IH; rewrite <- app_assoc; simpl; [reflexivity|assumption].
Qed.

(** The default arguments: seq2str joins by one blank, str2seq splits at
    whitespace. *)
Lemma str2seq_seq2str_default items :
  Forall (fun x => x <> [] /\ Forall (fun a => is_space a = false) x) items ->
  str2seq (seq2str items [" "%char]) None = Some items.
Proof.
  intros H. unfold str2seq, seq2str. f_equal.
  induction H as [|x xs [Hx1 Hx2] H IH]; [reflexivity|].
  destruct xs as [|y ys].
  - simpl. now rewrite split_ws_last.
  - change (join [" "%char] (x :: y :: ys)) with (x ++ " "%char :: join [" "%char] (y :: ys)).
    rewrite split_ws_item by (assumption || reflexivity). simpl app. f_equal. exact IH.
Qed.

(** ** unique2d, columns *)
Lemma map_nth_seq' {B} (l : list (list Z)) (f : list Z -> B) :
  map (fun i => f (nth i l [])) (seq 0 (length l)) = map f l.
Proof.
  induction l as [|x l IH]; [reflexivity|].
  cbn [length seq map]. f_equal. rewrite <- seq_shift, map_map. exact IH.
Qed.

Lemma unique2d_col_spec n arr :
  0 < n ->
  exists r idx, unique2d_col n arr = Some r /\ increasing idx /\
    (forall j, In j idx <-> j < n /\ forall k, k < j -> column arr k <> column arr j) /\
    r = map (fun row => map (fun j => nth j row 0%Z) idx) arr.
Proof.
  intros Hn. unfold unique2d_col.
  destruct (unique2d_spec (transpose n arr)) as [u [idx [E [Hi [Hf Hp]]]]].
  { intros E. pose proof (transpose_length n arr) as H. rewrite E in H. simpl in H. lia. }
  rewrite E. exists (transpose (length arr) u), idx. split; [reflexivity|]. split; [assumption|].
  assert (Hfo : forall j, In j idx <-> j < n /\ forall k, k < j -> column arr k <> column arr j).
  { intros j. rewrite Hf. unfold first_occ. rewrite transpose_length. split; intros [H1 H2]; split; auto.
    - intros k Hk Heq. apply (H2 k Hk). rewrite !nth_transpose by lia. now f_equal.
    - intros k Hk Heq. apply (H2 k Hk). rewrite !nth_transpose in Heq by lia. now injection Heq. }
  split; [exact Hfo|].
  assert (Eu : u = map (fun j => column arr j) idx).
  { assert (Hb : Forall (fun j => j < n) idx) by (apply Forall_forall; intros j Hj; now apply Hfo).
    clear -Hp Hb. induction Hp as [|j x idx u Hx Hp IH]; [reflexivity|]. inversion Hb; subst. simpl.
    f_equal; [|auto]. rewrite nth_transpose in Hx by assumption. now injection Hx. }
  subst u. unfold transpose. clear.
  set (f := fun row : list Z => map (fun j => nth j row 0%Z) idx).
  rewrite <- (map_nth_seq' arr f). apply map_ext_in. intros i Hi. apply in_seq in Hi.
  rewrite map_map. unfold f. apply map_ext. intros j. unfold column.
  rewrite (nth_indep _ 0%Z (nth j [] 0%Z)) by (rewrite map_length; lia).
  apply (map_nth (fun row => nth j row 0%Z)).
Qed.

(** ** packaged statements *)
Lemma choice_fun {A} (lists : list (list A)) ix t1 t2 :
  choice lists ix t1 -> choice lists ix t2 -> t1 = t2.
Proof.
  intros [H1 _] [H2 _]. revert H1 H2. generalize (combine lists ix). intros l H1. revert t2.
  induction H1 as [|p x l t1 Hp H1 IH]; intros t2 H2; inversion H2 as [|? x2 ? t Hx2 Ht]; subst;
    [reflexivity|].
  f_equal; [|auto]. rewrite Hp in Hx2. now injection Hx2.
Qed.

Lemma nested_loops_enumerates (lists : list (list pyval)) :
  let lens := map (@length pyval) lists in
  length (nested_loops lists false) = fold_right Nat.mul 1 lens
  /\ (forall ix tup, choice lists ix tup ->
        nth_error (nested_loops lists false) (rank lens ix)
        = Some (PList (map ensure_list tup)))
  /\ (forall n, n < length (nested_loops lists false) ->
        exists ix tup, choice lists ix tup /\ rank lens ix = n
          /\ forall ix' tup', choice lists ix' tup' -> rank lens ix' = n -> ix' = ix /\ tup' = tup).
Proof.
  intros lens. split; [apply nested_loops_length|]. split.
  - intros ix tup H. rewrite (nested_loops_choice _ _ _ _ H). reflexivity.
  - intros n Hn. rewrite nested_loops_length in Hn.
    destruct (rank_surj _ _ Hn) as [ix [Hix Hr]].
    destruct (choice_exists _ _ Hix) as [tup Ht].
    exists ix, tup. split; [assumption|]. split; [exact Hr|].
    intros ix' tup' Ht' Hr'.
    assert (ix' = ix).
    { eapply rank_inj; [eapply choice_bound; eassumption|eassumption|]. fold lens in Hr; fold lens. congruence. }
    subst ix'. split; [reflexivity|]. eapply choice_fun; eassumption.
Qed.

Lemma ensure_list_atoms l : Forall (fun x => is_seq x = false) l -> map ensure_list l = l.
Proof.
  induction 1 as [|x l Hx _ IH]; simpl; [reflexivity|]. f_equal; [|assumption].
  destruct x; simpl in *; congruence.
Qed.

Lemma nested_loops_flat_spec (lists : list (list pyval)) :
  let lens := map (@length pyval) lists in
  length (nested_loops lists true) = fold_right Nat.mul 1 lens
  /\ forall ix tup, choice lists ix tup ->
       exists lv, leaves (PTuple tup) lv
       /\ nth_error (nested_loops lists true) (rank lens ix) = Some (PList lv).
Proof.
  intros lens. split; [apply nested_loops_length|]. intros ix tup H.
  exists (flatten tup). split; [apply (leaves_flat_item (PTuple tup))|].
  rewrite (nested_loops_choice _ _ _ _ H). simpl. f_equal. f_equal.
  apply ensure_list_atoms, flatten_not_seq.
Qed.

Lemma flat_item_ensure v : flat_item (ensure_list v) = flat_item v.
Proof.
  induction v using pyval_ind2; simpl; auto.
  - induction b as [|z b IH]; simpl; [reflexivity|]. now f_equal.
  - rewrite flat_map_map. induction H as [|x l Hx _ IH]; simpl; [reflexivity|]. now rewrite Hx, IH.
  - rewrite flat_map_map. induction H as [|x l Hx _ IH]; simpl; [reflexivity|]. now rewrite Hx, IH.
Qed.

Lemma leaves_iff v l : leaves v l <-> flat_item v = l.
Proof.
  split; [|intros <-; apply leaves_flat_item].
  intros H. eapply leaves_fun; [apply leaves_flat_item|exact H].
Qed.

Lemma ensure_list_leaves v l : leaves v l <-> leaves (ensure_list v) l.
Proof. rewrite !leaves_iff, flat_item_ensure. tauto. Qed.

Lemma not_seq_iff v : is_seq v = false <-> forall l, ~ items_of v l.
Proof.
  split.
  - intros H l Hl. destruct v; simpl in H; try discriminate; inversion Hl.
  - intros H. destruct v; simpl; auto; exfalso; eapply H; constructor.
Qed.

Lemma flatten_flat_items seq : (forall v l, In v seq -> ~ items_of v l) -> flatten seq = seq.
Proof.
  intros H. apply flatten_flat, Forall_forall. intros v Hv. apply not_seq_iff. eauto.
Qed.

Lemma flatten_result_flat seq v l : In v (flatten seq) -> ~ items_of v l.
Proof.
  intros H. apply not_seq_iff. pose proof (flatten_not_seq seq) as HF.
  rewrite Forall_forall in HF. auto.
Qed.

Lemma pop_from_list_count {A} (dec : forall a b : A, {a = b} + {a <> b}) lst items r x :
  pop_from_list (fun a b => if dec a b then true else false) lst items = Some r ->
  count_occ dec lst x = count_occ dec r x + count_occ dec items x.
Proof.
  revert lst; induction items as [|it its IH]; simpl; intros lst H.
  - injection H as ->. lia.
  - destruct (pop_index _ it lst) as [l'|] eqn:E; [|discriminate].
    rewrite (pop_index_count dec _ _ _ x E), (IH _ H). destruct (dec it x); lia.
Qed.

Lemma multichar_refuted :
  exists sep items, items <> [] /\ sep <> []
    /\ (forall x, In x items -> forall a b, x <> a ++ sep ++ b)
    /\ str2seq (seq2str items sep) (Some sep) <> Some items.
Proof.
  exists ["a"; "a"]%char, [["a"]; ["b"]]%char. repeat split; try discriminate.
  intros x [<-|[<-|[]]] a b E; destruct a as [|? [|? ?]]; discriminate.
Qed.

Lemma empty_sequence c : str2seq (seq2str [] [c]) (Some [c]) = Some [[]].
Proof. reflexivity. Qed.

(** ** Splitting any text *)
Lemma split_aux_text sep : sep <> [] -> forall fuel acc s, length s < fuel ->
  (forall a b, acc ++ s = a ++ sep ++ b -> length acc <= length a) ->
  join sep (split_aux fuel sep acc s) = acc ++ s /\ split_aux fuel sep acc s <> [] /\
  forall x, In x (split_aux fuel sep acc s) -> forall a b, x <> a ++ sep ++ b.
Proof.
  intros NE. assert (JC : forall x l, l <> [] -> join sep (x :: l) = x ++ sep ++ join sep l) by (intros x [|y l]; [congruence|reflexivity]).
  induction fuel as [|fuel IH]; intros acc s Hf Hacc; [lia|]. cbn [split_aux].
  destruct (is_prefix sep s) eqn:P.
  - apply is_prefix_spec in P. destruct P as [t ->]. rewrite skipn_app, skipn_all, Nat.sub_diag. cbn [app skipn].
    assert (L : length t < fuel). { rewrite app_length in Hf. destruct sep; [congruence|]. cbn in Hf. lia. }
    destruct (IH [] t L) as (J & N & X); [cbn; lia|]. split; [rewrite JC by exact N; rewrite J; reflexivity|]. split; [discriminate|].
    intros x [<-|Hx]; [|apply X; exact Hx]. intros a b E. subst acc.
    specialize (Hacc a (b ++ sep ++ t)). rewrite <- !app_assoc in Hacc. specialize (Hacc eq_refl). rewrite !app_length in Hacc. destruct sep; [congruence|]. cbn in Hacc. lia.
  - assert (NP : forall t, s <> sep ++ t). { intros t ->. rewrite is_prefix_app in P. discriminate. }
    destruct s as [|c s].
    + cbn. rewrite app_nil_r in *. split; [reflexivity|]. split; [discriminate|]. intros x [<-|[]] a b ->.
      specialize (Hacc a b eq_refl). rewrite !app_length in Hacc. destruct sep; [congruence|]. cbn in Hacc. lia.
    + destruct (IH (acc ++ [c]) s) as (J & N & X); [cbn in Hf; lia| |].
      * rewrite <- app_assoc. cbn [app]. intros a b E. pose proof (Hacc a b E) as H. rewrite app_length. cbn.
        destruct (Nat.eq_dec (length a) (length acc)) as [EL|]; [|lia]. exfalso.
        assert (acc = a) as <-. { apply (f_equal (firstn (length acc))) in E. rewrite firstn_app, firstn_all, Nat.sub_diag in E. cbn [firstn] in E. rewrite app_nil_r in E.
          rewrite E. rewrite firstn_app, EL, firstn_all2, Nat.sub_diag by lia. cbn. apply app_nil_r. }
        apply app_inv_head in E. apply (NP b). exact E.
      * rewrite <- app_assoc in J. split; [exact J|]. split; assumption.
Qed.
Lemma split_any sep s : sep <> [] -> exists items, str2seq s (Some sep) = Some items /\ items <> [] /\ seq2str items sep = s /\
  forall x, In x items -> forall a b, x <> a ++ sep ++ b.
Proof.
  intros NE. unfold str2seq, split_sep. destruct sep as [|d sep]; [congruence|]. eexists. split; [reflexivity|].
  destruct (split_aux_text (d :: sep) NE (S (length s)) [] s ltac:(lia)) as (J & N & X); [cbn; lia|]. auto.
Qed.
Lemma split_ws_blank g s : blank g -> split_ws [] (g ++ s) = split_ws [] s.
Proof. induction 1 as [|c g H1 H2 IH]; [reflexivity|]. cbn. rewrite H1. exact IH. Qed.
Lemma split_spaced words s : spaced words s -> split_ws [] s = words.
Proof.
  induction 1 as [g H|g w words s Hg Hw Hs HS H IH].
  - rewrite <- (app_nil_r g), split_ws_blank by exact H. reflexivity.
  - rewrite split_ws_blank by exact Hg. destruct HS as [-> |(c & r & -> & Hc)].
    + rewrite app_nil_r. rewrite split_ws_last by (exact Hs || exact Hw). rewrite <- IH. reflexivity.
    + rewrite split_ws_item by (exact Hs || exact Hc || exact Hw). cbn [app]. f_equal. rewrite <- IH. cbn. rewrite Hc. reflexivity.
Qed.
Lemma spaced_exists : forall s, exists words, spaced words s.
Proof.
  assert (K : forall s, (exists words, spaced words s) /\ forall w, w <> [] -> Forall (fun a => is_space a = false) w -> exists words, spaced words (w ++ s)).
  { induction s as [|c s [IH1 IH2]].
    - split; [exists []; apply spaced_end; constructor|]. intros w H1 H2. exists [w]. apply (spaced_word [] w [] []); auto; [constructor|apply spaced_end; constructor].
    - destruct (is_space c) eqn:C.
      + split.
        * destruct IH1 as [ws H]. exists ws. inversion H; subst.
          -- apply spaced_end. constructor; assumption.
          -- change (c :: g ++ w ++ s0) with ((c :: g) ++ w ++ s0). apply spaced_word; auto. constructor; assumption.
        * intros w H1 H2. assert (X : exists ws, spaced ws (c :: s)).
          { destruct IH1 as [ws H]. exists ws. inversion H; subst; [apply spaced_end; constructor; assumption|].
            change (c :: g ++ w0 ++ s0) with ((c :: g) ++ w0 ++ s0). apply spaced_word; auto. constructor; assumption. }
          destruct X as [ws H]. exists (w :: ws). apply (spaced_word [] w ws (c :: s)); auto; [constructor|]. right. eauto.
      + split.
        * apply (IH2 [c]); [discriminate|]. constructor; [exact C|constructor].
        * intros w H1 H2. destruct (IH2 (w ++ [c])) as [ws H]; [destruct w; discriminate|apply Forall_app; split; [exact H2|constructor; [exact C|constructor]]|].
          exists ws. rewrite <- app_assoc in H. exact H. }
  intros s. apply K.
Qed.
