From Coq Require Import Ascii String List Bool Arith ZArith Lia Sorting.Sorted Sorting.Permutation.
From Verif Require Import Comb ArrayIO Species SpeciesSpec.
Import ListNotations.
Local Open Scope list_scope.
Local Open Scope nat_scope.
Local Notation length := List.length.

Notation pdec := (list_eq_dec ascii_dec).
Lemma eqb_spec (a b : pstr) : reflect (a = b) (pstr_eqb a b).
Proof. unfold pstr_eqb. destruct (pdec a b); constructor; assumption. Qed.
Lemma code_inj x y : nat_of_ascii x = nat_of_ascii y -> x = y.
Proof. intros H. rewrite <- (ascii_nat_embedding x), <- (ascii_nat_embedding y). now rewrite H. Qed.
(** ** The order *)
Lemma leb_total a : forall b, str_leb a b = true \/ str_leb b a = true.
Proof. induction a as [|x a IH]; intros [|y b]; cbn [str_leb]; auto. destruct (Nat.ltb_spec (nat_of_ascii x) (nat_of_ascii y)), (Nat.ltb_spec (nat_of_ascii y) (nat_of_ascii x)); auto. Qed.
Lemma leb_antisym a : forall b, str_leb a b = true -> str_leb b a = true -> a = b.
Proof.
  induction a as [|x a IH]; intros [|y b]; cbn [str_leb]; try discriminate; auto.
  destruct (Nat.ltb_spec (nat_of_ascii x) (nat_of_ascii y)), (Nat.ltb_spec (nat_of_ascii y) (nat_of_ascii x)); try discriminate; try lia.
  intros A B. f_equal; [apply code_inj; lia|auto].
Qed.
Lemma leb_trans a : forall b c, str_leb a b = true -> str_leb b c = true -> str_leb a c = true.
Proof.
  induction a as [|x a IH]; intros [|y b] [|z c]; cbn [str_leb]; try discriminate; auto.
  destruct (Nat.ltb_spec (nat_of_ascii x) (nat_of_ascii y)), (Nat.ltb_spec (nat_of_ascii y) (nat_of_ascii x)); try discriminate; try lia;
  destruct (Nat.ltb_spec (nat_of_ascii y) (nat_of_ascii z)), (Nat.ltb_spec (nat_of_ascii z) (nat_of_ascii y)); try discriminate; try lia;
  destruct (Nat.ltb_spec (nat_of_ascii x) (nat_of_ascii z)), (Nat.ltb_spec (nat_of_ascii z) (nat_of_ascii x)); try lia; eauto.
Qed.
Lemma leb_refl a : str_leb a a = true.
Proof. destruct (leb_total a a); assumption. Qed.
Lemma leb_before a : forall b, str_leb a b = true -> a = b \/ before a b.
Proof.
  induction a as [|x a IH]; intros [|y b] H; cbn [str_leb] in H; try discriminate; [now left|right; left; now exists y, b|].
  destruct (Nat.ltb_spec (nat_of_ascii x) (nat_of_ascii y)) as [L|L]; [right; right; exists [], x, y, a, b; auto|].
  destruct (Nat.ltb_spec (nat_of_ascii y) (nat_of_ascii x)) as [L'|L']; [discriminate|]. assert (x = y) as -> by (apply code_inj; lia).
  destruct (IH b H) as [-> |[(c & t & ->)|(p & u & v & a' & b' & -> & -> & K)]]; [now left|right; left; now exists c, t|right; right; exists (y :: p), u, v, a', b'; auto].
Qed.
Lemma before_leb a b : before a b -> str_leb a b = true /\ a <> b.
Proof.
  intros [(c & t & ->)|(p & x & y & a' & b' & -> & -> & L)].
  - split; [induction a as [|x a IH]; cbn [app str_leb]; [reflexivity|rewrite Nat.ltb_irrefl; exact IH]|]. intros E. apply (f_equal (@length ascii)) in E. rewrite app_length in E. cbn in E. lia.
  - split; [induction p as [|z p IH]; cbn [app str_leb]; [now rewrite (proj2 (Nat.ltb_lt _ _) L)|rewrite Nat.ltb_irrefl; exact IH]|]. intros E. apply app_inv_head in E. injection E. intros _ ->. lia.
Qed.
Lemma before_irrefl a : ~ before a a. Proof. intros H. now apply before_leb in H. Qed.
Lemma before_trans a b c : before a b -> before b c -> before a c.
Proof.
  intros A B. apply before_leb in A as [A NA], B as [B NB]. destruct (leb_before a c (leb_trans _ _ _ A B)) as [-> |H]; [|exact H]. exfalso. apply NA. now apply leb_antisym.
Qed.
(** ** Sorting *)
Definition le (a b : pstr) : Prop := str_leb a b = true.
Lemma insert_perm s l : Permutation (insert s l) (s :: l).
Proof. induction l as [|t l IH]; cbn [insert]; [reflexivity|]. destruct (str_leb s t); [reflexivity|]. rewrite IH. apply perm_swap. Qed.
Lemma sort_perm l : Permutation (sort l) l.
Proof. induction l as [|s l IH]; [reflexivity|]. cbn. rewrite insert_perm. now constructor. Qed.
Lemma insert_sorted s l : StronglySorted le l -> StronglySorted le (insert s l).
Proof.
  induction 1 as [|t l S IH F]; [constructor; constructor|]. cbn [insert]. destruct (str_leb s t) eqn:E.
  - constructor; [now constructor|]. constructor; [exact E|]. eapply Forall_impl; [|exact F]. intros u U. now apply (leb_trans _ t).
  - constructor; [exact IH|]. apply (Permutation_Forall (Permutation_sym (insert_perm s l))). constructor; [|exact F]. destruct (leb_total s t); [congruence|assumption].
Qed.
Lemma sort_sorted l : StronglySorted le (sort l).
Proof. induction l as [|s l IH]; [constructor|]. cbn. now apply insert_sorted. Qed.
Lemma drop_in l s : In s (drop_equal l) <-> In s l.
Proof.
  induction l as [|a l IH]; [reflexivity|]. cbn [drop_equal]. destruct (drop_equal l) as [|t r] eqn:E.
  - split; intros [H|H]; [now left|destruct H|now left|apply IH in H; destruct H].
  - destruct (eqb_spec a t) as [-> |N].
    + rewrite IH. cbn. split; [now right|]. intros [<- |H]; [|exact H]. apply IH. now left.
    + change (In s (a :: t :: r)) with (a = s \/ In s (t :: r)). rewrite IH. reflexivity.
Qed.
Lemma drop_ascending l : StronglySorted le l -> ascending (drop_equal l).
Proof.
  induction 1 as [|a l S IH F]; [exact I|]. cbn [drop_equal]. destruct (drop_equal l) as [|t r] eqn:E; [split; [intros b []|exact I]|].
  destruct (eqb_spec a t) as [-> |N]; [exact IH|]. split; [|exact IH]. intros b H.
  assert (T : before a t). { destruct (leb_before a t) as [X|X]; [|congruence|exact X]. rewrite Forall_forall in F. apply F. apply (drop_in l). rewrite E. now left. }
  destruct H as [<- |H]; [exact T|]. destruct IH as [K _]. eapply before_trans; [exact T|]. now apply K.
Qed.
Lemma unique_in symbols s : In s (symbols_unique symbols) <-> In s symbols.
Proof. unfold symbols_unique. rewrite drop_in. split; apply Permutation_in; [apply sort_perm|apply Permutation_sym, sort_perm]. Qed.
Lemma unique_ascending symbols : ascending (symbols_unique symbols).
Proof. apply drop_ascending, sort_sorted. Qed.
Lemma ascending_nodup l : ascending l -> NoDup l.
Proof. induction l as [|a l IH]; [constructor|]. intros [H A]. constructor; [|auto]. intros I. exact (before_irrefl a (H a I)). Qed.
Lemma ascending_eq l : forall l', ascending l -> ascending l' -> (forall s, In s l <-> In s l') -> l = l'.
Proof.
  induction l as [|a l IH]; intros [|b l'] A B E; [reflexivity|exfalso; apply (E b); now left|exfalso; apply (E a); now left|]. destruct A as [A1 A2], B as [B1 B2].
  assert (a = b) as ->.
  { pose proof (proj1 (E a) (or_introl eq_refl)) as [H|H]; [congruence|]. pose proof (proj2 (E b) (or_introl eq_refl)) as [K|K]; [congruence|]. exfalso. apply (before_irrefl a). exact (before_trans _ _ _ (A1 b K) (B1 a H)). }
  f_equal. apply IH; auto. intros s. split; intros H.
  - pose proof (proj1 (E s) (or_intror H)) as [<- |K]; [|exact K]. exfalso. exact (before_irrefl b (A1 b H)).
  - pose proof (proj2 (E s) (or_intror H)) as [<- |K]; [|exact K]. exfalso. exact (before_irrefl b (B1 b H)).
Qed.
(** ** Dictionaries *)
Lemma lookup_app {A} (d e : list (pstr * A)) s : lookup (d ++ e) s = match lookup e s with Some v => Some v | None => lookup d s end.
Proof.
  unfold lookup. rewrite fold_left_app. generalize (fold_left (fun o kv => if pstr_eqb (fst kv) s then Some (snd kv) else o) d None) as o. induction e as [|kv e IH] using rev_ind; intros o; [reflexivity|].
  rewrite !fold_left_app. cbn. destruct (pstr_eqb (fst kv) s); [reflexivity|apply IH].
Qed.
Lemma lookup_in {A} (d : list (pstr * A)) s v : NoDup (map fst d) -> (lookup d s = Some v <-> In (s, v) d).
Proof.
  induction d as [|[k w] d IH] using rev_ind; intros N; [split; [discriminate|intros []]|]. rewrite lookup_app. unfold lookup at 1. cbn [fold_left fst snd]. rewrite map_app in N. cbn [map fst] in N.
  pose proof (NoDup_remove _ _ _ N) as [N1 N2]. rewrite app_nil_r in *. specialize (IH N1). rewrite in_app_iff. cbn [In]. destruct (eqb_spec k s) as [-> |X].
  - split; [intros [= ->]; auto|]. intros [H|[[= ->]|[]]]; [|reflexivity]. exfalso. apply N2. change s with (fst (s, v)). now apply in_map.
  - rewrite IH. split; [auto|]. intros [H|[[= -> _]|[]]]; [exact H|congruence].
Qed.
Lemma opt_map_forall {A B} (f : A -> option B) l r : opt_map f l = Some r <-> Forall2 (fun a b => f a = Some b) l r.
Proof.
  revert r. induction l as [|a l IH]; intros r; cbn.
  - split; [intros [= <-]; constructor|]. inversion 1. reflexivity.
  - split.
    + destruct (f a) eqn:E; [|discriminate]. destruct (opt_map f l); [|discriminate]. intros [= <-]. constructor; [exact E|]. now apply IH.
    + inversion 1 as [|? ? ? ? E F]; subst. rewrite E. apply IH in F. now rewrite F.
Qed.
(** ** The numbers of the types *)
Lemma enum_in (u : list pstr) s k : forall n, In (n, s) (combine (seq k (length u)) u) <-> k <= n /\ nth_error u (n - k) = Some s.
Proof.
  revert k. induction u as [|t u IH]; intros k n; cbn [length seq combine].
  - split; [intros []|]. intros [_ H]. now destruct (n - k).
  - change (In (n, s) ((k, t) :: combine (seq (S k) (length u)) u)) with ((k, t) = (n, s) \/ In (n, s) (combine (seq (S k) (length u)) u)). rewrite IH. split.
    + intros [[= -> ->]|[L H]]; [split; [lia|now rewrite Nat.sub_diag]|]. split; [lia|]. replace (n - k) with (S (n - S k)) by lia. exact H.
    + intros [L H]. destruct (Nat.eq_dec n k) as [-> |N]; [rewrite Nat.sub_diag in H; cbn in H; left; congruence|]. right. split; [lia|]. now replace (n - k) with (S (n - S k)) in H by lia.
Qed.
Lemma order_keys symbols : map fst (order symbols) = symbols_unique symbols.
Proof.
  unfold order. rewrite map_map. cbn [fst]. generalize (symbols_unique symbols) as u, 0 as k. induction u as [|t u IH]; intros k; [reflexivity|]. cbn [length seq combine map snd]. now rewrite IH.
Qed.
Lemma order_lookup symbols s n : lookup (order symbols) s = Some n <-> 1 <= n /\ nth_error (symbols_unique symbols) (n - 1) = Some s.
Proof.
  rewrite lookup_in by (rewrite order_keys; apply ascending_nodup, unique_ascending). unfold order. rewrite in_map_iff. split.
  - intros ([k t] & [= -> <-] & H). apply enum_in in H as [_ H]. rewrite Nat.sub_0_r in H. split; [lia|]. now rewrite Nat.add_sub.
  - intros [L H]. exists (n - 1, s). cbn [fst snd]. split; [f_equal; lia|]. apply enum_in. rewrite Nat.sub_0_r. auto with arith.
Qed.
Lemma order_some symbols s : In s symbols -> exists n, lookup (order symbols) s = Some n.
Proof.
  intros H. apply unique_in in H. apply In_nth_error in H as [i H]. exists (i + 1). apply order_lookup. split; [lia|]. now rewrite Nat.add_sub.
Qed.
Lemma typat_some symbols : exists t, typat symbols = Some t.
Proof.
  unfold typat. assert (G : forall l, incl l symbols -> exists t, opt_map (lookup (order symbols)) l = Some t).
  { induction l as [|s l IH]; intros I; [now exists []|]. cbn. destruct (order_some symbols s (I s (or_introl eq_refl))) as [n ->]. destruct IH as [t ->]; [intros x Hx; apply I; now right|]. now eexists. }
  apply G. intros x Hx. exact Hx.
Qed.
Lemma count_types symbols t s n : Forall2 (fun s n => lookup (order symbols) s = Some n) t n -> forall k, lookup (order symbols) s = Some k -> count_occ Nat.eq_dec n k = count_occ pdec t s.
Proof.
  intros F k K. induction F as [|a b t n E F IH]; [reflexivity|]. cbn [count_occ]. rewrite IH. destruct (Nat.eq_dec b k) as [-> |X], (pdec a s) as [-> |Y]; try reflexivity.
  - exfalso. apply Y. apply order_lookup in E as [_ E], K as [_ K]. congruence.
  - exfalso. congruence.
Qed.
