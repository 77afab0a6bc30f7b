(** C81: species of a structure. *)
From Coq Require Import Ascii String List Bool Arith ZArith QArith Qabs Lia.
From Verif Require Import Comb ArrayIO Species SpeciesSpec SpeciesProofs.
Import ListNotations.
Local Open Scope list_scope.
Local Open Scope nat_scope.
Local Notation length := List.length.

Lemma F2_impl {A B} (P Q : A -> B -> Prop) l r : (forall a b, P a b -> Q a b) -> Forall2 P l r -> Forall2 Q l r.
Proof. intros I F. induction F; constructor; auto. Qed.
Theorem C81_unique symbols : (forall s, In s (symbols_unique symbols) <-> In s symbols) /\ ascending (symbols_unique symbols) /\ NoDup (symbols_unique symbols) /\ ntypat symbols = length (symbols_unique symbols).
Proof. split; [apply unique_in|]. split; [apply unique_ascending|]. split; [apply ascending_nodup, unique_ascending|reflexivity]. Qed.
(** Neither the order of the atoms nor their number per species matters. *)
Theorem C81_same symbols symbols' : (forall s, In s symbols <-> In s symbols') -> symbols_unique symbols = symbols_unique symbols' /\ order symbols = order symbols'.
Proof.
  intros E. assert (U : symbols_unique symbols = symbols_unique symbols') by (apply ascending_eq; try apply unique_ascending; intros s; rewrite !unique_in; apply E). split; [exact U|]. unfold order. now rewrite U.
Qed.
(** The dictionary numbers the unique symbols from 1. *)
Theorem C81_order symbols s n : lookup (order symbols) s = Some n <-> 1 <= n /\ nth_error (symbols_unique symbols) (n - 1) = Some s.
Proof. apply order_lookup. Qed.
Theorem C81_typat symbols : exists t, typat symbols = Some t /\ Forall2 (fun s n => 1 <= n <= ntypat symbols /\ nth_error (symbols_unique symbols) (n - 1) = Some s) symbols t.
Proof.
  destruct (typat_some symbols) as [t T]. exists t. split; [exact T|]. unfold typat in T. apply opt_map_forall in T. eapply F2_impl; [|exact T]. intros s n H. apply order_lookup in H as [L H]. split; [|exact H].
  split; [exact L|]. assert (X : n - 1 < length (symbols_unique symbols)) by (apply nth_error_Some; congruence). unfold ntypat. lia.
Qed.
Lemma sum_indicator u a : NoDup u -> In a u -> list_sum (map (fun s => if pdec a s then 1 else 0) u) = 1.
Proof.
  induction 1 as [|s u N ND IH]; [intros []|]. intros I. cbn [map list_sum fold_right]. destruct (pdec a s) as [<- |X].
  - enough (Z : list_sum (map (fun s => if pdec a s then 1 else 0) u) = 0) by (unfold list_sum in Z; rewrite Z; reflexivity). clear -N. induction u as [|t u IH]; [reflexivity|]. cbn [map list_sum fold_right]. destruct (pdec a t) as [<- |_]; [exfalso; apply N; now left|]. apply IH. intros H. apply N. now right.
  - destruct I as [-> |I]; [congruence|]. exact (IH I).
Qed.
Lemma sum_counts u symbols : NoDup u -> incl symbols u -> list_sum (map (occurrences symbols) u) = length symbols.
Proof.
  intros N. induction symbols as [|a symbols IH]; intros I.
  - cbn. clear. induction u; [reflexivity|exact IHu].
  - cbn [length]. rewrite <- IH by (intros x Hx; apply I; now right). pose proof (sum_indicator u a N (I a (or_introl eq_refl))) as O.
    change (S (list_sum (map (occurrences symbols) u))) with (1 + list_sum (map (occurrences symbols) u)). rewrite <- O. clear. induction u as [|s u IH]; [reflexivity|].
    cbn [map list_sum fold_right] in *. unfold list_sum in *. rewrite IH. unfold occurrences. cbn [count_occ]. destruct (pdec a s); lia.
Qed.
(** The numbers of atoms per species, which add up. *)
Theorem C81_nspecies symbols : exists d, nspecies symbols = Some d /\ (forall s n, lookup d s = Some n <-> In s symbols /\ n = occurrences symbols s) /\
  map fst d = symbols_unique symbols /\ list_sum (map snd d) = length symbols.
Proof.
  destruct (typat_some symbols) as [t T]. unfold nspecies. rewrite T. cbn [option_map]. unfold typat in T. apply opt_map_forall in T.
  assert (E : map (fun so : pstr * nat => (fst so, count_occ Nat.eq_dec t (snd so))) (order symbols) = map (fun s => (s, occurrences symbols s)) (symbols_unique symbols)).
  { rewrite <- order_keys, map_map. apply map_ext_in. intros [s k] H. cbn [fst snd]. f_equal. apply (count_types symbols symbols s t T). apply lookup_in; [rewrite order_keys; apply ascending_nodup, unique_ascending|exact H]. }
  rewrite E. eexists. split; [reflexivity|]. assert (K : map fst (map (fun s => (s, occurrences symbols s)) (symbols_unique symbols)) = symbols_unique symbols) by (rewrite map_map; apply map_id).
  split; [|split; [exact K|]].
  - intros s n. rewrite lookup_in by (rewrite K; apply ascending_nodup, unique_ascending). rewrite in_map_iff, <- unique_in. split; [intros (x & [= -> <-] & H); auto|]. intros [H ->]. exists s. auto.
  - rewrite map_map. cbn [snd]. apply sum_counts; [apply ascending_nodup, unique_ascending|]. intros s H. now apply unique_in.
Qed.
(** ** The periodic table *)
Fixpoint distinct (l : list pstr) : bool := match l with [] => true | a :: l => negb (existsb (pstr_eqb a) l) && distinct l end.
Lemma nodup_by l : distinct l = true -> NoDup l.
Proof.
  induction l as [|a l IH]; [constructor|]. cbn. intros H. apply andb_prop in H as [A B]. constructor; [|auto]. intros I. apply negb_true_iff in A. assert (X : existsb (pstr_eqb a) l = true); [|congruence].
  apply existsb_exists. exists a. split; [exact I|]. now destruct (eqb_spec a a).
Qed.
Lemma table_nodup : NoDup table.
Proof. apply nodup_by. vm_compute. reflexivity. Qed.
Lemma number_iff s n : number_of s = Some n <-> nth_error table n = Some s.
Proof.
  unfold number_of. assert (K : map fst numbers = table) by (vm_compute; reflexivity). rewrite lookup_in by (rewrite K; exact table_nodup). unfold numbers. generalize table as l. intros l.
  assert (G : forall l k, In (s, n) (combine l (seq k (length l))) <-> k <= n /\ nth_error l (n - k) = Some s).
  { clear. induction l as [|t l IH]; intros k; cbn [length seq combine].
    - split; [intros []|]. intros [_ H]. now destruct (n - k).
    - change (In (s, n) ((t, k) :: combine l (seq (S k) (length l)))) with ((t, k) = (s, n) \/ In (s, n) (combine l (seq (S k) (length l)))). rewrite IH. split.
      + intros [[= -> ->]|[L H]]; [split; [lia|now rewrite Nat.sub_diag]|]. split; [lia|]. replace (n - k) with (S (n - S k)) by lia. exact H.
      + intros [L H]. destruct (Nat.eq_dec n k) as [-> |N]; [rewrite Nat.sub_diag in H; cbn in H; left; congruence|]. right. split; [lia|]. now replace (n - k) with (S (n - S k)) in H by lia. }
  rewrite G, Nat.sub_0_r. intuition lia.
Qed.
(** Atomic numbers are positions in the table of symbols, unknown symbols raise. *)
Theorem C81_znucl symbols z : (znucl symbols = Some z <-> Forall2 (fun s n => nth_error table n = Some s) symbols z) /\
  (znucl_unique symbols = Some z <-> Forall2 (fun s n => nth_error table n = Some s) (symbols_unique symbols) z).
Proof.
  assert (G : forall l, opt_map number_of l = Some z <-> Forall2 (fun s n => nth_error table n = Some s) l z).
  { intros l. rewrite opt_map_forall. split; intros H; (eapply F2_impl; [|exact H]); intros s n; apply number_iff. }
  split; apply G.
Qed.
Lemma mass_iff s m : mass_of s = Some m <-> exists n, nth_error table n = Some s /\ nth_error masses n = Some m.
Proof.
  unfold mass_of. destruct (number_of s) as [n|] eqn:E.
  - apply number_iff in E. split; [intros H; now exists n|]. intros (n' & H & K). apply number_iff in E, H. congruence.
  - split; [discriminate|]. intros (n' & H & _). apply number_iff in H. congruence.
Qed.
Theorem C81_mass symbols m : mass symbols = Some m <-> Forall2 (fun s w => exists n, nth_error table n = Some s /\ nth_error masses n = Some w) symbols m.
Proof. unfold mass. rewrite opt_map_forall. split; intros H; (eapply F2_impl; [|exact H]); intros s w; apply mass_iff. Qed.
Lemma opt_map_unknown {A B} (f : A -> option B) l : opt_map f l = None <-> exists a, In a l /\ f a = None.
Proof.
  induction l as [|a l IH]; cbn; [split; [discriminate|intros (a & [] & _)]|]. destruct (f a) as [b|] eqn:E.
  - destruct (opt_map f l) eqn:F.
    + split; [discriminate|]. intros (x & [<- |H] & N); [congruence|]. exfalso. assert (X : Some l0 = None) by (apply IH; now exists x). discriminate.
    + split; [|reflexivity]. intros _. destruct (proj1 IH eq_refl) as (x & H & N). exists x. auto.
  - split; [|reflexivity]. intros _. exists a. auto.
Qed.
Lemma lengths : length masses = length table. Proof. reflexivity. Qed.
Lemma mass_none s : mass_of s = None <-> ~ In s table.
Proof.
  unfold mass_of. destruct (number_of s) as [n|] eqn:E.
  - apply number_iff in E. split; [|intros H; exfalso; apply H; eapply nth_error_In; exact E]. intros H. exfalso. assert (X : n < length masses) by (rewrite lengths; apply nth_error_Some; congruence). now apply nth_error_Some in X.
  - split; [|reflexivity]. intros _ I. apply In_nth_error in I as [n I]. apply number_iff in I. congruence.
Qed.
Theorem C81_unknown symbols : (mass symbols = None <-> exists s, In s symbols /\ ~ In s table) /\ (znucl symbols = None <-> exists s, In s symbols /\ ~ In s table).
Proof.
  unfold mass, znucl. rewrite !opt_map_unknown. split; (split; intros (s & H & N); exists s; split; try exact H).
  - now apply mass_none.
  - now apply mass_none.
  - apply mass_none. unfold mass_of. now rewrite N.
  - destruct (number_of s) as [n|] eqn:E; [|reflexivity]. apply number_iff in E. exfalso. apply N. eapply nth_error_In; exact E.
Qed.
(** Masses per species and per atom agree through the types. *)
Lemma unique_masses symbols : mass_unique symbols = opt_map mass_of (symbols_unique symbols).
Proof.
  unfold mass_unique, znucl_unique. generalize (symbols_unique symbols) as u. induction u as [|s u IH]; [reflexivity|]. cbn [opt_map]. unfold mass_of at 1. destruct (number_of s) as [n|]; [|reflexivity]. rewrite <- IH.
  destruct (opt_map number_of u) as [z|]; [reflexivity|]. now destruct (nth_error masses n).
Qed.
Lemma Forall2_nth {A B} (P : A -> B -> Prop) l r i a b : Forall2 P l r -> nth_error l i = Some a -> nth_error r i = Some b -> P a b.
Proof. intros F. revert i. induction F; intros [|i]; cbn; try discriminate; [intros [= ->] [= ->]; assumption|apply IHF]. Qed.
Theorem C81_mass_unique symbols m t : mass symbols = Some m -> typat symbols = Some t ->
  exists u, mass_unique symbols = Some u /\ length u = ntypat symbols /\ forall i k w, nth_error t i = Some k -> nth_error m i = Some w -> nth_error u (k - 1) = Some w.
Proof.
  intros M T. rewrite unique_masses. destruct (opt_map mass_of (symbols_unique symbols)) as [u|] eqn:U.
  - exists u. split; [reflexivity|]. apply opt_map_forall in U. assert (L : length (symbols_unique symbols) = length u) by (clear -U; induction U; cbn; congruence). split; [symmetry; exact L|].
    intros i k w Tk Mw. unfold typat in T. apply opt_map_forall in T. unfold mass in M. apply opt_map_forall in M.
    assert (exists s, nth_error symbols i = Some s) as [s Hs].
    { destruct (nth_error symbols i) as [s|] eqn:E; [now exists s|]. exfalso. apply nth_error_None in E. assert (L2 : length symbols = length t) by (clear -T; induction T; cbn; congruence). rewrite L2 in E. apply nth_error_None in E. congruence. }
    pose proof (Forall2_nth _ _ _ _ _ _ T Hs Tk) as K. pose proof (Forall2_nth _ _ _ _ _ _ M Hs Mw) as W. cbn beta in *. apply order_lookup in K as [K1 K2].
    destruct (nth_error u (k - 1)) as [w'|] eqn:E.
    + pose proof (Forall2_nth _ _ _ _ _ _ U K2 E) as W'. cbn beta in W'. congruence.
    + exfalso. apply nth_error_None in E. rewrite <- L in E. apply nth_error_None in E. congruence.
  - exfalso. apply opt_map_unknown in U as (s & H & N). apply (proj1 (unique_in symbols s)) in H. assert (X : mass symbols = None) by (apply opt_map_unknown; now exists s). congruence.
Qed.
(** The position in the table is the atomic number announced by systematic names (Uub to Uuh), but
    element 117 was left out: Uuo, one-one-eight, gets 117. *)
Theorem C81_systematic s n m : nth_error table n = Some s -> systematic s m -> n <= 116 -> n = m.
Proof.
  intros H S L. assert (G : Forall (fun ns => forall m, systematic (snd ns) m -> fst ns = m) (firstn 117 (combine (seq 0 118) table))).
  { clear. cbn -[systematic]. repeat (constructor; [intros m (a & b & c & i & j & k & E & A & B & C & ->); cbn [fst snd] in *; try discriminate E; injection E as <- <- <-; vm_compute in A, B, C; try discriminate; injection A as <-; injection B as <-; injection C as <-; reflexivity|]). constructor. }
  assert (I : In (n, s) (firstn 117 (combine (seq 0 118) table))).
  { assert (T : firstn 117 (combine (seq 0 118) table) = combine (seq 0 117) (firstn 117 table)) by (vm_compute; reflexivity). rewrite T.
    assert (H' : nth_error (firstn 117 table) n = Some s) by (rewrite <- H; rewrite <- (firstn_skipn 117 table) at 2; rewrite nth_error_app1; [reflexivity|change (length (firstn 117 table)) with 117; lia]).
    change 117 with (length (firstn 117 table)) at 1. apply enum_in. rewrite Nat.sub_0_r. split; [lia|exact H']. }
  rewrite Forall_forall in G. exact (G _ I m S).
Qed.
Theorem C81_systematic_refuted : znucl [text "Uuo"] = Some [117] /\ systematic (text "Uuo") 118 /\ znucl [text "Uus"] = None.
Proof. split; [vm_compute; reflexivity|]. split; [|vm_compute; reflexivity]. exists "U"%char, "u"%char, "o"%char, 1, 1, 8. repeat split. Qed.
(** All masses are positive except the one of the placeholder Xx. *)
Theorem C81_positive s w : mass_of s = Some w -> s <> text "Xx" -> (0 < w)%Q.
Proof.
  intros H N. apply mass_iff in H as (n & T & M). destruct n as [|n]; [exfalso; apply N; cbn [table map nth_error] in T; congruence|].
  assert (G : forallb (fun w => Qle_bool 1 w) (tl masses) = true) by (vm_compute; reflexivity). rewrite forallb_forall in G.
  assert (I : In w (tl masses)) by (apply (nth_error_In _ n); exact M). apply G in I. apply Qle_bool_iff in I. eapply Qlt_le_trans; [|exact I]. reflexivity.
Qed.
Theorem C81_dummy_refuted : mass [text "Xx"] = Some [(-1 # 1)%Q].
Proof. vm_compute. reflexivity. Qed.
Example C81_case : let sy := map text ["N"; "Al"; "N"; "Ag"]%string in
  symbols_unique sy = map text ["Ag"; "Al"; "N"]%string /\ typat sy = Some [3; 2; 3; 1] /\
  nspecies sy = Some [(text "Ag", 1); (text "Al", 1); (text "N", 2)] /\ znucl sy = Some [7; 13; 7; 47] /\
  mass sy = Some [140067 # 10000; 269815386 # 10000000; 140067 # 10000; 1078682 # 10000]%Q /\ mass_unique sy = Some [1078682 # 10000; 269815386 # 10000000; 140067 # 10000]%Q.
Proof. vm_compute. repeat split. Qed.
(** The table is the periodic table, and the masses are the standard weights. *)
Theorem C81_periods : firstn 112 table = text "Xx" :: map text (concat periods).
Proof. reflexivity. Qed.
Theorem C81_weights s w : In (s, w) weights -> exists m, mass_of (text s) = Some m /\ close_to m w.
Proof.
  intros H. assert (A : forallb (fun q => match mass_of (text (fst q)) with Some m => Qle_bool (Qabs (m - (snd q # 1000))%Q) (2 # 100) | None => false end) weights = true) by (vm_compute; reflexivity).
  rewrite forallb_forall in A. specialize (A _ H). cbn [fst snd] in A. destruct (mass_of (text s)) as [m|]; [|discriminate]. exists m. split; [reflexivity|]. now apply Qle_bool_iff.
Qed.
Print Assumptions C81_unique.
Print Assumptions C81_same.
Print Assumptions C81_order.
Print Assumptions C81_typat.
Print Assumptions C81_nspecies.
Print Assumptions C81_znucl.
Print Assumptions C81_mass.
Print Assumptions C81_unknown.
Print Assumptions C81_mass_unique.
Print Assumptions C81_systematic.
Print Assumptions C81_systematic_refuted.
Print Assumptions C81_positive.
Print Assumptions C81_dummy_refuted.
Print Assumptions C81_periods.
Print Assumptions C81_weights.
