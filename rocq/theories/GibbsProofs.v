(** Lemmas for P_Gibbs.v *)
From Coq Require Import String List Arith Bool Lia Reals Lra.
From Verif Require Import Gibbs GibbsSpec.
Import ListNotations.
Local Open Scope string_scope.
Local Open Scope list_scope.
Local Open Scope nat_scope.
Local Notation length := List.length.

Lemma idx_eqb_refl i : idx_eqb i i = true.
Proof. unfold idx_eqb. destruct (list_eq_dec Nat.eq_dec i i); [reflexivity|congruence]. Qed.
Lemma idx_eqb_eq i j : idx_eqb i j = true -> i = j.
Proof. unfold idx_eqb. destruct (list_eq_dec Nat.eq_dec i j); [auto|discriminate]. Qed.
Lemma set_same k e d : set k e d k = Some e.
Proof. unfold set. now rewrite String.eqb_refl. Qed.
Lemma set_other k e d k' : k' <> k -> set k e d k' = d k'.
Proof. intros N. unfold set. apply String.eqb_neq in N. now rewrite N. Qed.
Lemma get_cell k i d x : get k i d = Some x <-> cell d k i x.
Proof.
  unfold get, cell. split.
  - intros H. destruct (d k) as [[|s f]|]; try discriminate H. destruct (in_range s i) eqn:E; [|discriminate H]. exists s, f. auto.
  - intros (s & f & -> & -> & H). exact H.
Qed.
Lemma opt_map_spec {A B} (f : A -> option B) l r : opt_map f l = Some r <-> Forall2 (fun x y => f x = Some y) l r.
Proof.
  revert r. induction l as [|x l IH]; intros r; cbn [opt_map].
  - split; [intros H; injection H as <-; constructor|intros H; inversion H; reflexivity].
  - split.
    + destruct (f x) as [y|] eqn:E; [|discriminate]. destruct (opt_map f l) as [u|]; [|discriminate]. intros H. injection H as <-. constructor; [exact E|]. now apply IH.
    + intros H. inversion H as [|? y ? u E F]; subst. rewrite E. apply IH in F. now rewrite F.
Qed.
Lemma f2_nth {A B} (Q : A -> B -> Prop) l r : Forall2 Q l r -> forall i x, nth_error l i = Some x -> exists y, nth_error r i = Some y /\ Q x y.
Proof. induction 1 as [|a b l r H _ IH]; intros [|i] x E; try discriminate E; cbn in *; [injection E as <-; eauto|eauto]. Qed.
Lemma f2_nth_r {A B} (Q : A -> B -> Prop) l r : Forall2 Q l r -> forall i y, nth_error r i = Some y -> exists x, nth_error l i = Some x /\ Q x y.
Proof. induction 1 as [|a b l r H _ IH]; intros [|i] x E; try discriminate E; cbn in *; [injection E as <-; eauto|eauto]. Qed.
Lemma f2_len {A B} (Q : A -> B -> Prop) l r : Forall2 Q l r -> length l = length r.
Proof. induction 1; cbn; auto. Qed.
Lemma seq_nth n i : i < n -> nth_error (seq 0 n) i = Some i.
Proof. intros L. rewrite (nth_error_nth' _ 0) by now rewrite seq_length. now rewrite seq_nth. Qed.
Lemma opt_map_seq {B} (f : nat -> option B) n r : opt_map f (seq 0 n) = Some r -> length r = n /\ forall i, i < n -> exists y, nth_error r i = Some y /\ f i = Some y.
Proof.
  intros H. apply opt_map_spec in H. split; [now rewrite <- (f2_len _ _ _ H), seq_length|]. intros i L. exact (f2_nth _ _ _ H i i (seq_nth n i L)).
Qed.

(** ** Writes *)
Lemma store_inv k i v d d' : store k i v d = Some d' -> exists s f, d k = Some (EArr s f) /\ in_range s i = true /\ d' = set k (EArr s (fun j => if idx_eqb j i then Some v else f j)) d.
Proof. unfold store. destruct (d k) as [[|s f]|]; try discriminate. destruct (in_range s i) eqn:E; [|discriminate]. intros H. injection H as <-. now exists s, f. Qed.
Lemma writes_app a b d : writes (a ++ b) d = match writes a d with Some d' => writes b d' | None => None end.
Proof. revert d. induction a as [|[[k i] v] a IH]; intros d; [reflexivity|]. cbn [app writes]. destruct (store k i v d); [apply IH|reflexivity]. Qed.
Lemma writes_other ws k : forall d d', writes ws d = Some d' -> (forall i v, ~ In (k, i, v) ws) -> d' k = d k.
Proof.
  induction ws as [|[[k' i] v] ws IH]; intros d d' H N; [now injection H as <-|]. cbn [writes] in H. destruct (store k' i v d) as [d1|] eqn:E; [|discriminate H].
  rewrite (IH d1 d' H) by (intros j w I; apply (N j w); now right). apply store_inv in E as (s & f & _ & _ & ->). apply set_other. intros ->. apply (N i v). now left.
Qed.
Lemma writes_shape ws k : forall d d', writes ws d = Some d' -> forall s f, d k = Some (EArr s f) -> exists f', d' k = Some (EArr s f') /\ forall i, (exists v, In (k, i, v) ws /\ f' i = Some v) \/ (f' i = f i /\ forall v, ~ In (k, i, v) ws).
Proof.
  induction ws as [|[[k' i] v] ws IH]; intros d d' H s f D.
  - injection H as <-. exists f. split; [exact D|]. intros j. right. split; [reflexivity|intros v []].
  - cbn [writes] in H. destruct (store k' i v d) as [d1|] eqn:E; [|discriminate H]. apply store_inv in E as (s1 & f1 & E1 & R1 & ->). destruct (string_dec k k') as [<-|N].
    + rewrite D in E1. injection E1 as <- <-. destruct (IH _ _ H s _ (set_same _ _ _)) as (f' & D' & A). exists f'. split; [exact D'|]. intros j. destruct (A j) as [(w & I & F)|(F & NI)]; [left; exists w; split; [now right|exact F]|].
      destruct (idx_eqb j i) eqn:EJ; [apply idx_eqb_eq in EJ; subst j; left; exists v; split; [now left|exact F]|]. right. split; [exact F|]. intros w [C|C]; [|now apply (NI w)]. assert (CI : i = j) by congruence. subst j. now rewrite idx_eqb_refl in EJ.
    + destruct (IH _ _ H s f) as (f' & D' & A); [now rewrite set_other|]. exists f'. split; [exact D'|]. intros j. destruct (A j) as [(w & I & F)|(F & NI)]; [left; exists w; split; [now right|exact F]|]. right. split; [exact F|]. intros w [C|C]; [congruence|now apply (NI w)].
Qed.
Lemma writes_shape_back ws k : forall d d', writes ws d = Some d' -> forall s f', d' k = Some (EArr s f') -> exists f, d k = Some (EArr s f).
Proof.
  intros d d' H s f' D. destruct (d k) as [[|s1 f1]|] eqn:E.
  - exfalso. assert (X : d' k = Some ENone); [|congruence]. rewrite <- E. apply (writes_other ws k d d' H). clear - H E. revert d E H. induction ws as [|[[k1 i1] v1] ws IH]; intros d E H i v C; [destruct C|destruct C as [C|C]].
    + injection C as -> -> ->. cbn [writes] in H. unfold store in H. now rewrite E in H.
    + cbn [writes] in H. destruct (store k1 i1 v1 d) as [d1|] eqn:S1; [|discriminate H]. apply store_inv in S1 as (s & f & A & _ & ->). apply (IH (set k1 (EArr s (fun j => if idx_eqb j i1 then Some v1 else f j)) d)) with (i := i) (v := v); [|exact H|exact C]. rewrite set_other; [exact E|]. intros ->. congruence.
  - destruct (writes_shape ws k d d' H s1 f1 E) as (f2 & D2 & _). rewrite D in D2. injection D2 as -> _. eauto.
  - exfalso. assert (X : d' k = None); [|congruence]. rewrite <- E. apply (writes_other ws k d d' H). clear - H E. revert d E H. induction ws as [|[[k1 i1] v1] ws IH]; intros d E H i v C; [destruct C|destruct C as [C|C]].
    + injection C as -> -> ->. cbn [writes] in H. unfold store in H. now rewrite E in H.
    + cbn [writes] in H. destruct (store k1 i1 v1 d) as [d1|] eqn:S1; [|discriminate H]. apply store_inv in S1 as (s & f & A & _ & ->). apply (IH (set k1 (EArr s (fun j => if idx_eqb j i1 then Some v1 else f j)) d)) with (i := i) (v := v); [|exact H|exact C]. rewrite set_other; [exact E|]. intros ->. congruence.
Qed.
Lemma writes_range ws : forall d d', writes ws d = Some d' -> forall k i v, In (k, i, v) ws -> exists s f, d k = Some (EArr s f) /\ in_range s i = true.
Proof.
  induction ws as [|[[k1 i1] v1] ws IH]; intros d d' H k i v I; [destruct I|]. cbn [writes] in H. destruct (store k1 i1 v1 d) as [d1|] eqn:E; [|discriminate H]. apply store_inv in E as (s & f & A & B & ->).
  destruct I as [C|I]; [injection C as -> -> ->; eauto|]. destruct (IH _ _ H k i v I) as (s2 & f2 & A2 & B2). destruct (string_dec k k1) as [->|N]; [rewrite set_same in A2; injection A2 as -> _; eauto|]. rewrite set_other in A2 by exact N. eauto.
Qed.
(** a cell holds what was written, if all writes to it agree *)
Lemma writes_cell ws d d' k i v : writes ws d = Some d' -> In (k, i, v) ws -> (forall w, In (k, i, w) ws -> w = v) -> cell d' k i v.
Proof.
  intros H I U. destruct (writes_range ws d d' H k i v I) as (s & f & A & B). destruct (writes_shape ws k d d' H s f A) as (f' & D' & C). exists s, f'. split; [exact D'|]. split; [exact B|].
  destruct (C i) as [(w & J & E)|(_ & N)]; [|destruct (N v I)]. now rewrite E, (U w J).
Qed.
Lemma writes_some ws : forall d, (forall k i v, In (k, i, v) ws -> exists s f, d k = Some (EArr s f) /\ in_range s i = true) -> exists d', writes ws d = Some d'.
Proof.
  induction ws as [|[[k1 i1] v1] ws IH]; intros d H; [now exists d|]. cbn [writes]. destruct (H k1 i1 v1 (or_introl eq_refl)) as (s & f & A & B). unfold store. rewrite A, B. apply IH. intros k i v I. destruct (H k i v (or_intror I)) as (s2 & f2 & A2 & B2).
  destruct (string_dec k k1) as [->|N]; [rewrite A in A2; injection A2 as <- _; exists s; eexists; split; [apply set_same|exact B2]|]. exists s2, f2. split; [now rewrite set_other|exact B2].
Qed.
Lemma loop_spec {I} (body : I -> dict -> option dict) (K : list string) (spec : I -> dict -> list write -> Prop) :
  (forall i d d', body i d = Some d' -> exists ws, writes ws d = Some d' /\ spec i d ws) ->
  (forall i d ws, spec i d ws -> forall k x v, In (k, x, v) ws -> In k K) ->
  (forall i d1 d2 ws, (forall k, ~ In k K -> d1 k = d2 k) -> spec i d1 ws -> spec i d2 ws) ->
  forall l d d', loop body l d = Some d' -> exists wss, Forall2 (fun i ws => spec i d ws) l wss /\ writes (concat wss) d = Some d'.
Proof.
  intros B KK ST. induction l as [|i l IH]; intros d d' H; [exists []; split; [constructor|exact H]|]. cbn [loop] in H. destruct (body i d) as [d1|] eqn:E; [|discriminate H]. destruct (B i d d1 E) as (ws & W & S1). destruct (IH d1 d' H) as (wss & F & W2).
  exists (ws :: wss). split; [|cbn [concat]; now rewrite writes_app, W]. constructor; [exact S1|]. assert (AG : forall k, ~ In k K -> d1 k = d k).
  { intros k N. apply (writes_other ws k d d1 W). intros j v C. apply N. exact (KK i d ws S1 k j v C). }
  clear - F ST AG. induction F as [|a b l wss X _ IHF]; constructor; [exact (ST _ d1 d _ AG X)|exact IHF].
Qed.
Lemma in_row k idxs vs k' i v : In (k', i, v) (row k idxs vs) <-> k' = k /\ exists j, nth_error idxs j = Some i /\ nth_error vs j = Some v.
Proof.
  unfold row. rewrite in_map_iff. split.
  - intros ([a b] & E & I). injection E as <- <- <-. split; [reflexivity|]. apply In_nth_error in I as (j & J). exists j. revert vs j J. induction idxs as [|x idxs IH]; intros [|y vs] [|j] J; try discriminate J; cbn in *; [now injection J as -> ->|now apply IH].
  - intros (-> & j & A & B). exists (i, v). split; [reflexivity|]. revert vs j A B. induction idxs as [|x idxs IH]; intros [|y vs] [|j] A B; try discriminate; cbn in *; [injection A as ->; injection B as ->; now left|right; now apply (IH vs j)].
Qed.
Lemma store_row_inv k idxs vs d d' : store_row k idxs vs d = Some d' -> length idxs = length vs /\ writes (row k idxs vs) d = Some d'.
Proof. unfold store_row. destruct (Nat.eqb_spec (length idxs) (length vs)) as [L|]; [auto|discriminate]. Qed.
Lemma across_nth pre n j i : nth_error (across pre n) j = Some i <-> j < n /\ i = pre ++ [j].
Proof.
  unfold across. split.
  - intros H. assert (L : j < n) by (rewrite <- (seq_length n 0), <- (map_length (fun j => pre ++ [j])); apply nth_error_Some; congruence). rewrite (map_nth_error _ j _ (seq_nth n j L)) in H. now injection H as <-.
  - intros (L & ->). exact (map_nth_error _ j _ (seq_nth n j L)).
Qed.
Lemma down_nth n t j i : nth_error (down n t) j = Some i <-> j < n /\ i = [j; t].
Proof.
  unfold down. split.
  - intros H. assert (L : j < n) by (rewrite <- (seq_length n 0), <- (map_length (fun j => [j; t])); apply nth_error_Some; congruence). rewrite (map_nth_error _ j _ (seq_nth n j L)) in H. now injection H as <-.
  - intros (L & ->). exact (map_nth_error _ j _ (seq_nth n j L)).
Qed.
Lemma across_len pre n : length (across pre n) = n.
Proof. unfold across. now rewrite map_length, seq_length. Qed.
Lemma down_len n t : length (down n t) = n.
Proof. unfold down. now rewrite map_length, seq_length. Qed.
Lemma gets_same k idxs d1 d2 : d1 k = d2 k -> gets k idxs d1 = gets k idxs d2.
Proof. intros E. unfold gets. induction idxs as [|i idxs IH]; [reflexivity|]. cbn [opt_map]. rewrite IH. unfold get. now rewrite E. Qed.
Lemma gets_cells k idxs d l : gets k idxs d = Some l -> length l = length idxs /\ forall j i, nth_error idxs j = Some i -> exists x, nth_error l j = Some x /\ cell d k i x.
Proof.
  intros H. apply opt_map_spec in H. split; [symmetry; exact (f2_len _ _ _ H)|]. intros j i E. destruct (f2_nth _ _ _ H j i E) as (x & A & B). exists x. split; [exact A|]. now apply get_cell.
Qed.
Lemma cell_inj d k i x y : cell d k i x -> cell d k i y -> x = y.
Proof. intros (s & f & A & _ & B) (s2 & f2 & A2 & _ & B2). rewrite A in A2. injection A2 as <- <-. congruence. Qed.
Lemma cell_same d1 d2 k i x : d1 k = d2 k -> cell d1 k i x -> cell d2 k i x.
Proof. intros E (s & f & A & B). exists s, f. now rewrite <- E. Qed.
Lemma ext_err {A} (a b : list A) : length a = length b -> (forall i x, nth_error a i = Some x -> nth_error b i = Some x) -> a = b.
Proof.
  revert b. induction a as [|x a IH]; intros [|y b] L H; try discriminate L; [reflexivity|]. assert (E := H 0 x eq_refl). injection E as ->. f_equal. apply IH; [now injection L|]. intros i z E. exact (H (S i) z E).
Qed.
Lemma cells_gets k idxs d l : length l = length idxs -> (forall j i x, nth_error idxs j = Some i -> nth_error l j = Some x -> cell d k i x) -> gets k idxs d = Some l.
Proof.
  intros L H. apply opt_map_spec. revert l L H. induction idxs as [|i idxs IH]; intros [|x l] L H; try discriminate L; constructor.
  - apply get_cell. exact (H 0 i x eq_refl eq_refl).
  - apply IH; [now injection L|]. intros j i2 x2 A B. exact (H (S j) i2 x2 A B).
Qed.
Lemma tp_in g t p : In (t, p) (tp_grid g) <-> t < nT g /\ p < nP g.
Proof.
  unfold tp_grid. rewrite in_flat_map. split.
  - intros (t' & I & J). apply in_map_iff in J as (p' & E & J). injection E as -> ->. apply in_seq in I, J. lia.
  - intros (A & B). exists t. split; [apply in_seq; lia|]. apply in_map_iff. exists p. split; [reflexivity|apply in_seq; lia].
Qed.
Lemma empties_other keys s d k : ~ In k keys -> empties keys s d k = d k.
Proof. unfold empties. revert d. induction keys as [|k1 keys IH]; intros d N; [reflexivity|]. cbn [fold_left]. rewrite IH by (intros I; apply N; now right). apply set_other. intros ->. apply N. now left. Qed.
Lemma empties_in keys s d k : In k keys -> empties keys s d k = Some (empty s).
Proof.
  unfold empties. revert d. induction keys as [|k1 keys IH]; intros d I; [destruct I|]. cbn [fold_left]. destruct (in_dec string_dec k keys) as [J|J]; [now apply IH|]. destruct I as [->|I]; [|contradiction]. fold (empties keys s (set k (empty s) d)). rewrite empties_other by exact J. apply set_same.
Qed.
Lemma add_nth a b i : nth_error (add a b) i = match nth_error a i, nth_error b i with Some x, Some y => Some (x + y)%R | _, _ => None end.
Proof. unfold add. revert b i. induction a as [|x a IH]; intros [|y b] [|i]; cbn; try reflexivity; [now destruct (nth_error a i)|apply IH]. Qed.
Lemma add_len a b : length (add a b) = Nat.min (length a) (length b).
Proof. unfold add. now rewrite map_length, combine_length. Qed.

(** ** Keys *)
Lemma not_in_b k l : existsb (String.eqb k) l = false -> ~ In k l.
Proof. intros H I. assert (X : existsb (String.eqb k) l = true) by (apply existsb_exists; exists k; split; [exact I|apply String.eqb_refl]). congruence. Qed.
Ltac keys := unfold F_key, G_key, H_key, Cp_key, alpha_key, prefix; match goal with g : gibbs |- _ => destruct (g_nax g) as [|[|[|[|]]]] | _ => idtac end; first [apply not_in_b; vm_compute; reflexivity|apply String.eqb_neq; vm_compute; reflexivity].
Lemma append_inj p a b : (p ++ a = p ++ b)%string -> a = b.
Proof. induction p as [|c p IH]; cbn [append]; [auto|]. intros H. injection H as H. auto. Qed.
Lemma opt_key_inj p a b : opt_key p a = opt_key p b -> a = b.
Proof. unfold opt_key. intros H. do 3 apply append_inj in H. exact H. Qed.
Definition opt_keys (prfx sym : string) : list string := map (opt_key prfx) ["ax0"; "ax1"; "ax2"; "V"; sym; "B"].

Section LOOPS.
Variables GPa eV kb : R.
Variable g : gibbs.
Lemma axs_spec prfx (idx : list nat) fitax n vopt (axs : list write) : opt_map (fun iax => match nth_error fitax iax with Some f => Some (opt_key prfx (ax iax), idx, ev f 0 vopt) | None => None end) (seq 0 n) = Some axs ->
  forall k i v, In (k, i, v) axs <-> exists iax f, iax < n /\ nth_error fitax iax = Some f /\ k = opt_key prfx (ax iax) /\ i = idx /\ v = ev f 0 vopt.
Proof.
  intros H k i v. apply opt_map_seq in H as (L & H). split.
  - intros I. apply In_nth_error in I as (j & J). assert (JL : j < n) by (rewrite <- L; apply nth_error_Some; congruence). destruct (H j JL) as (y & A & B). rewrite J in A. injection A as <-. destruct (nth_error fitax j) as [f|] eqn:E; [|discriminate B]. injection B as <- <- <-. exists j, f. auto.
  - intros (iax & f & LL & E & -> & -> & ->). destruct (H iax LL) as (y & A & B). rewrite E in B. injection B as <-. exact (nth_error_In _ _ A).
Qed.
Lemma ax_name i : In (ax i) ["ax0"; "ax1"; "ax2"].
Proof. destruct i as [|[|]]; cbn; auto. Qed.
Lemma fit_opt_keys gg prfx sym idx ws : fit_opt GPa g gg prfx sym idx = Some ws -> forall k i v, In (k, i, v) ws -> i = idx /\ In k (opt_keys prfx sym).
Proof.
  unfold fit_opt, opt_keys. intros H k i v I. destruct (String.eqb (g_case g) "1d").
  - destruct (f_1dG _ _ _) as [fit|]; [|discriminate H]. destruct (low fit) as [vopt|]; [|discriminate H]. destruct (g_fitax g) as [fa|]; [|discriminate H]. destruct (opt_map _ _) as [axs|] eqn:E; [|discriminate H]. injection H as <-. destruct I as [C|[C|I]]; [injection C as <- <- <-; split; [reflexivity|apply in_map; cbn; tauto]|injection C as <- <- <-; split; [reflexivity|apply in_map; cbn; tauto]|]. apply in_app_or in I as [I|[C|[]]]; [|injection C as <- <- <-; split; [reflexivity|apply in_map; cbn; tauto]].
    apply (axs_spec _ _ _ _ _ _ E) in I as (iax & f & _ & _ & -> & -> & _). split; [reflexivity|]. apply in_map. assert (X := ax_name iax). cbn in X |- *. tauto.
  - destruct (String.eqb (g_case g) "2d"); [|discriminate H]. destruct (negb _); [discriminate H|]. destruct (lmin gg) as [mn|]; [|discriminate H]. destruct (lmax gg) as [mx|]; [|discriminate H]. destruct (Req_EM_T mx mn); [discriminate H|]. destruct (f_2dG _ _ _) as [fit|]; [|discriminate H]. destruct (low2 fit) as [xo|]; [|discriminate H].
    destruct (nth_error xo 0) as [x0|]; [|discriminate H]. destruct (nth_error xo 1) as [x1|]; [|discriminate H]. destruct (g_vol g xo) as [w|]; [|discriminate H]. injection H as <-. destruct I as [C|[C|[C|[C|[]]]]]; injection C as <- <- <-; (split; [reflexivity|apply in_map; cbn; tauto]).
Qed.
Lemma fit_opt_unique gg prfx sym idx ws : g_nax g <= 3 -> ~ In sym ["ax0"; "ax1"; "ax2"; "V"; "B"] -> fit_opt GPa g gg prfx sym idx = Some ws -> forall k i v w, In (k, i, v) ws -> In (k, i, w) ws -> v = w.
Proof.
  unfold fit_opt. intros N3 NS H k i v w I J. cbn in NS. destruct (String.eqb (g_case g) "1d").
  - destruct (f_1dG _ _ _) as [fit|]; [|discriminate H]. destruct (low fit) as [vopt|]; [|discriminate H]. destruct (g_fitax g) as [fa|]; [|discriminate H]. destruct (opt_map _ _) as [axs|] eqn:E; [|discriminate H]. injection H as <-.
    assert (IN : forall v, In (k, i, v) ((opt_key prfx "V", idx, vopt) :: (opt_key prfx sym, idx, ev fit 0 vopt) :: axs ++ [(opt_key prfx "B", idx, (vopt * ev fit 2 vopt * GPa)%R)]) ->
      (k = opt_key prfx "V" /\ v = vopt) \/ (k = opt_key prfx sym /\ v = ev fit 0 vopt) \/ (exists iax f, iax < g_nax g /\ nth_error fa iax = Some f /\ k = opt_key prfx (ax iax) /\ v = ev f 0 vopt) \/ (k = opt_key prfx "B" /\ v = (vopt * ev fit 2 vopt * GPa)%R)).
    { clear - E. intros v [C|[C|I]]; [injection C as <- <- <-; auto|injection C as <- <- <-; auto|]. apply in_app_or in I as [I|[C|[]]]; [|injection C as <- <- <-; auto]. apply (axs_spec _ _ _ _ _ _ E) in I as (iax & f & A & B & C & _ & D). right. right. left. exists iax, f. auto. }
    destruct (IN v I) as [(A & ->)|[(A & ->)|[(x & f & L & F & A & ->)|(A & ->)]]]; destruct (IN w J) as [(B & ->)|[(B & ->)|[(y & f2 & L2 & F2 & B & ->)|(B & ->)]]]; try reflexivity; rewrite A in B; apply opt_key_inj in B; try (exfalso; try discriminate B; subst; intuition congruence);
      try (exfalso; assert (X := ax_name x); cbn in X; rewrite ?B in X; rewrite <- ?B in X; intuition congruence); try (exfalso; assert (X := ax_name y); cbn in X; rewrite ?B in X; rewrite <- ?B in X; intuition congruence).
    assert (x = y) by (destruct x as [|[|[|]]], y as [|[|[|]]]; try discriminate B; lia). subst y. congruence.
  - destruct (String.eqb (g_case g) "2d"); [|discriminate H]. destruct (negb _); [discriminate H|]. destruct (lmin gg) as [mn|]; [|discriminate H]. destruct (lmax gg) as [mx|]; [|discriminate H]. destruct (Req_EM_T mx mn); [discriminate H|]. destruct (f_2dG _ _ _) as [fit|]; [|discriminate H]. destruct (low2 fit) as [xo|]; [|discriminate H].
    destruct (nth_error xo 0) as [x0|]; [|discriminate H]. destruct (nth_error xo 1) as [x1|]; [|discriminate H]. destruct (g_vol g xo) as [u|]; [|discriminate H]. injection H as <-.
    destruct I as [C|[C|[C|[C|[]]]]]; injection C as <- <- <-; destruct J as [C|[C|[C|[C|[]]]]]; pose proof (f_equal snd C) as D; apply (f_equal (fun x => fst (fst x))) in C; cbn [fst snd] in C, D; apply opt_key_inj in C; first [exact D|exfalso; first [discriminate C|subst; intuition congruence]].
Qed.
Lemma loop_ext {I} (a b : I -> dict -> option dict) : (forall i d, a i d = b i d) -> forall l d, loop a l d = loop b l d.
Proof. intros E. induction l as [|i l IH]; intros d; [reflexivity|]. cbn [loop]. rewrite E. destruct (b i d); [apply IH|reflexivity]. Qed.
Lemma opt_loop {I} (key : string) (rows : I -> list (list nat)) (id : I -> list nat) prfx sym : g_nax g <= 3 -> ~ In sym ["ax0"; "ax1"; "ax2"; "V"; "B"] -> ~ In key (opt_keys prfx sym) -> (forall i j, id i = id j -> i = j) -> forall l d d',
  loop (fun i d => match gets key (rows i) d with Some gg => fit_opt_store GPa g d gg prfx sym (id i) | None => None end) l d = Some d' ->
  (forall k, ~ In k (opt_keys prfx sym) -> d' k = d k) /\
  (forall i, In i l -> exists gg ws, gets key (rows i) d = Some gg /\ fit_opt GPa g gg prfx sym (id i) = Some ws /\ forall k x v, In (k, x, v) ws -> cell d' k x v) /\
  (forall k s f, d k = Some (EArr s f) -> exists f', d' k = Some (EArr s f')).
Proof.
  intros N3 NS NK INJ l d d' H. destruct (loop_spec (fun i d => match gets key (rows i) d with Some gg => fit_opt_store GPa g d gg prfx sym (id i) | None => None end) (opt_keys prfx sym) (fun i d ws => exists gg, gets key (rows i) d = Some gg /\ fit_opt GPa g gg prfx sym (id i) = Some ws)) with (l := l) (d := d) (d' := d') as (wss & F & W).
  - intros i d0 d1 E. destruct (gets key (rows i) d0) as [gg|] eqn:G; [|discriminate E]. unfold fit_opt_store in E. destruct (fit_opt GPa g gg prfx sym (id i)) as [ws|] eqn:FO; [|discriminate E]. exists ws. split; [exact E|]. exists gg. auto.
  - intros i d0 ws (gg & _ & FO) k x v J. exact (proj2 (fit_opt_keys _ _ _ _ _ FO k x v J)).
  - intros i d1 d2 ws AG (gg & G & FO). exists gg. split; [|exact FO]. rewrite <- G. symmetry. apply gets_same. now apply AG.
  - exact H.
  - assert (KK : forall k x v, In (k, x, v) (concat wss) -> exists i ws, In i l /\ In ws wss /\ (exists gg, gets key (rows i) d = Some gg /\ fit_opt GPa g gg prfx sym (id i) = Some ws) /\ In (k, x, v) ws).
    { intros k x v J. apply in_concat in J as (ws & J1 & J2). apply In_nth_error in J1 as (n & J1). destruct (f2_nth_r _ _ _ F n ws J1) as (i & A & B). exists i, ws. split; [exact (nth_error_In _ _ A)|]. split; [exact (nth_error_In _ _ J1)|]. auto. }
    split; [|split].
    + intros k NI. apply (writes_other _ k d d' W). intros x v J. destruct (KK k x v J) as (i & ws & _ & _ & (gg & _ & FO) & J2). apply NI. exact (proj2 (fit_opt_keys _ _ _ _ _ FO k x v J2)).
    + intros i IL. apply In_nth_error in IL as (n & IL). destruct (f2_nth _ _ _ F n i IL) as (ws & A & gg & G & FO). exists gg, ws. split; [exact G|]. split; [exact FO|]. intros k x v J. apply (writes_cell (concat wss) d d' k x v W).
      * apply in_concat. exists ws. split; [exact (nth_error_In _ _ A)|exact J].
      * intros w J2. destruct (KK k x w J2) as (i2 & ws2 & _ & _ & (gg2 & G2 & FO2) & J3). assert (EI : i2 = i) by (apply INJ; rewrite <- (proj1 (fit_opt_keys _ _ _ _ _ FO2 k x w J3)); exact (proj1 (fit_opt_keys _ _ _ _ _ FO k x v J))). subst i2. rewrite G in G2. injection G2 as <-. rewrite FO in FO2. injection FO2 as <-. exact (fit_opt_unique _ _ _ _ _ N3 NS FO k x w v J3 J).
    + intros k s f D. destruct (writes_shape _ k d d' W s f D) as (f' & D' & _). now exists f'.
Qed.
(** a loop which fills one array row by row *)
Lemma row_loop {I} (key : string) (body : I -> dict -> option dict) (rows : I -> list (list nat)) (vals : I -> dict -> list R -> Prop) :
  (forall i d d', body i d = Some d' -> exists vs, vals i d vs /\ store_row key (rows i) vs d = Some d') ->
  (forall i d1 d2 vs, (forall k, k <> key -> d1 k = d2 k) -> vals i d1 vs -> vals i d2 vs) ->
  (forall i d v w, vals i d v -> vals i d w -> v = w) ->
  (forall i j n m x, nth_error (rows i) n = Some x -> nth_error (rows j) m = Some x -> i = j /\ n = m) ->
  forall l d d', loop body l d = Some d' ->
  (forall k, k <> key -> d' k = d k) /\ (forall i, In i l -> exists vs, vals i d vs /\ length vs = length (rows i) /\ gets key (rows i) d' = Some vs) /\ (forall s f, d key = Some (EArr s f) -> exists f', d' key = Some (EArr s f')).
Proof.
  intros B ST U INJ l d d' H. destruct (loop_spec body [key] (fun i d ws => exists vs, vals i d vs /\ length (rows i) = length vs /\ ws = row key (rows i) vs)) with (l := l) (d := d) (d' := d') as (wss & F & W).
  - intros i d0 d1 E. destruct (B i d0 d1 E) as (vs & V & S1). apply store_row_inv in S1 as (L & S1). exists (row key (rows i) vs). split; [exact S1|]. exists vs. auto.
  - intros i d0 ws (vs & _ & _ & ->) k x v J. apply in_row in J as (-> & _). now left.
  - intros i d1 d2 ws AG (vs & V & L & E). exists vs. split; [|auto]. apply (ST i d1); [|exact V]. intros k N. apply AG. intros [C|[]]. congruence.
  - exact H.
  - assert (KK : forall k x v, In (k, x, v) (concat wss) -> exists i vs, In i l /\ vals i d vs /\ In (k, x, v) (row key (rows i) vs)).
    { intros k x v J. apply in_concat in J as (ws & J1 & J2). apply In_nth_error in J1 as (n & J1). destruct (f2_nth_r _ _ _ F n ws J1) as (i & A & vs & V & _ & ->). exists i, vs. split; [exact (nth_error_In _ _ A)|]. auto. }
    split; [|split].
    + intros k N. apply (writes_other _ k d d' W). intros x v J. destruct (KK k x v J) as (i & vs & _ & _ & J2). apply in_row in J2 as (-> & _). now apply N.
    + intros i IL. apply In_nth_error in IL as (n & IL). destruct (f2_nth _ _ _ F n i IL) as (ws & A & vs & V & L & ->). exists vs. split; [exact V|]. split; [now symmetry|]. apply cells_gets; [now symmetry|]. intros j x v J1 J2. apply (writes_cell (concat wss) d d' key x v W).
      * apply in_concat. exists (row key (rows i) vs). split; [exact (nth_error_In _ _ A)|]. apply in_row. split; [reflexivity|]. now exists j.
      * intros w J3. destruct (KK key x w J3) as (i2 & vs2 & _ & V2 & J4). apply in_row in J4 as (_ & j2 & J5 & J6). destruct (INJ i i2 j j2 x J1 J5) as (<- & <-). rewrite (U i d vs2 vs V2 V) in J6. congruence.
    + intros s f D. destruct (writes_shape _ key d d' W s f D) as (f' & D' & _). now exists f'.
Qed.
Lemma tp_split (tp : nat * nat) : exists t p, tp = (t, p).
Proof. destruct tp as [t p]. eauto. Qed.
Lemma snoc_inj (a b : list nat) x y : a ++ [x] = b ++ [y] -> a = b /\ x = y.
Proof. intros H. apply app_inj_tail in H. exact H. Qed.
Lemma h_fill d d' : loop (h_body GPa g) (seq 0 (nP g)) d = Some d' ->
  (forall k, k <> H_key g -> d' k = d k) /\ (forall p, p < nP g -> exists q, nth_error (g_P g) p = Some q /\ length (shifted GPa g (g_etot g) q) = npoints g /\ gets (H_key g) (across [p] (npoints g)) d' = Some (shifted GPa g (g_etot g) q)) /\
  (forall s f, d (H_key g) = Some (EArr s f) -> exists f', d' (H_key g) = Some (EArr s f')).
Proof.
  intros H. destruct (row_loop (H_key g) (h_body GPa g) (fun p => across [p] (npoints g)) (fun p _ vs => exists q, nth_error (g_P g) p = Some q /\ vs = shifted GPa g (g_etot g) q)) with (5 := H) as (A & B & C).
  - intros i d0 d1 E. unfold h_body in E. destruct (nth_error (g_P g) i) as [q|] eqn:EQ; [|discriminate E]. eexists. split; [exists q; split; [first [exact EQ|reflexivity]|reflexivity]|exact E].
  - auto.
  - intros i _ v w (q & E & ->) (q2 & E2 & ->). congruence.
  - intros i j n m x E1 E2. apply across_nth in E1 as (_ & ->). apply across_nth in E2 as (_ & E2). injection E2 as -> ->. auto.
  - split; [exact A|]. split; [|exact C]. intros p L. destruct (B p) as (vs & (q & E & ->) & LL & G); [apply in_seq; lia|]. rewrite across_len in LL. eauto.
Qed.
Lemma g_fill d d' : loop (g_body GPa g) (tp_grid g) d = Some d' ->
  (forall k, k <> G_key g -> d' k = d k) /\ (forall t p, t < nT g -> p < nP g -> exists f q, gets (F_key g) (down (npoints g) t) d = Some f /\ nth_error (g_P g) p = Some q /\ length (shifted GPa g f q) = npoints g /\ gets (G_key g) (across [t; p] (npoints g)) d' = Some (shifted GPa g f q)) /\
  (forall s f, d (G_key g) = Some (EArr s f) -> exists f', d' (G_key g) = Some (EArr s f')).
Proof.
  intros H. destruct (row_loop (G_key g) (g_body GPa g) (fun tp => across [fst tp; snd tp] (npoints g)) (fun tp d vs => exists f q, gets (F_key g) (down (npoints g) (fst tp)) d = Some f /\ nth_error (g_P g) (snd tp) = Some q /\ vs = shifted GPa g f q)) with (5 := H) as (A & B & C).
  - intros [t p] d0 d1 E. unfold g_body in E. destruct (negb _); [discriminate E|]. destruct (gets (F_key g) (down (npoints g) t) d0) as [f|] eqn:F; [|discriminate E]. destruct (nth_error (g_P g) p) as [q|] eqn:EQ; [|discriminate E]. eexists. split; [exists f, q; split; [first [exact F|reflexivity]|split; [first [exact EQ|reflexivity]|reflexivity]]|exact E].
  - intros [t p] d1 d2 vs AG (f & q & F & Q & ->). exists f, q. split; [|auto]. rewrite <- F. symmetry. apply gets_same. apply AG. keys.
  - intros i d0 v w (f & q & F & E & ->) (f2 & q2 & F2 & E2 & ->). congruence.
  - intros [t p] [t2 p2] n m x E1 E2. apply across_nth in E1 as (_ & ->). apply across_nth in E2 as (_ & E2). injection E2 as -> -> ->. auto.
  - split; [exact A|]. split; [|exact C]. intros t p L1 L2. destruct (B (t, p)) as (vs & (f & q & F & E & ->) & LL & G); [now apply tp_in|]. cbn [fst snd] in *. rewrite across_len in LL. eauto 8.
Qed.
Lemma a_fill name d d' : In name alpha_names -> loop (a_body g name) (seq 0 (nP g)) d = Some d' ->
  (forall k, k <> alpha_key name -> d' k = d k) /\ (forall p, p < nP g -> exists x fit, gets (opt_key "/T/P" name) (down (nT g) p) d = Some x /\ f_alpha (g_fit g) (g_T g) x = Some fit /\ gets (alpha_key name) (down (nT g) p) d' = Some (map (fun tx => (ev fit 1 (fst tx) / snd tx)%R) (combine (g_T g) x))) /\
  (forall s f, d (alpha_key name) = Some (EArr s f) -> exists f', d' (alpha_key name) = Some (EArr s f')).
Proof.
  intros NM H. destruct (row_loop (alpha_key name) (a_body g name) (fun p => down (nT g) p) (fun p d vs => exists x fit, gets (opt_key "/T/P" name) (down (nT g) p) d = Some x /\ f_alpha (g_fit g) (g_T g) x = Some fit /\ vs = map (fun tx => (ev fit 1 (fst tx) / snd tx)%R) (combine (g_T g) x))) with (5 := H) as (A & B & C).
  - intros i d0 d1 E. unfold a_body in E. destruct (gets _ _ d0) as [x|] eqn:EX; [|discriminate E]. destruct (f_alpha _ _ x) as [fit|] eqn:EF; [|discriminate E]. eexists. split; [exists x, fit; split; [first [exact EX|reflexivity]|split; [first [exact EF|reflexivity]|reflexivity]]|exact E].
  - intros i d1 d2 vs AG (x & fit & F & Q & ->). exists x, fit. split; [|auto]. rewrite <- F. symmetry. apply gets_same. apply AG. cbn in NM. intuition; subst name; discriminate.
  - intros i d0 v w (x & fit & F & E & ->) (x2 & fit2 & F2 & E2 & ->). rewrite F in F2. injection F2 as <-. rewrite E in E2. injection E2 as <-. reflexivity.
  - intros i j n m x E1 E2. apply down_nth in E1 as (_ & ->). apply down_nth in E2 as (_ & E2). injection E2 as -> ->. auto.
  - split; [exact A|]. split; [|exact C]. intros p L. destruct (B p) as (vs & (x & fit & F & E & ->) & LL & G); [apply in_seq; lia|]. eauto 8.
Qed.
Lemma c_fill d d' : loop (c_body eV kb g) (seq 0 (nP g)) d = Some d' ->
  (forall k, k <> Cp_key -> d' k = d k) /\ (forall p, p < nP g -> exists x fit, gets (opt_key "/T/P" "G") (down (nT g) p) d = Some x /\ f_C (g_fit g) (g_T g) (map (fun y => y * eV / kb)%R x) = Some fit /\ gets Cp_key (down (nT g) p) d' = Some (map (fun t => (- t * ev fit 2 t)%R) (g_T g))) /\
  (forall s f, d Cp_key = Some (EArr s f) -> exists f', d' Cp_key = Some (EArr s f')).
Proof.
  intros H. destruct (row_loop Cp_key (c_body eV kb g) (fun p => down (nT g) p) (fun p d vs => exists x fit, gets (opt_key "/T/P" "G") (down (nT g) p) d = Some x /\ f_C (g_fit g) (g_T g) (map (fun y => y * eV / kb)%R x) = Some fit /\ vs = map (fun t => (- t * ev fit 2 t)%R) (g_T g))) with (5 := H) as (A & B & C).
  - intros i d0 d1 E. unfold c_body in E. destruct (gets _ _ d0) as [x|] eqn:EX; [|discriminate E]. destruct (f_C _ _ _) as [fit|] eqn:EF; [|discriminate E]. eexists. split; [exists x, fit; split; [first [exact EX|reflexivity]|split; [first [exact EF|reflexivity]|reflexivity]]|exact E].
  - intros i d1 d2 vs AG (x & fit & F & Q & ->). exists x, fit. split; [|auto]. rewrite <- F. symmetry. apply gets_same. apply AG. discriminate.
  - intros i d0 v w (x & fit & F & E & ->) (x2 & fit2 & F2 & E2 & ->). rewrite F in F2. injection F2 as <-. rewrite E in E2. injection E2 as <-. reflexivity.
  - intros i j n m x E1 E2. apply down_nth in E1 as (_ & ->). apply down_nth in E2 as (_ & E2). injection E2 as -> ->. auto.
  - split; [exact A|]. split; [|exact C]. intros p L. destruct (B p) as (vs & (x & fit & F & E & ->) & LL & G); [apply in_seq; lia|]. eauto 8.
Qed.
(** calc_F: all arrays are filled *)
Definition F_rows (b : bool) (ha : vib) (e : R) : list (string * list R) :=
  [("F", map (Rplus e) (fvib ha)); ("Fvib", fvib ha)] ++ (if b then [("Svib", svib ha); ("Evib", add (fvib ha) (mul (g_T g) (svib ha))); ("Cv", cv ha)] else []).
Definition T_key (name : string) : string := (prefix g ++ "/T/" ++ name)%string.
Definition F_writes (b : bool) (idx : nat) (ha : vib) (e : R) : list write := flat_map (fun nv => row (T_key (fst nv)) (across [idx] (nT g)) (snd nv)) (F_rows b ha e).
Lemma f_body_writes b idx d d' : f_body g b idx d = Some d' -> exists ha e, nth_error (g_vib g) idx = Some ha /\ nth_error (g_etot g) idx = Some e /\ writes (F_writes b idx ha e) d = Some d' /\ Forall (fun nv => length (snd nv) = nT g) (F_rows b ha e).
Proof.
  unfold f_body. destruct (nth_error (g_vib g) idx) as [ha|]; [|discriminate]. destruct (nth_error (g_etot g) idx) as [e|]; [|discriminate]. intros H. exists ha, e. split; [reflexivity|]. split; [reflexivity|]. unfold F_writes, F_rows. fold (T_key "F") (T_key "Fvib") (T_key "Svib") (T_key "Evib") (T_key "Cv") in H.
  assert (ST : forall k vs d1 d2, store_row k (across [idx] (nT g)) vs d1 = Some d2 -> length vs = nT g /\ writes (row k (across [idx] (nT g)) vs) d1 = Some d2) by (intros k vs d1 d2 E; apply store_row_inv in E as (L & E); rewrite across_len in L; auto).
  destruct (store_row (T_key "F") _ _ d) as [d1|] eqn:E1; [|destruct b; [destruct (_ || _); discriminate H|discriminate H]]. apply ST in E1 as (L1 & E1).
  destruct (store_row (T_key "Fvib") _ _ d1) as [d2|] eqn:E2; [|destruct b; [destruct (_ || _); discriminate H|discriminate H]]. apply ST in E2 as (L2 & E2). destruct b.
  - destruct (_ || _); [discriminate H|]. destruct (store_row (T_key "Svib") _ _ d2) as [d3|] eqn:E3; [|discriminate H]. destruct (store_row (T_key "Evib") _ _ d3) as [d4|] eqn:E4; [|discriminate H]. apply ST in E3 as (L3 & E3), E4 as (L4 & E4), H as (L5 & E5).
    split; [|repeat (apply Forall_cons; [assumption|]); apply Forall_nil]. cbn [app flat_map fst snd]. rewrite writes_app, E1, writes_app, E2, writes_app, E3, writes_app, E4, writes_app, E5. reflexivity.
  - injection H as <-. split; [|repeat (apply Forall_cons; [assumption|]); apply Forall_nil]. cbn [app flat_map fst snd]. rewrite writes_app, E1, writes_app, E2. reflexivity.
Qed.
Lemma T_key_inj a b : T_key a = T_key b -> a = b.
Proof. unfold T_key. intros H. do 2 apply append_inj in H. exact H. Qed.
Lemma in_F_writes b idx ha e k i v : In (k, i, v) (F_writes b idx ha e) <-> exists name vs t, In (name, vs) (F_rows b ha e) /\ k = T_key name /\ t < nT g /\ i = [idx; t] /\ nth_error vs t = Some v.
Proof.
  unfold F_writes. rewrite in_flat_map. split.
  - intros ([name vs] & I & J). apply in_row in J as (-> & t & A & B). apply across_nth in A as (L & ->). exists name, vs, t. auto.
  - intros (name & vs & t & I & -> & L & -> & B). exists (name, vs). split; [exact I|]. apply in_row. split; [reflexivity|]. exists t. split; [now apply across_nth|exact B].
Qed.
Lemma F_rows_fun b ha e name v w : In (name, v) (F_rows b ha e) -> In (name, w) (F_rows b ha e) -> v = w.
Proof. unfold F_rows. destruct b; cbn; intuition; congruence. Qed.
Lemma F_rows_names b ha e name v : In (name, v) (F_rows b ha e) -> In name (F_names b).
Proof. intros H. apply (in_map fst) in H. cbn [fst] in H. unfold F_rows, F_names in *. destruct b; cbn in H |- *; tauto. Qed.
Lemma f_fill b d d' : loop (f_body g b) (seq 0 (npoints g)) d = Some d' ->
  (forall k, ~ In k (map T_key (F_names b)) -> d' k = d k) /\
  (forall i, i < npoints g -> exists ha e, nth_error (g_vib g) i = Some ha /\ nth_error (g_etot g) i = Some e /\ Forall (fun nv => length (snd nv) = nT g) (F_rows b ha e) /\
     forall name vs t x, In (name, vs) (F_rows b ha e) -> nth_error vs t = Some x -> cell d' (T_key name) [i; t] x) /\
  (forall k s f, d k = Some (EArr s f) -> exists f', d' k = Some (EArr s f')).
Proof.
  intros H. destruct (loop_spec (f_body g b) (map T_key (F_names b)) (fun i d ws => exists ha e, nth_error (g_vib g) i = Some ha /\ nth_error (g_etot g) i = Some e /\ Forall (fun nv => length (snd nv) = nT g) (F_rows b ha e) /\ ws = F_writes b i ha e)) with (4 := H) as (wss & F & W).
  - intros i d0 d1 E. destruct (f_body_writes b i d0 d1 E) as (ha & e & A & B & C & D). exists (F_writes b i ha e). split; [exact C|]. exists ha, e. auto.
  - intros i d0 ws (ha & e & _ & _ & _ & ->) k x v J. apply in_F_writes in J as (name & vs & t & I & -> & _). apply in_map. exact (F_rows_names _ _ _ _ _ I).
  - auto.
  - assert (KK : forall k x v, In (k, x, v) (concat wss) -> exists i ha e, nth_error (g_vib g) i = Some ha /\ nth_error (g_etot g) i = Some e /\ In (k, x, v) (F_writes b i ha e)).
    { intros k x v J. apply in_concat in J as (ws & J1 & J2). apply In_nth_error in J1 as (n & J1). destruct (f2_nth_r _ _ _ F n ws J1) as (i & A & ha & e & B & C & _ & ->). exists i, ha, e. auto. }
    split; [|split].
    + intros k N. apply (writes_other _ k d d' W). intros x v J. destruct (KK k x v J) as (i & ha & e & _ & _ & J2). apply in_F_writes in J2 as (name & vs & t & I & -> & _). apply N. apply in_map. exact (F_rows_names _ _ _ _ _ I).
    + intros i L. destruct (f2_nth _ _ _ F i i (seq_nth _ _ L)) as (ws & A & ha & e & B & C & FL & ->). exists ha, e. split; [exact B|]. split; [exact C|]. split; [exact FL|]. intros name vs t x I X.
      assert (TL : t < nT g) by (rewrite Forall_forall in FL; rewrite <- (FL _ I); apply nth_error_Some; cbn; congruence).
      apply (writes_cell (concat wss) d d' _ _ _ W).
      * apply in_concat. exists (F_writes b i ha e). split; [exact (nth_error_In _ _ A)|]. apply in_F_writes. exists name, vs, t. auto.
      * intros w J. destruct (KK _ _ _ J) as (i2 & ha2 & e2 & B2 & C2 & J2). apply in_F_writes in J2 as (n2 & vs2 & t2 & I2 & K2 & _ & E2 & X2). injection E2 as <- <-. apply T_key_inj in K2. subst n2. rewrite B in B2. injection B2 as <-. rewrite C in C2. injection C2 as <-. rewrite (F_rows_fun _ _ _ _ _ _ I I2) in X. congruence.
    + intros k s f D. destruct (writes_shape _ k d d' W s f D) as (f' & D' & _). now exists f'.
Qed.
End LOOPS.
