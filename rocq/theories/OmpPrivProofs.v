From Coq Require Import List Arith Permutation Lia.
From Verif Require Import OmpPriv OmpProofs.
Import ListNotations.

Section OmpPriv.
  Context {K S A : Type}.
  Variable eqb : K -> K -> bool.
  Hypothesis eqb_spec : forall k k', eqb k k' = true <-> k = k'.
  Variable owner : K -> nat.
  Notation run := (run eqb). Notation exec := (exec eqb). Notation set := (set eqb).
  Implicit Types (p q : list (instr K S A)) (m : K -> A).

  Definition writes (i : instr K S A) (k : K) : Prop := exists g, i = Put k g.

  Lemma set_same m k a : set m k a k = a.
  Proof. unfold OmpPriv.set. destruct (eqb k k) eqn:E; [reflexivity|]. rewrite (proj2 (eqb_spec k k) eq_refl) in E. discriminate. Qed.
  Lemma set_other m k k' a : k' <> k -> set m k a k' = m k'.
  Proof. intros N. unfold OmpPriv.set. destruct (eqb k' k) eqn:E; [|reflexivity]. apply eqb_spec in E. contradiction. Qed.

  Lemma run_app p q s m : run (p ++ q) s m = run q (fst (run p s m)) (snd (run p s m)).
  Proof. revert s m. induction p as [|i p IH]; intros s m; [reflexivity|]. cbn. destruct (exec i s m). apply IH. Qed.
  Lemma run_loc p s m m' : fst (run p s m) = fst (run p s m').
  Proof. revert s m m'. induction p as [|i p IH]; intros s m m'; [reflexivity|]. cbn. destruct i; cbn; apply IH. Qed.
  Lemma run_ext p s m m' k : m k = m' k -> snd (run p s m) k = snd (run p s m') k.
  Proof.
    revert s m m'. induction p as [|i p IH]; intros s m m' E; [exact E|]. cbn. destruct i as [f|k' g]; cbn; apply IH; [exact E|].
    unfold OmpPriv.set. now destruct (eqb k k').
  Qed.
  Lemma run_untouched p s m k : (forall i, In i p -> ~ writes i k) -> snd (run p s m) k = m k.
  Proof.
    revert s m. induction p as [|i p IH]; intros s m H; [reflexivity|]. cbn.
    assert (Hp : forall j, In j p -> ~ writes j k) by (intros; apply H; now right).
    destruct i as [f|k' g]; cbn; rewrite IH by exact Hp; [reflexivity|]. apply set_other. intros ->.
    apply (H (Put k' g)); [now left|]. now exists g.
  Qed.

  Record pinv (expected m0 : K -> A) (assign : list (list nat)) (c : pconfig (K:=K) (S:=S) (A:=A)) : Prop := PInv {
    pinv_own : forall i th its, nth_error (pthreads c) i = Some th -> nth_error assign i = Some its ->
      forall x k, In x (ptodo th) -> writes x k -> In (owner k) its;
    pinv_len : length (pthreads c) = length assign;
    pinv_val : forall i th its, nth_error (pthreads c) i = Some th -> nth_error assign i = Some its ->
      forall k, In (owner k) its -> snd (run (ptodo th) (ploc th) (pmem c)) k = expected k;
    pinv_rest : forall k, ~ In (owner k) (concat assign) -> pmem c k = m0 k }.

  Lemma nodup_parts (a b : list nat) : NoDup (a ++ b) -> NoDup a /\ NoDup b.
  Proof.
    induction a as [|x a IH]; cbn; intros H; [split; [constructor|exact H]|]. inversion H as [|? ? N H']; subst.
    destruct (IH H') as [A1 B1]. split; [|exact B1]. constructor; [|exact A1]. intros B. apply N, in_or_app. now left.
  Qed.
  Lemma disjoint_concat (l : list (list nat)) i j a b x : NoDup (concat l) -> nth_error l i = Some a -> nth_error l j = Some b ->
    In x a -> In x b -> i = j.
  Proof.
    intros ND. destruct (owner_exists l ND) as [o Ho]. intros Hi Hj Ha Hb.
    rewrite <- (Ho i a Hi x Ha). exact (Ho j b Hj x Hb).
  Qed.

  Lemma pstep_inv expected m0 assign c c' : NoDup (concat assign) -> pinv expected m0 assign c -> pstep eqb c c' -> pinv expected m0 assign c'.
  Proof.
    intros ND [Own Len Val Rest] St. inversion St as [m pre post i rest s s' m' E]; subst. cbn [pthreads pmem] in *.
    assert (HL : length (pre ++ PThread rest s' :: post) = length assign) by (rewrite <- Len, !app_length; reflexivity).
    destruct (nth_error assign (length pre)) as [me|] eqn:Eme.
    2:{ apply nth_error_None in Eme. rewrite app_length in HL. cbn in HL. lia. }
    assert (Hw : forall k, writes i k -> In (owner k) me).
    { intros k Hk. eapply (Own (length pre)); [apply nth_error_at|exact Eme| |exact Hk]. now left. }
    assert (Hm : forall k, ~ In (owner k) me -> m' k = m k).
    { intros k N. destruct i as [f|k' g]; cbn in E; injection E as <- <-; [reflexivity|]. apply set_other. intros ->. apply N, Hw. now exists g. }
    constructor; cbn [pthreads pmem].
    - intros j th its Hj Hits x k Hx Hk. destruct (Nat.eq_dec j (length pre)) as [->|N].
      + rewrite nth_error_at in Hj. injection Hj as <-. cbn in Hx.
        eapply (Own (length pre)); [apply nth_error_at|exact Hits| |exact Hk]. now right.
      + rewrite (nth_error_mid _ pre post _ (PThread (i :: rest) s)) in Hj by exact N. eapply Own; eassumption.
    - exact HL.
    - intros j th its Hj Hits k Hk. destruct (Nat.eq_dec j (length pre)) as [->|N].
      + rewrite nth_error_at in Hj. injection Hj as <-. cbn [ptodo ploc].
        rewrite <- (Val (length pre) (PThread (i :: rest) s) its (nth_error_at _ _ _ _) Hits k Hk). cbn [ptodo ploc OmpPriv.run]. rewrite E. reflexivity.
      + rewrite (nth_error_mid _ pre post _ (PThread (i :: rest) s)) in Hj by exact N.
        rewrite <- (Val j th its Hj Hits k Hk). apply run_ext. apply Hm. intros B. apply N. eapply disjoint_concat; eassumption.
    - intros k N. rewrite Hm; [apply Rest, N|]. intros B. apply N. apply in_concat. exists me. split; [eapply nth_error_In; eassumption|exact B].
  Qed.
  Lemma psteps_inv expected m0 assign c c' : NoDup (concat assign) -> psteps eqb c c' -> pinv expected m0 assign c -> pinv expected m0 assign c'.
  Proof. intros ND. induction 1; auto. intros. apply IHpsteps. eapply pstep_inv; eassumption. Qed.

  (** An iteration writes its own elements only, and gives them the expected value whatever
      the scratch and the result array hold when it starts. *)
  Definition iteration_ok (n : nat) (body : nat -> list (instr K S A)) (expected : K -> A) : Prop :=
    (forall t x k, In x (body t) -> writes x k -> owner k = t) /\
    (forall t s m k, t < n -> owner k = t -> snd (run (body t) s m) k = expected k).

  Lemma run_its n body expected its s m k : iteration_ok n body expected -> NoDup its -> (forall t, In t its -> t < n) ->
    In (owner k) its -> snd (run (flat_map body its) s m) k = expected k.
  Proof.
    intros [Hw Hv]. revert s m. induction its as [|t its IH]; intros s m ND L [].
    - cbn [flat_map]. rewrite run_app. rewrite run_untouched.
      + apply Hv; [apply L; now left|auto].
      + intros i Hi Hk. apply in_flat_map in Hi. destruct Hi as (t' & Ht' & Hi). inversion ND as [|? ? N _]; subst. apply N.
        rewrite (Hw t' i k Hi Hk). exact Ht'.
    - cbn [flat_map]. rewrite run_app. inversion ND; subst. apply IH; auto. intros; apply L; now right.
  Qed.

  Theorem private_spec n body expected m m' : iteration_ok n body expected -> private_do eqb n body m m' ->
    forall k, m' k = if owner k <? n then expected k else m k.
  Proof.
    intros H (assign & c & P & St & F & ->) k.
    assert (ND : NoDup (concat (map fst assign))) by (eapply Permutation_NoDup; [apply Permutation_sym; exact P|apply seq_NoDup]).
    assert (Hin : forall t, In t (concat (map fst assign)) <-> t < n).
    { intros t. split; intros X; [apply (Permutation_in _ P), in_seq in X; lia|]. apply (Permutation_in _ (Permutation_sym P)), in_seq. lia. }
    assert (NDi : forall i its, nth_error (map fst assign) i = Some its -> NoDup its).
    { intros i its Hi. apply nth_error_split in Hi. destruct Hi as (l1 & l2 & E & _). rewrite E, concat_app in ND. cbn in ND.
      exact (proj1 (nodup_parts _ _ (proj2 (nodup_parts _ _ ND)))). }
    assert (I : pinv expected m (map fst assign) (pstart m body assign)).
    { constructor; unfold pstart; cbn [pthreads pmem].
      - intros i th its Hi Hits x k' Hx Hk. apply nth_error_map_inv in Hi. destruct Hi as (a & Ha & ->). cbn in Hx.
        rewrite (map_nth_error fst _ _ Ha) in Hits. injection Hits as <-.
        apply in_flat_map in Hx. destruct Hx as (t & Ht & Hx). rewrite (proj1 H t x k' Hx Hk). exact Ht.
      - now rewrite !map_length.
      - intros i th its Hi Hits k' Hk. apply nth_error_map_inv in Hi. destruct Hi as (a & Ha & ->). cbn [ptodo ploc].
        rewrite (map_nth_error fst _ _ Ha) in Hits. injection Hits as <-.
        eapply run_its; [exact H| | |exact Hk].
        + eapply NDi. apply (map_nth_error fst _ _ Ha).
        + intros t Ht. apply Hin, in_concat. exists (fst a). split; [|exact Ht]. apply in_map. eapply nth_error_In. eassumption.
      - reflexivity. }
    pose proof (psteps_inv _ _ _ _ _ ND St I) as [_ Len Val Rest]. destruct (Nat.ltb_spec (owner k) n) as [L|L].
    - apply Hin, in_concat in L. destruct L as (its & Hits & Hk). apply In_nth_error in Hits. destruct Hits as (i & Hi).
      destruct (nth_error (pthreads c) i) as [th|] eqn:Eth.
      2:{ apply nth_error_None in Eth. assert (i < length (map fst assign)) by (apply nth_error_Some; rewrite Hi; discriminate). lia. }
      rewrite <- (Val i th its Eth Hi k Hk). unfold pfinished in F. rewrite Forall_forall in F. rewrite (F th); [reflexivity|].
      eapply nth_error_In. eassumption.
    - apply Rest. intros B. apply Hin in B. lia.
  Qed.

  (** No schedule blocks: every thread with something to do can go on, and any execution
      can be completed. *)
  Definition pwork (c : pconfig (K:=K) (S:=S) (A:=A)) : nat := list_sum (map (fun th => length (ptodo th)) (pthreads c)).
  Lemma pcomplete k : forall c, pwork c = k -> exists c', psteps eqb c c' /\ pfinished c'.
  Proof.
    induction k as [|k IH]; intros [m ths] W; unfold pwork in *; cbn [pthreads] in *.
    - eexists. split; [constructor|]. unfold pfinished. cbn. induction ths as [|th ths IHt]; constructor; cbn in W.
      + destruct (ptodo th); [reflexivity|discriminate].
      + apply IHt. destruct (ptodo th); [exact W|discriminate].
    - assert (G : exists pre i rest s post, ths = pre ++ PThread (i :: rest) s :: post).
      { clear IH. induction ths as [|[td s] ths IHt]; [discriminate|]. destruct td as [|i rest].
        - destruct (IHt W) as (pre & i & rest & s' & post & ->). exists (PThread [] s :: pre), i, rest, s', post. reflexivity.
        - exists [], i, rest, s, ths. reflexivity. }
      destruct G as (pre & i & rest & s & post & ->). destruct (exec i s m) as [s' m1] eqn:E.
      destruct (IH (PConfig m1 (pre ++ PThread rest s' :: post))) as (c' & Hc & F).
      { unfold pwork; cbn [pthreads]. rewrite map_app, list_sum_app in *. cbn in *. lia. }
      exists c'. split; [|exact F]. econstructor; [constructor; exact E|exact Hc].
  Qed.
  Theorem private_runs n (body : nat -> list (instr K S A)) m assign : Permutation (concat (map fst assign)) (seq 0 n) ->
    exists c, psteps eqb (pstart m body assign) c /\ pfinished c /\ private_do eqb n body m (pmem c).
  Proof.
    intros P. destruct (pcomplete _ (pstart m body assign) eq_refl) as (c & Hc & F). exists c. split; [exact Hc|]. split; [exact F|].
    exists assign, c. auto.
  Qed.

  (** Without [private]: a thread may run any prefix of its program. *)
  Lemma ssteps_prefix p q m s pre post : ssteps eqb (SConfig m s (pre ++ (p ++ q) :: post))
    (SConfig (snd (run p s m)) (fst (run p s m)) (pre ++ q :: post)).
  Proof.
    revert m s. induction p as [|i p IH]; intros m s; [constructor|]. cbn [OmpPriv.run app]. destruct (exec i s m) as [s' m'] eqn:E.
    econstructor; [constructor; exact E|apply IH].
  Qed.
  Lemma ssteps_trans c c' c'' : ssteps (A:=A) (S:=S) eqb c c' -> ssteps eqb c' c'' -> ssteps eqb c c''.
  Proof. induction 1; auto. intros. econstructor; eauto. Qed.
End OmpPriv.
