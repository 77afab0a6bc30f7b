From Coq Require Import List Arith Permutation Lia.
From Verif Require Import Omp.
Import ListNotations.

Section Omp.
  Context {A : Type}.
  Implicit Types (m : nat -> A) (ops : list (op A)).

  (** What a list of updates does to one cell. *)
  Definition effect (t : nat) ops (a : A) : A := fold_left (fun a o => if fst o =? t then snd o a else a) ops a.
  Definition pending (c : config A) : list (op A) := concat (map todo (threads c)).

  Lemma effect_app : forall t p q a, effect t (p ++ q) a = effect t q (effect t p a).
  Proof. intros. unfold effect. apply fold_left_app. Qed.
  Lemma effect_none : forall t p a, (forall o, In o p -> fst o <> t) -> effect t p a = a.
  Proof.
    induction p as [|o p IH]; intros a H; [reflexivity|]. cbn. destruct (Nat.eqb_spec (fst o) t) as [E|N].
    - exfalso. exact (H o (or_introl eq_refl) E).
    - apply IH. intros. apply H. right. assumption.
  Qed.

  (** Each cell belongs to one thread; what a thread has read is still there. *)
  Record inv (owner : nat -> nat) (expected : nat -> A) (c : config A) : Prop := Inv {
    inv_own : forall i th, nth_error (threads c) i = Some th -> forall o, In o (todo th) -> owner (fst o) = i;
    inv_reg : forall th a, In th (threads c) -> reg th = Some a ->
       exists t f rest, todo th = (t, f) :: rest /\ a = mem c t;
    inv_mem : forall t, effect t (pending c) (mem c t) = expected t }.

  Lemma nth_error_mid : forall (B : Type) (pre post : list B) x y i, i <> length pre ->
    nth_error (pre ++ x :: post) i = nth_error (pre ++ y :: post) i.
  Proof.
    intros B pre post x y i H. destruct (Nat.lt_ge_cases i (length pre)) as [L|L].
    - rewrite !nth_error_app1 by assumption. reflexivity.
    - rewrite !nth_error_app2 by assumption. destruct (i - length pre) eqn:E; [lia|reflexivity].
  Qed.
  Lemma nth_error_at : forall (B : Type) (pre post : list B) x, nth_error (pre ++ x :: post) (length pre) = Some x.
  Proof. intros. rewrite nth_error_app2 by lia. rewrite Nat.sub_diag. reflexivity. Qed.

  (** The other threads own other cells. *)
  Lemma others : forall owner (m : nat -> A) (pre : list (thread A)) th post t,
    (forall i x, nth_error (pre ++ th :: post) i = Some x -> forall o, In o (todo x) -> owner (fst o) = i) ->
    owner t = length pre ->
    forall x o, In x pre \/ In x post -> In o (todo x) -> fst o <> t.
  Proof.
    intros owner m pre th post t H Ht x o [Hx|Hx] Ho E; apply In_nth_error in Hx; destruct Hx as [k Hk].
    - assert (L : k < length pre) by (apply nth_error_Some; rewrite Hk; discriminate).
      rewrite <- E in Ht. rewrite (H k x) in Ht by (auto; rewrite nth_error_app1; assumption). lia.
    - rewrite <- E in Ht. rewrite (H (length pre + S k) x) in Ht; [lia| |assumption].
      rewrite nth_error_app2 by lia. replace (length pre + S k - length pre) with (S k) by lia. assumption.
  Qed.

  Lemma step_inv : forall owner expected c c', inv owner expected c -> step c c' -> inv owner expected c'.
  Proof.
    intros owner expected c c' [Own Reg Mem] S. inversion S; subst; cbn [threads mem pending] in *.
    - constructor; cbn [threads mem].
      + intros i th Hi o Ho. destruct (Nat.eq_dec i (length pre)) as [->|N].
        * rewrite nth_error_at in Hi. injection Hi as <-. cbn [todo] in Ho.
          apply (Own (length pre) (Thread ((t, f) :: rest) None)); [apply nth_error_at|assumption].
        * rewrite (nth_error_mid _ _ _ _ (Thread ((t, f) :: rest) None)) in Hi by assumption. eapply Own; eassumption.
      + intros th a Hth Hr. apply in_app_or in Hth. destruct Hth as [Hth|[<-|Hth]].
        * apply Reg; [apply in_or_app; left|]; assumption.
        * cbn in Hr. injection Hr as <-. cbn. eauto.
        * apply Reg; [apply in_or_app; right; right|]; assumption.
      + intros t'. rewrite <- Mem. unfold pending. cbn [threads]. rewrite !map_app. reflexivity.
    - assert (Ot : owner t = length pre).
      { apply (Own (length pre) (Thread ((t, f) :: rest) (Some a)) (nth_error_at _ _ _ _) (t, f)). left. reflexivity. }
      assert (Ra : a = m t).
      { destruct (Reg (Thread ((t, f) :: rest) (Some a)) a) as (t' & f' & r' & E & E'); [apply in_or_app; right; left; reflexivity|reflexivity|].
        cbn in E. injection E as <- <- <-. assumption. }
      pose proof (others owner m pre _ post t Own Ot) as Oth.
      constructor; cbn [threads mem].
      + intros i th Hi o Ho. destruct (Nat.eq_dec i (length pre)) as [->|N].
        * rewrite nth_error_at in Hi. injection Hi as <-. cbn [todo] in Ho.
          apply (Own (length pre) (Thread ((t, f) :: rest) (Some a))); [apply nth_error_at|right; assumption].
        * rewrite (nth_error_mid _ _ _ _ (Thread ((t, f) :: rest) (Some a))) in Hi by assumption. eapply Own; eassumption.
      + intros th b Hth Hr. assert (Hth' : In th pre \/ In th post).
        { apply in_app_or in Hth. destruct Hth as [Hth|[<-|Hth]]; auto. discriminate. }
        destruct (Reg th b) as (t' & f' & r' & E & ->); [apply in_or_app; destruct Hth'; [left|right; right]; assumption|assumption|].
        exists t', f', r'. split; [assumption|]. unfold write. destruct (Nat.eqb_spec t' t) as [->|]; [|reflexivity].
        exfalso. apply (Oth th (t, f') Hth'); [rewrite E; left; reflexivity|reflexivity].
      + intros t'. rewrite <- Mem. unfold pending. cbn [threads]. rewrite !map_app, !concat_app. cbn [map concat todo].
        rewrite !effect_app. unfold write.
        assert (HD : forall b, effect t' ((t, f) :: rest) b = effect t' rest (if t =? t' then f b else b)) by reflexivity.
        rewrite HD. destruct (Nat.eqb_spec t' t) as [->|N].
        * assert (P : forall b, effect t (concat (map todo pre)) b = b).
          { intros b. apply effect_none. intros o Ho. apply in_concat in Ho. destruct Ho as (l & Hl & Ho).
            apply in_map_iff in Hl. destruct Hl as (th & <- & Hth). eapply Oth; eauto. }
          rewrite !P. rewrite Ra, Nat.eqb_refl. reflexivity.
        * destruct (Nat.eqb_spec t t') as [->|]; [contradiction|]. reflexivity.
  Qed.

  Lemma steps_inv : forall owner expected n c c', steps n c c' -> inv owner expected c -> inv owner expected c'.
  Proof. induction 1; auto. intros. apply IHsteps. eapply step_inv; eassumption. Qed.

  Lemma finished_mem : forall owner expected c, inv owner expected c -> finished c -> forall t, mem c t = expected t.
  Proof.
    intros owner expected c [_ _ Mem] F t. rewrite <- Mem. unfold pending.
    replace (concat (map todo (threads c))) with (@nil (op A)); [reflexivity|].
    unfold finished in F. clear Mem. induction (threads c) as [|th l IH]; [reflexivity|]. inversion F as [|? ? H1 H2]; subst.
    cbn. rewrite H1. apply IH. assumption.
  Qed.

  Lemma owner_exists : forall assign : list (list nat), NoDup (concat assign) ->
    exists owner, forall i l, nth_error assign i = Some l -> forall t, In t l -> owner t = i.
  Proof.
    induction assign as [|l0 assign IH]; intros ND.
    - exists (fun _ => 0). intros [|i] l H; discriminate.
    - cbn in ND. assert (D : forall t, In t l0 -> ~ In t (concat assign)).
      { clear IH. induction l0 as [|a l0 IHl]; intros t []; cbn in ND; inversion ND; subst.
        - intros H. match goal with N : ~ In _ _ |- _ => apply N end. apply in_or_app. right. assumption.
        - apply IHl; assumption. }
      destruct IH as [owner Ho].
      { clear D. induction l0 as [|a l0 IHl]; [assumption|]. cbn in ND. inversion ND; auto. }
      exists (fun t => if in_dec Nat.eq_dec t l0 then 0 else S (owner t)). intros [|i] l H t Ht; cbn in H.
      + injection H as <-. destruct (in_dec _ t l0); [reflexivity|contradiction].
      + destruct (in_dec _ t l0) as [I|I].
        * exfalso. apply (D t I). apply in_concat. exists l. split; [eapply nth_error_In; eassumption|assumption].
        * f_equal. eapply Ho; eassumption.
  Qed.

  Lemma nth_error_map_inv : forall (B D : Type) (f : B -> D) l i y, nth_error (map f l) i = Some y -> exists x, nth_error l i = Some x /\ y = f x.
  Proof. induction l as [|a l IH]; intros [|i] y H; cbn in *; try discriminate; [injection H as <-; eauto|auto]. Qed.

  Lemma start_inv : forall m body assign, NoDup (concat assign) -> (forall t o, In o (body t) -> fst o = t) ->
    exists owner, inv owner (fun t => effect t (flat_map body (concat assign)) (m t)) (start m body assign).
  Proof.
    intros m body assign ND B. destruct (owner_exists assign ND) as [owner Ho]. exists owner. unfold start. constructor; cbn [threads mem].
    - intros i th Hi o H. apply nth_error_map_inv in Hi. destruct Hi as (its & Hi & ->). cbn [todo] in H.
      apply in_flat_map in H. destruct H as (t & Ht & H). rewrite (B t o H). eapply Ho; eassumption.
    - intros th a Hth Hr. apply in_map_iff in Hth. destruct Hth as (its & <- & _). discriminate.
    - intros t. f_equal. unfold pending. cbn [threads]. rewrite map_map. cbn [todo].
      clear. induction assign as [|l assign IH]; [reflexivity|]. cbn. rewrite IH, flat_map_app. reflexivity.
  Qed.

  (** The effect of all iterations on one cell is that of its own iteration. *)
  Lemma effect_body : forall body its t a, (forall t o, In o (body t) -> fst o = t) -> NoDup its ->
    effect t (flat_map body its) a = if in_dec Nat.eq_dec t its then effect t (body t) a else a.
  Proof.
    intros body its t a B. revert a. induction its as [|i its IH]; intros a ND; [reflexivity|]. cbn [flat_map]. rewrite effect_app.
    inversion ND as [|? ? N1 N2]; subst. destruct (Nat.eq_dec i t) as [->|N].
    - destruct (in_dec Nat.eq_dec t (t :: its)) as [_|F]; [|exfalso; apply F; left; reflexivity].
      rewrite IH by assumption. destruct (in_dec Nat.eq_dec t its) as [I|I]; [contradiction|reflexivity].
    - rewrite (effect_none t (body i)) by (intros o Ho; rewrite (B i o Ho); assumption). rewrite IH by assumption.
      destruct (in_dec Nat.eq_dec t its) as [I|I]; destruct (in_dec Nat.eq_dec t (i :: its)) as [J|J]; auto.
      + exfalso. apply J. right. assumption.
      + destruct J; [contradiction|contradiction].
  Qed.

  Lemma effect_own : forall ops t a, (forall o, In o ops -> fst o = t) -> effect t ops a = fold_left (fun a o => snd o a) ops a.
  Proof.
    induction ops as [|o ops IH]; intros t a H; [reflexivity|]. cbn. rewrite (H o (or_introl eq_refl)), Nat.eqb_refl.
    apply IH. intros. apply H. right. assumption.
  Qed.

  Theorem parallel_spec : forall n body m m', (forall t o, In o (body t) -> fst o = t) -> parallel_do n body m m' ->
    forall t, m' t = if t <? n then fold_left (fun a o => snd o a) (body t) (m t) else m t.
  Proof.
    intros n body m m' B (assign & k & c & P & St & F & ->) t.
    assert (ND : NoDup (concat assign)) by (eapply Permutation_NoDup; [apply Permutation_sym; exact P|apply seq_NoDup]).
    destruct (start_inv m body assign ND B) as [owner I].
    rewrite (finished_mem _ _ _ (steps_inv _ _ _ _ _ St I) F).
    rewrite effect_body by assumption. destruct (in_dec Nat.eq_dec t (concat assign)) as [J|J]; destruct (Nat.ltb_spec t n) as [L|L].
    - apply effect_own. intros o Ho. apply (B t o Ho).
    - apply (Permutation_in _ P), in_seq in J. lia.
    - exfalso. apply J. apply (Permutation_in _ (Permutation_sym P)), in_seq. lia.
    - reflexivity.
  Qed.

  Lemma sequential_effect : forall ops m t, fold_left run1 ops m t = effect t ops (m t).
  Proof.
    induction ops as [|o ops IH]; intros m t; [reflexivity|]. cbn. rewrite IH. unfold run1, write. rewrite (Nat.eqb_sym t).
    destruct (Nat.eqb_spec (fst o) t) as [->|]; reflexivity.
  Qed.

  Theorem sequential_spec : forall n body m, (forall t o, In o (body t) -> fst o = t) ->
    forall t, sequential_do n body m t = if t <? n then fold_left (fun a o => snd o a) (body t) (m t) else m t.
  Proof.
    intros n body m B t. unfold sequential_do. rewrite sequential_effect, effect_body by (auto; apply seq_NoDup).
    destruct (in_dec Nat.eq_dec t (seq 0 n)) as [J|J]; destruct (Nat.ltb_spec t n) as [L|L].
    - apply effect_own. intros o Ho. apply (B t o Ho).
    - apply in_seq in J. lia.
    - exfalso. apply J. apply in_seq. lia.
    - reflexivity.
  Qed.

  (** No schedule blocks, and every schedule takes the same number of steps. *)
  Definition work (c : config A) : nat :=
    list_sum (map (fun th => 2 * length (todo th) - match reg th with Some _ => 1 | None => 0 end) (threads c)).

  Lemma step_work : forall owner expected c c', inv owner expected c -> step c c' -> work c = S (work c').
  Proof.
    intros owner expected c c' _ S. inversion S; subst; unfold work; cbn [threads]; rewrite !map_app, !list_sum_app; cbn; lia.
  Qed.
  Lemma steps_work : forall owner expected n c c', steps n c c' -> inv owner expected c -> work c = n + work c'.
  Proof.
    induction 1 as [|n c c' c'' S SS IH]; intros I; [reflexivity|]. rewrite (step_work _ _ _ _ I S).
    rewrite (IH (step_inv _ _ _ _ I S)). lia.
  Qed.
  Lemma progress : forall c, finished c \/ exists c', @step A c c'.
  Proof.
    intros [m ths]. unfold finished. cbn [threads].
    assert (G : forall ths, Forall (fun th => todo th = []) ths \/ exists pre th post, ths = pre ++ th :: post /\ @todo A th <> []).
    { clear. induction ths as [|th ths [IH|(pre & x & post & -> & H)]]; [left; constructor| |].
      - destruct (todo th) eqn:E; [left; constructor; assumption|]. right. exists [], th, ths. split; [reflexivity|]. rewrite E. discriminate.
      - right. exists (th :: pre), x, post. auto. }
    destruct (G ths) as [F|(pre & [td r] & post & -> & H)]; [left; assumption|]. right. cbn in H. destruct td as [|[t f] rest]; [contradiction|].
    destruct r as [a|]; eexists; [apply Write|apply Read].
  Qed.
  Lemma run_to_end : forall owner expected k c, inv owner expected c -> work c = k -> exists c', steps k c c' /\ finished c'.
  Proof.
    intros owner expected k. induction k as [|k IH]; intros c I W.
    - destruct (progress c) as [F|[c' S]]; [exists c; split; [constructor|assumption]|].
      rewrite (step_work _ _ _ _ I S) in W. discriminate.
    - destruct (progress c) as [F|[c' S]].
      + exfalso. unfold finished, work in *. clear I.
        assert (Z : forall l, Forall (fun th : thread A => todo th = []) l ->
          list_sum (map (fun th => 2 * length (todo th) - match reg th with Some _ => 1 | None => 0 end) l) = 0).
        { clear. induction l as [|th l IHl]; intros F; [reflexivity|]. inversion F as [|? ? H1 H2]; subst.
          cbn. rewrite H1. cbn. apply IHl. assumption. }
        rewrite (Z _ F) in W. discriminate.
      + pose proof (step_work _ _ _ _ I S) as E. rewrite W in E. injection E as E.
        destruct (IH c' (step_inv _ _ _ _ I S) (eq_sym E)) as (c'' & SS & F). exists c''. split; [econstructor; eassumption|assumption].
  Qed.
End Omp.
