From Coq Require Import List String Arith Lia.
From Verif Require Import Getters GettersSpec.
Import ListNotations.

Section P.
Context {V : Type}.
Variable get : string -> getter V.
Notation obj := (obj V).

Lemma set_eq (a : string) (o : option V) s : set a o s a = o.
Proof. unfold set. now rewrite String.eqb_refl. Qed.
Lemma set_ne (a b : string) (o : option V) s : a <> b -> set a o s b = s b.
Proof. intros H. unfold set. destruct (String.eqb_spec a b); congruence. Qed.
Lemma times_same a l : times a (a :: l) = S (times a l).
Proof. unfold times. simpl. destruct (string_dec a a); congruence. Qed.
Lemma times_other a b l : a <> b -> times b (a :: l) = times b l.
Proof. intros. unfold times. simpl. destruct (string_dec a b); congruence. Qed.

(** ** values are unique *)
Scheme value_mut := Induction for value Sort Prop
  with gives_mut := Induction for gives Sort Prop.
Lemma value_det init a o : value get init a o -> forall o', value get init a o' -> o' = o.
Proof.
  apply (value_mut V get init
    (fun a o _ => forall o', value get init a o' -> o' = o)
    (fun p o _ => forall o', gives get init p o' -> o' = o)).
  - intros a0 v H o' H'. inversion H'; subst; congruence.
  - intros a0 o0 H Hg IH o' H'. inversion H'; subst; [congruence|]. now apply IH.
  - intros o0 o' H'. now inversion H'.
  - intros a0 k o0 o1 Hv IH1 Hg IH2 o' H'. inversion H'; subst. apply IH1 in H1. subst. now apply IH2.
Qed.

Section Init.
Variable init : string -> option V.
Variable rank : string -> nat.
Hypothesis Hacyc : acyclic get rank.
Hypothesis Hplain : forall a, plain (get a).
Variable N : string -> Prop.
Hypothesis HN : forall a b, N a -> init a = None -> asks get init (get a) b -> N b.

Definition settled (s : obj) (a : string) : Prop :=
  exists o, value get init a o /\ attrs s a = o /\ (init a = None -> times a (log s) > 0).
Definition got (s : obj) (a : string) : Prop :=
  exists o, value get init a o /\ attrs s a = o /\ (o <> None -> times a (log s) = 1) /\
    times a (log s) > 0 /\ N a /\ forall b, asks get init (get a) b -> settled s b.
Definition good (s : obj) (a : string) : Prop :=
  match init a with
  | Some v => attrs s a = Some v /\ times a (log s) = 0
  | None => (attrs s a = None /\ times a (log s) = 0) \/ got s a
  end.

(** A part of the run that concerns attributes of rank below r only. *)
Record part (r : nat) (s s' : obj) : Prop := {
  p_good : forall b, rank b < r -> good s' b;
  p_settled : forall b, settled s b -> settled s' b;
  p_high : forall b, r <= rank b -> attrs s' b = attrs s b /\ times b (log s') = times b (log s);
}.
Lemma part_trans r s1 s2 s3 : part r s1 s2 -> part r s2 s3 -> part r s1 s3.
Proof.
  intros [A1 A2 A3] [B1 B2 B3]. constructor; auto. intros b Hb. destruct (A3 b Hb), (B3 b Hb). split; congruence.
Qed.

Definition try_ok (try : string -> obj -> res V unit) (r : nat) : Prop := forall a s,
  rank a < r -> N a -> (forall b, rank b < r -> good s b) ->
  exists s', try a s = Done tt s' /\ part r s s' /\ settled s' a.

Lemma run_ok try r : try_ok try r -> forall p s,
  below rank r p -> plain p -> (forall b, asks get init p b -> N b) -> (forall b, rank b < r -> good s b) ->
  exists o s', run try p s = Done o s' /\ gives get init p o /\ part r s s' /\
    forall b, asks get init p b -> settled s' b.
Proof.
  intros Ht. induction p as [v| |a k IH|a k IH]; intros s Hb Hp Ha Hg.
  - exists v, s. split; [reflexivity|]. split; [constructor|]. split; [constructor; auto|]. intros b Hx. inversion Hx.
  - contradiction.
  - destruct Hb as [Hra Hb]. assert (Hna : N a) by (apply Ha; constructor).
    destruct (Ht a s Hra Hna Hg) as (s1 & E1 & P1 & (o & Ho & Hs & Hx)).
    destruct (IH (attrs s1 a) s1 (Hb _) (Hp _)) as (o' & s2 & E2 & G2 & P2 & S2).
    + intros b Hab. apply Ha. rewrite Hs in Hab. now apply a_later with o.
    + apply (p_good _ _ _ P1).
    + exists o', s2. simpl. rewrite E1, E2. split; [reflexivity|]. rewrite Hs in *. split; [now apply g_ask with o|].
      split; [now apply part_trans with s1|]. intros b Hab. inversion Hab; subst.
      * apply (p_settled _ _ _ P2). exists (attrs s1 b). auto.
      * apply S2. match goal with X : value _ _ a ?x |- asks _ _ (k ?y) b => replace y with x; [assumption|] end. eapply value_det; eauto.
  - contradiction.
Qed.

Lemma good_settled s a : good s a -> (init a <> None \/ times a (log s) > 0) -> settled s a.
Proof.
  unfold good. destruct (init a) as [v|] eqn:E.
  - intros [H1 H2] _. exists (Some v). split; [now apply v_given|]. split; [assumption|congruence].
  - intros [[H1 H2]|(o & H1 & H2 & H3 & H4 & _)] [H|H]; try congruence; try lia; exists o; auto.
Qed.

Lemma try_set_ok : forall r fuel, r <= fuel -> try_ok (try_set get fuel) r.
Proof.
  induction r as [r IHr] using lt_wf_ind. intros fuel Hf a s Ha Hna Hg.
  pose proof (Hg a Ha) as Hga. unfold good in Hga.
  destruct (attrs s a) as [v|] eqn:Es.
  - exists s. assert (E : try_set get fuel a s = Done tt s) by (destruct fuel; simpl; rewrite Es; reflexivity).
    split; [assumption|]. split; [constructor; auto|]. apply good_settled; [now apply Hg|].
    destruct (init a); [left; discriminate|]. destruct Hga as [[H _]|(o & _ & _ & _ & H & _)]; [congruence|auto].
  - destruct fuel as [|fuel]; [lia|]. simpl. rewrite Es.
    destruct (init a) as [v|] eqn:Ei; [destruct Hga; congruence|].
    set (s0 := Obj (attrs s) (a :: log s)).
    assert (L : forall b, rank b < rank a -> times b (log s0) = times b (log s)).
    { intros b Hb. apply times_other. intros ->. lia. }
    assert (SS : forall b, settled s b -> settled s0 b).
    { intros b (o & H1 & H2 & H3). exists o. split; [assumption|]. split; [assumption|]. intros Hi. specialize (H3 Hi).
      simpl. unfold times in *. simpl. destruct (string_dec a b); lia. }
    assert (G0 : forall b, rank b < rank a -> good s0 b).
    { intros b Hb. specialize (Hg b ltac:(lia)). unfold good in *. rewrite (L b Hb). change (attrs s0) with (attrs s).
      destruct (init b); [assumption|]. destruct Hg as [H|(o & H1 & H2 & H3 & H4 & H5 & H6)]; [now left|]. right. exists o. rewrite (L b Hb).
      split; [assumption|]. split; [assumption|]. split; [assumption|]. split; [assumption|]. split; [assumption|]. auto. }
    assert (Hfu : rank a <= fuel) by lia.
    destruct (run_ok (try_set get fuel) (rank a) (IHr (rank a) Ha fuel Hfu) (get a) s0 (Hacyc a) (Hplain a)
      (fun b Hb => HN a b Hna Ei Hb) G0) as (o & s1 & E & Hgv & P & Hs).
    rewrite E. set (s2 := Obj (set a o (attrs s1)) (log s1)). exists s2. split; [reflexivity|].
    assert (Hv : value get init a o) by now constructor.
    assert (T1 : times a (log s1) = S (times a (log s))).
    { destruct (p_high _ _ _ P a (le_n _)) as [_ H]. rewrite H. apply times_same. }
    assert (S12 : forall b, settled s1 b -> settled s2 b).
    { intros b (o' & H1 & H2 & H3). exists o'. split; [assumption|]. split; [|assumption]. simpl.
      destruct (string_dec a b) as [<-|Hne]; [|now rewrite set_ne]. rewrite set_eq. eapply value_det; eauto. }
    assert (Sa : settled s2 a).
    { exists o. split; [assumption|]. split; [simpl; apply set_eq|]. intros _. simpl. lia. }
    split; [|assumption]. constructor.
    + intros b Hb. destruct (string_dec a b) as [<-|Hne].
      * unfold good. rewrite Ei. right. exists o. split; [assumption|]. split; [simpl; apply set_eq|].
        split; [|split; [simpl; lia|split; [assumption|]]].
        -- intros Ho. simpl. rewrite T1. f_equal. destruct Hga as [[_ H]|(o' & H1 & H2 & _)]; [assumption|].
           exfalso. apply Ho. rewrite Es in H2. rewrite <- H2 in H1. exact (value_det init a None H1 o Hv).
        -- intros b Hab. apply S12. now apply Hs.
      * destruct (le_lt_dec (rank a) (rank b)) as [Hr|Hr].
        -- destruct (p_high _ _ _ P b Hr) as [H1 H2]. change (log s0) with (a :: log s) in H2. rewrite (times_other a b (log s) Hne) in H2.
           specialize (Hg b Hb). unfold good in *. simpl. rewrite set_ne by congruence. rewrite H1, H2. change (attrs s0) with (attrs s).
           destruct (init b); [assumption|]. destruct Hg as [H|(o' & G1 & G2 & G3 & G4 & G5 & G6)]; [now left|]. right. exists o'.
           split; [assumption|]. split; [simpl; rewrite set_ne by congruence; now rewrite H1|]. simpl. rewrite H2.
           split; [assumption|]. split; [assumption|]. split; [assumption|]. intros b' Hb'. apply S12, (p_settled _ _ _ P), SS. auto.
        -- pose proof (p_good _ _ _ P b Hr) as H. unfold good in *. simpl. rewrite set_ne by congruence.
           destruct (init b); [assumption|]. destruct H as [H|(o' & G1 & G2 & G3 & G4 & G5 & G6)]; [now left|]. right. exists o'.
           split; [assumption|]. split; [simpl; now rewrite set_ne by congruence|]. split; [assumption|]. split; [assumption|]. split; [assumption|].
           intros b' Hb'. apply S12. auto.
    + intros b Hb. apply S12, (p_settled _ _ _ P), SS, Hb.
    + intros b Hb. assert (a <> b) by (intros ->; lia). simpl. rewrite set_ne by assumption.
      destruct (p_high _ _ _ P b ltac:(lia)) as [H1 H2]. rewrite H1, H2. split; [reflexivity|]. apply times_other. assumption.
Qed.

Lemma set_all_ok l : (forall a, In a l -> N a) -> forall fuel s,
  (forall a, In a l -> rank a < fuel) -> (forall b, rank b < fuel -> good s b) ->
  exists s', set_all get fuel l s = Done tt s' /\ part fuel s s' /\ forall a, In a l -> settled s' a.
Proof.
  induction l as [|a l IH]; intros HNl fuel s Hr Hg.
  - exists s. split; [reflexivity|]. split; [constructor; auto|]. intros a [].
  - destruct (try_set_ok fuel fuel (le_n _) a s (Hr a (or_introl eq_refl)) (HNl a (or_introl eq_refl)) Hg) as (s1 & E1 & P1 & S1).
    destruct (IH (fun b Hb => HNl b (or_intror Hb)) fuel s1 (fun b Hb => Hr b (or_intror Hb)) (p_good _ _ _ P1)) as (s2 & E2 & P2 & S2).
    exists s2. simpl. rewrite E1, E2. split; [reflexivity|]. split; [now apply part_trans with s1|].
    intros b [<-|Hb]; [|auto]. now apply (p_settled _ _ _ P2).
Qed.
End Init.

(** ** the result *)
Lemma set_all_spec init rank l fuel :
  acyclic get rank -> (forall a, plain (get a)) -> (forall a, In a l -> rank a < fuel) ->
  exists s', set_all get fuel l (Obj init []) = Done tt s' /\
    (forall a v, attrs s' a = Some v <-> init a = Some v \/ (needed get init l a /\ value get init a (Some v))) /\
    (forall a, In a l -> value get init a (attrs s' a)) /\
    (forall a v, init a = Some v -> times a (log s') = 0) /\
    (forall a v, init a = None -> attrs s' a = Some v -> times a (log s') = 1) /\
    (forall a, In a l -> init a = None -> times a (log s') > 0).
Proof.
  intros Hac Hpl Hf.
  (* ranks above the fuel do not occur: cut them off *)
  destruct (set_all_ok init rank Hac Hpl (needed get init l) (fun a b H1 H2 H3 => n_asked get init l a b H1 H2 H3) l
    (fun a H => n_listed get init l a H) fuel (Obj init []) Hf) as (s' & E & P & S).
  { intros b _. unfold good. simpl. destruct (init b); [auto|left; auto]. }
  exists s'. split; [assumption|].
  assert (G : forall a, good init (needed get init l) s' a \/ (attrs s' a = init a /\ times a (log s') = 0)).
  { intros a. destruct (le_lt_dec fuel (rank a)) as [H|H]; [right; exact (p_high _ _ _ _ _ _ P a H)|left; exact (p_good _ _ _ _ _ _ P a H)]. }
  assert (Hset : forall a, needed get init l a -> settled init s' a /\ rank a < fuel).
  { induction 1 as [a Ha|a b Ha [IH1 IH2] Hi Hab]; [auto|].
    pose proof (p_good _ _ _ _ _ _ P a IH2) as Hg. unfold good in Hg. rewrite Hi in Hg.
    destruct IH1 as (o & _ & _ & Ht). specialize (Ht Hi).
    assert (rank b < rank a).
    { specialize (Hac a). clear -Hac Hab. revert Hab Hac. generalize (rank a) as r. intros r Hab. induction Hab; simpl; intros [H1 H2]; auto. }
    destruct Hg as [[_ Hg]|(o' & _ & _ & _ & _ & _ & Hg)]; [lia|]. split; [auto|lia]. }
  split; [|split; [|split; [|split]]].
  - intros a v. split.
    + intros H. destruct (init a) as [w|] eqn:Ei.
      * left. destruct (G a) as [Hg|[Hg _]]; [unfold good in Hg; rewrite Ei in Hg; destruct Hg|]; congruence.
      * right. destruct (G a) as [Hg|[Hg _]]; [|congruence]. unfold good in Hg. rewrite Ei in Hg.
        destruct Hg as [[Hg _]|(o & H1 & H2 & _ & _ & H5 & _)]; [congruence|]. split; [assumption|]. rewrite H in H2. now subst.
    + intros [H|[H1 H2]].
      * destruct (G a) as [Hg|[Hg _]]; [unfold good in Hg; rewrite H in Hg; now destruct Hg|congruence].
      * destruct (Hset a H1) as [(o & Ho & Hs & _) _]. rewrite Hs. eapply value_det; eauto.
  - intros a Ha. destruct (S a Ha) as (o & H1 & H2 & _). now rewrite H2.
  - intros a v H. destruct (G a) as [Hg|[_ Hg]]; [unfold good in Hg; rewrite H in Hg; now destruct Hg|assumption].
  - intros a v Hi H. destruct (G a) as [Hg|[Hg _]]; [|congruence]. unfold good in Hg. rewrite Hi in Hg.
    destruct Hg as [[Hg _]|(o & H1 & H2 & H3 & _)]; [congruence|]. apply H3. rewrite <- H2, H. discriminate.
  - intros a Ha Hi. destruct (S a Ha) as (o & _ & _ & H). auto.
Qed.

(** The order of the list does not matter. *)
Lemma needed_same init l l' a : (forall b, In b l -> In b l') -> needed get init l a -> needed get init l' a.
Proof. intros H. induction 1 as [a Ha|a b _ IH Hi Hab]; [apply n_listed; auto|]. now apply n_asked with a. Qed.
Lemma set_all_order init rank l l' fuel s s' :
  acyclic get rank -> (forall a, plain (get a)) -> (forall a, In a l -> rank a < fuel) ->
  (forall a, In a l <-> In a l') ->
  set_all get fuel l (Obj init []) = Done tt s -> set_all get fuel l' (Obj init []) = Done tt s' ->
  forall a, attrs s' a = attrs s a.
Proof.
  intros Hac Hpl Hf Hll H H' a.
  destruct (set_all_spec init rank l fuel Hac Hpl Hf) as (t & E & A & _).
  destruct (set_all_spec init rank l' fuel Hac Hpl (fun b Hb => Hf b (proj2 (Hll b) Hb))) as (t' & E' & A' & _).
  rewrite H in E. injection E as <-. rewrite H' in E'. injection E' as <-.
  assert (B : forall v, attrs s' a = Some v <-> attrs s a = Some v).
  { intros v. rewrite A, A'. split; (intros [X|[X Y]]; [now left|right; split; [|assumption]]); eapply needed_same; try eassumption; intros b; apply Hll. }
  destruct (attrs s' a) as [v|]; [symmetry; now apply B|]. destruct (attrs s a) as [v|]; [|reflexivity].
  destruct (B v) as [_ B2]. discriminate (B2 eq_refl).
Qed.
End P.

(** ** getters that yield None *)
(** Attribute cs asks twice for attribute s; nothing has a value. *)
Definition none_getter (s : string) : getter nat :=
  match s with
  | EmptyString => Return None
  | String _ s => Ask s (fun _ => Ask s (fun _ => Return None))
  end.
Lemma none_chain s : forall fuel o, String.length s < fuel -> (forall a, attrs o a = None) ->
  exists o', try_set none_getter fuel s o = Done tt o' /\ (forall a, attrs o' a = None) /\
    times "" (log o') = 2 ^ String.length s + times "" (log o).
Proof.
  induction s as [|c s IH]; intros fuel o Hf Ho; (destruct fuel as [|fuel]; [lia|]); cbn [try_set]; rewrite Ho.
  - simpl. eexists. split; [reflexivity|]. split; [intros a; cbn; unfold set; destruct (String.eqb "" a); auto|]. reflexivity.
  - cbn [none_getter run]. simpl in Hf.
    destruct (IH fuel (Obj (attrs o) (String c s :: log o)) ltac:(lia) Ho) as (o1 & E1 & H1 & T1). rewrite E1.
    destruct (IH fuel o1 ltac:(lia) H1) as (o2 & E2 & H2 & T2). rewrite E2.
    eexists. split; [reflexivity|]. split; [intros a; cbn [attrs]; unfold set; destruct (String.eqb _ a); auto|].
    cbn [log]. rewrite T2, T1. simpl log. rewrite times_other by discriminate. simpl. lia.
Qed.
