(** Proofs about template lists of calculations. *)
From Coq Require Import List Arith Lia.
From Verif Require Import Calcs.
Import ListNotations.

Section Proofs.
Context {T : Type}.
Implicit Types (h : heap T) (k : ctor T).

Lemma append_at_length h : forall a x, length (append_at h a x) = length h.
Proof. induction h as [|l h IH]; intros [|a] x; simpl; auto. Qed.
Lemma deref_append h : forall a b x, a < length h ->
  deref (append_at h a x) b = if b =? a then deref h b ++ [x] else deref h b.
Proof.
  unfold deref. induction h as [|l h IH]; intros [|a] [|b] x Ha; simpl in *; try lia; auto.
  apply IH. lia.
Qed.
Lemma deref_app_old h l b : b < length h -> deref (h ++ [l]) b = deref h b.
Proof. intros H. unfold deref. now apply app_nth1. Qed.
Lemma deref_app_new h l : deref (h ++ [l]) (length h) = l.
Proof. unfold deref. rewrite app_nth2 by lia. now rewrite Nat.sub_diag. Qed.

Definition valid h k : Prop := match k_arg k with AShared a => 0 < a < length h | _ => True end.

Lemma init_spec h k h' a : 0 < length h -> valid h k -> init h k = (h', a) ->
  length h <= length h' /\ a < length h' /\
  (forall b, b < length h -> b <> a -> deref h' b = deref h b) /\
  deref h' a = match k_arg k with AFresh l => l | _ => deref h a end ++ opt_list (k_mach k) /\
  match k_arg k with ADefault => a = 0 | AShared a' => a = a' | AFresh _ => a = length h end.
Proof.
  intros H0 Hv H. unfold init in H. unfold valid in Hv. destruct (k_arg k) as [|a'|l]; destruct (k_mach k) as [t|]; injection H as <- <-; simpl;
    rewrite ?append_at_length, ?app_length; simpl; rewrite ?app_nil_r.
  all: split; [lia|]; split; [lia|]; split; [|split; [|reflexivity]].
  all: try (intros b Hb Hne).
  all: rewrite ?deref_append by (rewrite ?app_length; simpl; lia).
  all: try (rewrite (proj2 (Nat.eqb_neq _ _)) by lia).
  all: rewrite ?Nat.eqb_refl.
  all: rewrite ?deref_app_new; auto.
  all: try (apply deref_app_old; assumption).
Qed.

(** Shared arguments must exist when they are used. *)
Fixpoint valids (h : heap T) (ks : list (ctor T)) : Prop :=
  match ks with [] => True | k :: r => valid h k /\ valids (fst (init h k)) r end.

(** an object no later constructor gets is unchanged *)
Lemma inits_keep ks : forall h h' l b, 0 < length h -> valids h ks -> inits h ks = (h', l) ->
  b < length h -> ~ In b l -> deref h' b = deref h b.
Proof.
  induction ks as [|k ks IH]; intros h h' l b H0 Hv H Hb Hn; simpl in H.
  - injection H as <- _. reflexivity.
  - simpl in Hv. destruct Hv as [Hk Hv]. destruct (init h k) as [h1 a] eqn:E1. destruct (inits h1 ks) as [h2 l2] eqn:E2.
    injection H as <- <-. simpl in Hn. destruct (init_spec _ _ _ _ H0 Hk E1) as (L1 & L2 & K & _).
    transitivity (deref h1 b).
    + apply (IH h1 h2 l2); auto; lia.
    + apply K; [assumption|]. intros ->. tauto.
Qed.

(** addresses of fresh arguments occur once *)
Lemma inits_addr ks : forall h h' l, 0 < length h -> valids h ks -> inits h ks = (h', l) ->
  length l = length ks /\
  forall i k a, nth_error ks i = Some k -> nth_error l i = Some a ->
    match k_arg k with ADefault => a = 0 | AShared a' => a = a' | AFresh _ => length h <= a end.
Proof.
  induction ks as [|k ks IH]; intros h h' l H0 Hv H; simpl in H.
  - injection H as _ <-. split; [reflexivity|]. intros [|i]; discriminate.
  - simpl in Hv. destruct Hv as [Hk Hv]. destruct (init h k) as [h1 a0] eqn:E1. destruct (inits h1 ks) as [h2 l2] eqn:E2.
    injection H as _ <-. destruct (init_spec _ _ _ _ H0 Hk E1) as (L1 & L2 & K & _ & A).
    destruct (IH h1 h2 l2) as [I1 I2]; auto; try lia. split; [simpl; congruence|].
    intros [|i] k' a Hk' Ha; simpl in *.
    + injection Hk' as <-. injection Ha as <-. destruct (k_arg k); auto. lia.
    + specialize (I2 i k' a Hk' Ha). destruct (k_arg k'); auto. lia.
Qed.

(** A calculation built with a fresh list: nobody else, before or after, gets
    that object unless it is passed on explicitly. *)
Lemma fresh_own ks : forall h h' l i lst m a, 0 < length h -> valids h ks -> inits h ks = (h', l) ->
  (forall k b, In k ks -> k_arg k = AShared b -> b < length h) ->
  nth_error ks i = Some (Ctor (AFresh lst) m) -> nth_error l i = Some a ->
  deref h' a = lst ++ opt_list m /\ length h <= a.
Proof.
  induction ks as [|k ks IH]; intros h h' l i lst m a H0 Hv H Hsh Hi Ha; [destruct i; discriminate|].
  simpl in Hv, H. destruct Hv as [Hk Hv]. destruct (init h k) as [h1 a0] eqn:E1. destruct (inits h1 ks) as [h2 l2] eqn:E2.
  injection H as <- <-. destruct (init_spec _ _ _ _ H0 Hk E1) as (L1 & L2 & K & C & A).
  assert (H1 : 0 < length h1) by lia.
  destruct i as [|i]; simpl in Hi, Ha.
  - injection Hi as ->. injection Ha as ->. simpl in C, A. subst a. split; [|lia]. rewrite <- C.
    destruct (inits_addr ks h1 h2 l2 H1 Hv E2) as [Hl Hadr].
    apply (inits_keep ks h1 h2 l2); auto.
    intros Hin. apply In_nth_error in Hin. destruct Hin as [j Hj].
    destruct (nth_error ks j) as [k'|] eqn:Ek.
    + specialize (Hadr j k' _ Ek Hj). destruct (k_arg k') as [|b|l'] eqn:Eb; [lia| |lia]. 
      assert (b < length h); [|lia]. apply (Hsh k' b); [right; eapply nth_error_In; eauto|assumption].
    + apply nth_error_None in Ek. assert (nth_error l2 j <> None) by congruence. apply nth_error_Some in H. lia.
  - destruct (IH h1 h2 l2 i lst m a H1 Hv E2) as [I1 I2]; auto.
    + intros k' b Hin Hb. assert (b < length h) by (apply (Hsh k' b); [now right|assumption]). lia.
    + split; [assumption|lia].
Qed.

(** the templates of a study: every calculation gets a copy *)
Definition study_ctors (templates : list T) (machs : list (option T)) : list (ctor T) :=
  map (fun m => Ctor (AFresh templates) m) machs.
Lemma valids_fresh (machs : list (option T)) lst : forall h, valids h (study_ctors lst machs).
Proof. induction machs as [|m ms IH]; intros h; simpl; [trivial|]. split; [exact I|apply IH]. Qed.
Lemma study_templates templates machs h' l : inits heap0 (study_ctors templates machs) = (h', l) ->
  map (deref h') l = map (fun m => templates ++ opt_list m) machs /\ deref h' 0 = [].
Proof.
  intros H. assert (Hv := valids_fresh machs templates heap0).
  assert (H0 : 0 < length (heap0 (T := T))) by (simpl; lia).
  destruct (inits_addr _ _ _ _ H0 Hv H) as [Hl Hadr].
  assert (Hsh : forall k b, In k (study_ctors templates machs) -> k_arg k = AShared b -> b < length (heap0 (T := T))).
  { intros k b Hk Hb. apply in_map_iff in Hk. destruct Hk as (m & <- & _). discriminate. }
  split.
  - unfold study_ctors in Hl. rewrite map_length in Hl.
    apply nth_ext with (d := []) (d' := []).
    { rewrite !map_length. exact Hl. }
    intros n Hn. rewrite map_length in Hn.
    destruct (nth_error l n) as [a|] eqn:Ea; [|apply nth_error_None in Ea; lia].
    destruct (nth_error machs n) as [m|] eqn:Em; [|apply nth_error_None in Em; lia].
    rewrite (nth_error_nth (map (deref h') l) n [] (x := deref h' a)) by (rewrite nth_error_map, Ea; reflexivity).
    rewrite (nth_error_nth (map (fun m => templates ++ opt_list m) machs) n [] (x := templates ++ opt_list m)) by (rewrite nth_error_map, Em; reflexivity).
    eapply fresh_own; [exact H0|exact Hv|exact H|exact Hsh| |exact Ea].
    unfold study_ctors. rewrite nth_error_map, Em. reflexivity.
  - rewrite (inits_keep _ _ _ _ 0 H0 Hv H); [reflexivity|simpl; lia|].
    intros Hin. apply In_nth_error in Hin. destruct Hin as [j Hj].
    destruct (nth_error (study_ctors templates machs) j) as [k|] eqn:Ek.
    + specialize (Hadr _ _ _ Ek Hj). unfold study_ctors in Ek. rewrite nth_error_map in Ek.
      destruct (nth_error machs j); [|discriminate]. injection Ek as <-. simpl in Hadr. lia.
    + apply nth_error_None in Ek. assert (nth_error l j <> None) by congruence. apply nth_error_Some in H1. lia.
Qed.

(** calculations built without templates share one list, which collects the
    machine templates of all of them *)
Definition default_machs (ks : list (ctor T)) : list T :=
  flat_map (fun k => match k_arg k with ADefault => opt_list (k_mach k) | _ => [] end) ks.
Lemma default_collects ks : forall h h' l, 0 < length h -> valids h ks -> inits h ks = (h', l) ->
  deref h' 0 = deref h 0 ++ default_machs ks /\
  forall i k a, nth_error ks i = Some k -> k_arg k = ADefault -> nth_error l i = Some a -> a = 0.
Proof.
  intros h h' l H0 Hv H. split.
  2: { intros i k a Hk Hd Ha. destruct (inits_addr _ _ _ _ H0 Hv H) as [_ A]. specialize (A i k a Hk Ha). now rewrite Hd in A. }
  revert h h' l H0 Hv H. induction ks as [|k ks IH]; intros h h' l H0 Hv H; simpl in H.
  - injection H as <- _. now rewrite app_nil_r.
  - simpl in Hv. destruct Hv as [Hk Hv]. destruct (init h k) as [h1 a0] eqn:E1. destruct (inits h1 ks) as [h2 l2] eqn:E2.
    injection H as <- _. destruct (init_spec _ _ _ _ H0 Hk E1) as (L1 & L2 & K & C & A). simpl.
    rewrite (IH h1 h2 l2) by (auto; lia). rewrite app_assoc. f_equal. unfold valid in Hk.
    destruct (k_arg k) as [|b|lst]; subst a0.
    + exact C.
    + rewrite app_nil_r. apply K; lia.
    + rewrite app_nil_r. apply K; lia.
Qed.
End Proofs.
