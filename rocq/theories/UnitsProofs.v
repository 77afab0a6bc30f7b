From Coq Require Import List String Arith Lia Bool.
From Verif Require Import Getters GettersSpec GettersProofs Units UnitsSpec.
Import ListNotations.
Open Scope string_scope.

Section P.
Variable num : Type.
Variable one : num.
Variable mul : num -> num -> num.
Variable eqb : num -> num -> bool.
Hypothesis mul_one : forall f x, eqb f one = true -> mul x f = x.
Notation quantity := (quantity num).
Notation handler := (handler num).
Notation apply_units := (apply_units num one mul eqb).

Lemma scale_attr_get f s a b :
  scale_attr num mul f s a b = if String.eqb a b then option_map (scale num mul f) (s b) else s b.
Proof.
  unfold scale_attr. destruct (s a) eqn:E; [unfold set|]; destruct (String.eqb_spec a b) as [->|]; rewrite ?E; reflexivity.
Qed.
Lemma scale_one f q : eqb f one = true -> scale num mul f q = q.
Proof.
  intros H. unfold scale. induction q as [|row q IH]; [reflexivity|]. simpl. f_equal; [|exact IH].
  clear IH. induction row as [|x row IH]; [reflexivity|]. simpl. now rewrite mul_one, IH.
Qed.
(** One unit: its quantities are multiplied, whether or not the factor is 1. *)
Lemma one_unit f l s b : NoDup l ->
  (if eqb f one then s else fold_left (scale_attr num mul f) l s) b
  = if existsb (String.eqb b) l then option_map (scale num mul f) (s b) else s b.
Proof.
  intros Hnd. destruct (eqb f one) eqn:E.
  - destruct (existsb _ l); [|reflexivity]. destruct (s b) as [q|]; [|reflexivity]. simpl. now rewrite scale_one.
  - clear E. revert s. induction Hnd as [|a l Ha Hnd IH]; intros s; [reflexivity|]. simpl. rewrite IH, scale_attr_get.
    rewrite (String.eqb_sym b a). destruct (String.eqb_spec a b) as [->|]; [|reflexivity]. simpl.
    destruct (existsb _ l) eqn:Ex; [|reflexivity]. apply existsb_exists in Ex. destruct Ex as (c & Hc & Ec). apply String.eqb_eq in Ec. now subst.
Qed.

Lemma all_units_once (u : string -> num) (m : list (string * list string)) : forall s b, NoDup (List.concat (map snd m)) ->
  fold_left (fun s ul => if eqb (u (fst ul)) one then s else fold_left (scale_attr num mul (u (fst ul))) (snd ul) s) m s b
  = match find (fun ul => existsb (String.eqb b) (snd ul)) m with
    | Some ul => option_map (scale num mul (u (fst ul))) (s b)
    | None => s b
    end.
Proof.
  induction m as [|[k l] m IH]; intros s b Hnd; [reflexivity|]. simpl in Hnd. cbn [fold_left find fst snd].
  assert (Hl : NoDup l /\ NoDup (List.concat (map snd m)) /\ forall x, In x l -> ~ In x (List.concat (map snd m))).
  { clear IH. induction l as [|x l IHl]; [split; [constructor|]; split; [exact Hnd|intros ? []]|].
    simpl in Hnd. inversion Hnd as [|? ? Hx Hr]; subst. destruct (IHl Hr) as (A & B & C). split; [|split; [assumption|]].
    - constructor; [|assumption]. intros Hi. apply Hx, in_or_app. now left.
    - intros y [<-|Hy]; [|now apply C]. intros Hi. apply Hx, in_or_app. now right. }
  destruct Hl as (Hl & Hm & Hd). rewrite IH by assumption. rewrite one_unit by assumption.
  destruct (existsb (String.eqb b) l) eqn:E; [|reflexivity].
  replace (find _ m) with (@None (string * list string)); [reflexivity|]. symmetry.
  destruct (find _ m) as [ul|] eqn:F; [|reflexivity]. apply find_some in F. destruct F as [F1 F2].
  apply existsb_exists in E. destruct E as (c & Hc & Ec). apply String.eqb_eq in Ec. subst c.
  apply existsb_exists in F2. destruct F2 as (c & Hc' & Ec). apply String.eqb_eq in Ec. subst c.
  exfalso. apply (Hd b Hc). apply in_concat. exists (snd ul). split; [now apply in_map|assumption].
Qed.

Lemma scale_cc_spec (u : string -> num) q : scale_cc num mul (u "length") q = converted mul u "cryst_const" q.
Proof.
  unfold scale_cc, converted. simpl. apply map_ext. intros [|x [|y [|z r]]]; reflexivity.
Qed.

(** apply_units the first time. *)
Lemma applied_store h a : applied num h = false ->
  store num (apply_units h) a = option_map (converted mul (units num h) a) (store num h a) /\
  applied num (apply_units h) = true /\ units num (apply_units h) = units num h.
Proof.
  intros Ha. unfold Units.apply_units. rewrite Ha. unfold apply_units_raw. rewrite Ha. split; [|split; reflexivity].
  cbn [store]. set (s0 := match store num h "cryst_const" with Some _ => _ | None => _ end).
  assert (E0 : forall b, s0 b = if String.eqb b "cryst_const" then option_map (converted mul (units num h) b) (store num h b) else store num h b).
  { intros b. unfold s0. destruct (store num h "cryst_const") as [q|] eqn:E.
    - unfold set. rewrite (String.eqb_sym b). destruct (String.eqb_spec "cryst_const" b) as [<-|]; [|reflexivity].
      rewrite E. simpl. now rewrite scale_cc_spec.
    - destruct (String.eqb_spec b "cryst_const") as [->|]; [|reflexivity]. now rewrite E. }
  clearbody s0. rewrite all_units_once by (simpl; repeat constructor; simpl; intuition discriminate).
  unfold units_map. cbn [find fst snd].
  rewrite E0. unfold converted, unit_of. cbn [existsb]. rewrite !orb_false_r.
  destruct (String.eqb_spec a "cryst_const") as [->|N0]; [reflexivity|].
  destruct (String.eqb_spec a "cell") as [->|N1]; [reflexivity|].
  destruct (String.eqb_spec a "coords") as [->|N2]; [reflexivity|].
  destruct (String.eqb_spec a "abc") as [->|N3]; [reflexivity|].
  destruct (String.eqb_spec a "etot") as [->|N4]; [reflexivity|].
  destruct (String.eqb_spec a "ekin") as [->|N5]; [reflexivity|].
  destruct (String.eqb_spec a "stress") as [->|N6]; [reflexivity|].
  destruct (String.eqb_spec a "forces") as [->|N7]; [reflexivity|].
  destruct (String.eqb_spec a "temperature") as [->|N8]; [reflexivity|].
  destruct (String.eqb_spec a "velocity") as [->|N9]; [reflexivity|].
  destruct (String.eqb_spec a "timestep") as [->|N10]; [reflexivity|].
  simpl. now destruct (store num h a).
Qed.
Lemma apply_again h : applied num h = true -> apply_units h = h.
Proof. intros H. unfold Units.apply_units. now rewrite H. Qed.

(** ** extension *)
Lemma repeated_refl q : repeated (num := num) q q. Proof. now left. Qed.
Lemma repeated_trans q1 q2 q3 : repeated (num := num) q1 q2 -> repeated q2 q3 -> repeated q1 q3.
Proof.
  intros [->|(r & n & -> & ->)] [->|(r' & n' & E & ->)]; try (now left); try (right; now eauto).
  right. exists r, n'. split; [reflexivity|]. destruct n as [|[|n]]; simpl in E; try discriminate. now injection E as <-.
Qed.
Lemma extend_q_rep n q : repeated q (extend_q num n q).
Proof. destruct q as [|row [|]]; [now left| |now left]. right. simpl. eauto. Qed.
Lemma extend_get s a : match s a with
  | Some q => exists q', extend num s a = Some q' /\ repeated q q' /\ (a <> "cell" -> a <> "cryst_const" -> q' = q)
  | None => extend num s a = None end.
Proof.
  assert (T : match s a with Some q => exists q', s a = Some q' /\ repeated q q' /\ (a <> "cell" -> a <> "cryst_const" -> q' = q) | None => s a = None end).
  { destruct (s a) as [q|]; [exists q; split; [reflexivity|]; split; [now left|auto]|reflexivity]. }
  unfold extend. destruct (nsteps num s) as [n|]; [|exact T].
  assert (G : forall t x, match t x with Some q => set x (Some (extend_q num n q)) t | None => t end a
    = if String.eqb x a then option_map (extend_q num n) (t a) else t a).
  { intros t x. destruct (t x) eqn:E; [unfold set|]; destruct (String.eqb_spec x a) as [->|]; rewrite ?E; reflexivity. }
  rewrite G, G. destruct (String.eqb_spec "cryst_const" a) as [<-|Nc]; [|destruct (String.eqb_spec "cell" a) as [<-|Nl]].
  - change ("cell" =? "cryst_const") with false. cbv iota. destruct (s "cryst_const") as [q|]; [|reflexivity]. simpl. eexists. split; [reflexivity|]. split; [apply extend_q_rep|congruence].
  - destruct (s "cell") as [q|]; [|reflexivity]. simpl. eexists. split; [reflexivity|]. split; [apply extend_q_rep|congruence].
  - exact T.
Qed.

(** ** getters never change what is set, provided they are acyclic *)
Variable get : string -> getter quantity.
Variable rank : string -> nat.
Hypothesis Hacyc : acyclic get rank.
Variable fuel : nat.

Lemma run_keeps r try :
  (forall a s s', rank a < r -> try a s = Done tt s' -> (forall b q, attrs s b = Some q -> attrs s' b = Some q) /\ (forall b, r <= rank b -> attrs s' b = attrs s b)) ->
  forall p s s' o, below rank r p -> run (V := quantity) try p s = Done o s' ->
  (forall b q, attrs s b = Some q -> attrs s' b = Some q) /\ (forall b, r <= rank b -> attrs s' b = attrs s b).
Proof.
  intros Ht. induction p as [v| |a k IH|a k IH]; intros s s' o Hb H; simpl in H.
  - injection H as _ <-. auto.
  - discriminate.
  - destruct Hb as [Ha Hb]. destruct (try a s) as [[] s1| |] eqn:E; try discriminate.
    destruct (Ht a s s1 Ha E) as [A1 A2]. destruct (IH _ _ _ _ (Hb _) H) as [B1 B2]. split; [auto|]. intros b Hr. rewrite B2, A2; auto.
  - exact (IH _ _ _ _ (Hb _) H).
Qed.
Lemma try_set_keeps : forall f a s s', try_set get f a s = Done tt s' ->
  (forall b q, attrs s b = Some q -> attrs s' b = Some q) /\ (forall b, rank a < rank b -> attrs s' b = attrs s b).
Proof.
  induction f as [|f IH]; intros a s s' H; simpl in H.
  - destruct (attrs s a); [injection H as <-; auto|discriminate].
  - destruct (attrs s a) eqn:E; [injection H as <-; auto|].
    destruct (run (try_set get f) (get a) _) as [v s1| |] eqn:R; try discriminate. injection H as <-. cbn [attrs].
    destruct (run_keeps (rank a) (try_set get f) ) with (p := get a) (s := Obj (attrs s) (a :: log s)) (s' := s1) (o := v) as [A1 A2]; auto.
    + intros a' t t' Hr Ht. destruct (IH a' t t' Ht) as [B1 B2]. split; [exact B1|]. intros b Hb. apply B2. lia.
    + simpl in A1, A2. split.
      * intros b q Hb. destruct (String.eqb_spec a b) as [->|Hne]; [congruence|]. rewrite set_ne by assumption. auto.
      * intros b Hb. rewrite set_ne by (intros ->; lia). apply A2. lia.
Qed.
Lemma set_all_keeps l : forall s s', set_all get fuel l s = Done tt s' -> forall b q, attrs s b = Some q -> attrs s' b = Some q.
Proof.
  induction l as [|a l IH]; intros s s' H b q Hb; simpl in H; [injection H as <-; assumption|].
  destruct (try_set get fuel a s) as [[] s1| |] eqn:E; try discriminate.
  apply (IH s1 s' H). now apply (proj1 (try_set_keeps _ _ _ _ E)).
Qed.

(** ** sequences of calls *)
Notation step := (step num one mul eqb get fuel).
Notation steps := (steps num one mul eqb get fuel).

Lemma step_applied tr o h h' : applied num h = true -> step tr o h = Some h' ->
  applied num h' = true /\ forall a q, store num h a = Some q -> exists q', store num h' a = Some q' /\ repeated q q' /\
    (a <> "cell" -> a <> "cryst_const" -> q' = q).
Proof.
  intros Ha H. destruct o as [|l|d]; simpl in H.
  - injection H as <-. rewrite apply_again by assumption. split; [assumption|]. intros a q Hq. exists q. split; [assumption|]. split; [now left|auto].
  - unfold set_all_h, extend_apply in H. rewrite apply_again in H by assumption.
    assert (K : forall a q, store num h a = Some q -> exists q', store num (if tr then Handler num (extend num (store num h)) (units num h) (applied num h) else h) a = Some q' /\ repeated q q' /\ (a <> "cell" -> a <> "cryst_const" -> q' = q)).
    { intros a q Hq. destruct tr; [|exists q; split; [assumption|]; split; [now left|auto]]. pose proof (extend_get (store num h) a) as E. now rewrite Hq in E. }
    destruct (set_all get fuel l _) as [[] s| |] eqn:E; try discriminate. injection H as <-. cbn [applied store]. split; [destruct tr; assumption|].
    intros a q Hq. destruct (K a q Hq) as (q' & K1 & K2). exists q'. split; [|assumption]. now apply (set_all_keeps l _ _ E).
  - unfold update_units in H. destruct (forallb _ d); [|discriminate]. injection H as <-. split; [assumption|]. intros a q Hq. exists q. split; [assumption|]. split; [now left|auto].
Qed.
Lemma steps_applied tr os : forall h h', applied num h = true -> steps tr os h = Some h' ->
  applied num h' = true /\ forall a q, store num h a = Some q -> exists q', store num h' a = Some q' /\ repeated q q' /\
    (a <> "cell" -> a <> "cryst_const" -> q' = q).
Proof.
  induction os as [|o os IH]; intros h h' Ha H; simpl in H.
  - injection H as <-. split; [assumption|]. intros a q Hq. exists q. split; [assumption|]. split; [now left|auto].
  - destruct (step tr o h) as [h1|] eqn:E; [|discriminate]. destruct (step_applied tr o h h1 Ha E) as [A1 A2].
    destruct (IH h1 h' A1 H) as [B1 B2]. split; [assumption|]. intros a q Hq. destruct (A2 a q Hq) as (q1 & C1 & C2 & C3).
    destruct (B2 a q1 C1) as (q2 & D1 & D2 & D3). exists q2. split; [assumption|]. split; [eapply repeated_trans; eauto|].
    intros. rewrite D3, C3; auto.
Qed.

Definition applies (o : op num) : Prop := match o with Update _ _ => False | _ => True end.
Definition updates (os : list (op num)) (h : handler) : option handler := steps false os h.

(** The first call that applies units, and all later ones. *)
Lemma units_once tr (pre post : list (op num)) o h h1 h' :
  applied num h = false -> Forall (fun o => ~ applies o) pre -> applies o ->
  steps tr pre h = Some h1 -> steps tr (o :: post) h1 = Some h' ->
  forall a q, store num h a = Some q -> exists q', store num h' a = Some q' /\
    repeated (converted mul (units num h1) a q) q' /\
    (a <> "cell" -> a <> "cryst_const" -> q' = converted mul (units num h1) a q).
Proof.
  intros Ha Hpre Ho H1 H2 a q Hq.
  assert (S1 : applied num h1 = false /\ store num h1 = store num h).
  { clear H2 Hq. revert h Ha H1. induction Hpre as [|x pre Hx Hpre IH]; intros h Ha H1; simpl in H1.
    - injection H1 as <-. auto.
    - destruct x as [| |d]; try (exfalso; apply Hx; exact I). simpl in H1. unfold update_units in H1.
      destruct (forallb _ d); [|discriminate]. destruct (IH (Handler num (store num h) (fold_left (fun u kv k => if fst kv =? k then snd kv else u k) d (units num h)) (applied num h)) Ha H1) as [A B]. split; assumption. }
  destruct S1 as [Ha1 Hs1].
  change (steps tr (o :: post) h1) with (match step tr o h1 with Some x => steps tr post x | None => None end) in H2.
  destruct (step tr o h1) as [h2|] eqn:E; [|discriminate].
  (* the step is the same on the object with the units applied *)
  assert (E' : step tr o (apply_units h1) = Some h2).
  { destruct (applied_store h1 a Ha1) as (_ & B & _).
    destruct o as [|l|d]; [| |destruct Ho].
    - simpl in *. now rewrite (apply_again (apply_units h1)) by assumption.
    - simpl in *. unfold set_all_h, extend_apply in *. now rewrite (apply_again (apply_units h1)) by assumption. }
  destruct (applied_store h1 a Ha1) as (B1 & B2 & _). rewrite Hs1, Hq in B1. simpl in B1.
  assert (E2 : steps tr (o :: post) (apply_units h1) = Some h') by (simpl; rewrite E'; exact H2).
  destruct (steps_applied tr (o :: post) (apply_units h1) h' B2 E2) as [_ K]. exact (K a _ B1).
Qed.

(** ** update_units *)
Definition last_of (d : list (string * num)) (k : string) : option num :=
  fold_left (fun r kv => if String.eqb (fst kv) k then Some (snd kv) else r) d None.
Lemma fold_units d : forall u k, fold_left (fun (u : string -> num) kv => fun k => if String.eqb (fst kv) k then snd kv else u k) d u k
  = match last_of d k with Some v => v | None => u k end.
Proof.
  unfold last_of. assert (G : forall (d : list (string * num)) (u : string -> num) k r,
    fold_left (fun (u : string -> num) kv => fun k => if String.eqb (fst kv) k then snd kv else u k) d (fun k' => if String.eqb k' k then match r with Some v => v | None => u k' end else u k') k
    = match fold_left (fun r kv => if String.eqb (fst kv) k then Some (snd kv) else r) d r with Some v => v | None => u k end).
  { induction d0 as [|kv d0 IH]; intros u k r; simpl; [now rewrite String.eqb_refl|].
    rewrite <- IH. assert (X : forall d0 (u1 u2 : string -> num) k, u1 k = u2 k -> fold_left (fun (u : string -> num) kv => fun k => if String.eqb (fst kv) k then snd kv else u k) d0 u1 k = fold_left (fun (u : string -> num) kv => fun k => if String.eqb (fst kv) k then snd kv else u k) d0 u2 k).
    { clear. induction d0 as [|kv d0 IH]; intros u1 u2 k H; simpl; [exact H|]. apply IH. now rewrite H. }
    apply X. rewrite String.eqb_refl. now destruct (fst kv =? k). }
  intros u k. rewrite <- (G d u k None).
  assert (X : forall d0 (u1 u2 : string -> num) k, u1 k = u2 k -> fold_left (fun (u : string -> num) kv => fun k => if String.eqb (fst kv) k then snd kv else u k) d0 u1 k = fold_left (fun (u : string -> num) kv => fun k => if String.eqb (fst kv) k then snd kv else u k) d0 u2 k).
  { clear. induction d0 as [|kv d0 IH]; intros u1 u2 k H; simpl; [exact H|]. apply IH. now rewrite H. }
  apply X. now destruct (k =? k).
Qed.

(** ** get_cont *)
Notation get_cont := (get_cont num one mul eqb get fuel).
Lemma get_cont_once tr ac l p p1 a q :
  applied num (cont num p) = false -> In a l -> parsed num p a = Some q ->
  get_cont tr ac l p = Some p1 ->
  applied num (cont num p1) = true /\ units num (cont num p1) = units num (cont num p) /\ parsed num p1 = parsed num p /\
  exists q', store num (cont num p1) a = Some q' /\ repeated (converted mul (units num (cont num p)) a q) q'.
Proof.
  intros Ha Hin Hq H. unfold Units.get_cont in H.
  set (h := Handler num _ (units num (cont num p)) (applied num (cont num p))) in H.
  assert (Hh : store num h a = Some q).
  { cbn [store h]. replace (existsb (String.eqb a) l) with true; [assumption|]. symmetry. apply existsb_exists. exists a. split; [assumption|apply String.eqb_refl]. }
  destruct (applied_store h a Ha) as (B1 & B2 & B3). rewrite Hh in B1. simpl in B1.
  assert (K : exists q', store num (extend_apply num one mul eqb tr h) a = Some q' /\ repeated (converted mul (units num h) a q) q').
  { unfold extend_apply. destruct tr; [|eexists; split; [exact B1|now left]]. pose proof (extend_get (store num (apply_units h)) a) as E.
    rewrite B1 in E. destruct E as (q' & E1 & E2 & _). exists q'. split; assumption. }
  assert (A : applied num (extend_apply num one mul eqb tr h) = true /\ units num (extend_apply num one mul eqb tr h) = units num h).
  { unfold extend_apply. destruct tr; split; simpl; assumption. }
  destruct ac.
  - unfold set_all_h in H. destruct (set_all get fuel l _) as [[] s| |] eqn:E; try discriminate. injection H as <-. cbn [cont applied units parsed store].
    split; [apply A|]. split; [apply A|]. split; [reflexivity|]. destruct K as (q' & K1 & K2). exists q'. split; [|assumption]. now apply (set_all_keeps l _ _ E).
  - injection H as <-. cbn [cont parsed]. split; [apply A|]. split; [apply A|]. split; [reflexivity|]. exact K.
Qed.
Lemma get_cont_twice tr ac l p p1 a q :
  applied num (cont num p) = true -> In a l -> parsed num p a = Some q ->
  get_cont tr ac l p = Some p1 ->
  exists q', store num (cont num p1) a = Some q' /\ repeated q q'.
Proof.
  intros Ha Hin Hq H. unfold Units.get_cont in H.
  set (h := Handler num _ (units num (cont num p)) (applied num (cont num p))) in H.
  assert (Hh : store num h a = Some q).
  { cbn [store h]. replace (existsb (String.eqb a) l) with true; [assumption|]. symmetry. apply existsb_exists. exists a. split; [assumption|apply String.eqb_refl]. }
  assert (K : exists q', store num (extend_apply num one mul eqb tr h) a = Some q' /\ repeated q q').
  { unfold extend_apply. rewrite apply_again by exact Ha. destruct tr; [|eexists; split; [exact Hh|now left]]. pose proof (extend_get (store num h) a) as E.
    rewrite Hh in E. destruct E as (q' & E1 & E2 & _). exists q'. split; assumption. }
  destruct ac.
  - unfold set_all_h in H. destruct (set_all get fuel l _) as [[] s| |] eqn:E; try discriminate. injection H as <-. cbn [cont store].
    destruct K as (q' & K1 & K2). exists q'. split; [|assumption]. now apply (set_all_keeps l _ _ E).
  - injection H as <-. exact K.
Qed.
End P.
