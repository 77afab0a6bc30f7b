From Coq Require Import List String Reals Lra Lia.
From Verif Require Import Mix MixSpec.
Import ListNotations.
Open Scope R_scope.

Lemma map2_some {A B C} (f : A -> B -> option C) (Q : C -> Prop) : forall l l',
  List.length l = List.length l' ->
  (forall i x y, nth_error l i = Some x -> nth_error l' i = Some y -> exists z, f x y = Some z /\ Q z) ->
  exists r, map2 f l l' = Some r /\ List.length r = List.length l /\ Forall Q r /\
    forall i x y, nth_error l i = Some x -> nth_error l' i = Some y -> exists z, f x y = Some z /\ nth_error r i = Some z.
Proof.
  induction l as [|x l IH]; intros [|y l'] L H; try discriminate.
  - exists []. repeat split; auto. intros [|i] ? ?; discriminate.
  - destruct (H 0%nat x y eq_refl eq_refl) as (z & Ez & Qz).
    destruct (IH l') as (r & Er & Lr & Fr & Hr); [auto|intros i; apply (H (S i))|].
    exists (z :: r). cbn. rewrite Ez, Er. repeat split; cbn; auto.
    intros [|i] u v; cbn; [|apply Hr]. intros [= <-] [= <-]. eauto.
Qed.
Lemma elementwise_some f n x1 x2 : shape n x1 -> shape n x2 ->
  exists y, elementwise f x1 x2 = Some y /\ shape n y /\
    forall i j u v, entry x1 i j = Some u -> entry x2 i j = Some v -> entry y i j = Some (f u v).
Proof.
  intros [L1 F1] [L2 F2]. rewrite Forall_forall in F1, F2.
  assert (INNER : forall i r r', nth_error x1 i = Some r -> nth_error x2 i = Some r' ->
    exists z, map2 (fun u v => Some (f u v)) r r' = Some z /\ List.length z = 3%nat).
  { intros i r r' E1 E2. apply nth_error_In in E1, E2. specialize (F1 _ E1). specialize (F2 _ E2).
    destruct (map2_some (fun u v => Some (f u v)) (fun _ => True) r r') as (z & Ez & Lz & _); [congruence|eauto|]. exists z. split; congruence. }
  destruct (map2_some (map2 (fun u v => Some (f u v))) (fun r => List.length r = 3%nat) x1 x2) as (y & Ey & Ly & Fy & Hy);
    [congruence|exact INNER|].
  exists y. split; [exact Ey|]. split; [split; [congruence|exact Fy]|].
  intros i j u v. unfold entry. destruct (nth_error x1 i) as [r|] eqn:E1; [|discriminate].
  destruct (nth_error x2 i) as [r'|] eqn:E2; [|discriminate]. intros Eu Ev.
  destruct (Hy i r r' E1 E2) as (z & Ez & ->).
  assert (Lr : List.length r = List.length r').
  { apply nth_error_In in E1, E2. rewrite (F1 _ E1), (F2 _ E2). reflexivity. }
  destruct (map2_some (fun u v => Some (f u v)) (fun _ => True) r r' Lr) as (z' & Ez' & _ & _ & Hz); [eauto|].
  rewrite Ez in Ez'. injection Ez' as <-. destruct (Hz j u v Eu Ev) as (w & [= <-] & ->). reflexivity.
Qed.
Lemma all_some {A B} (f : A -> option B) (Q : A -> B -> Prop) : forall l, (forall x, exists y, f x = Some y /\ Q x y) ->
  exists r, all f l = Some r /\ List.length r = List.length l /\
    forall k x, nth_error l k = Some x -> exists y, nth_error r k = Some y /\ Q x y.
Proof.
  intros l H. induction l as [|x l (r & Er & Lr & Hr)].
  - exists []. repeat split. intros [|k]; discriminate.
  - destruct (H x) as (y & Ey & Qy). exists (y :: r). cbn. rewrite Ey, Er. split; [reflexivity|]. split; [cbn; auto|].
    intros [|k] u; cbn; [|apply Hr]. intros [= <-]. eauto.
Qed.
Lemma blend_some n x1 x2 alpha : shape n x1 -> shape n x2 ->
  exists r, blend alpha x1 x2 = Some r /\ List.length r = List.length alpha /\
    forall k a, nth_error alpha k = Some a -> exists y, nth_error r k = Some y /\ on_line x1 x2 y a.
Proof.
  intros S1 S2. apply (all_some _ (fun a y => on_line x1 x2 y a)). intros a.
  destruct (elementwise_some (fun u v => a * v + (1 - a) * u) n x1 x2 S1 S2) as (y & E & Sy & H).
  exists y. split; [exact E|]. split; [destruct S1 as [-> _]; exact Sy|]. intros i j u v Hu Hv. rewrite (H i j u v Hu Hv). f_equal. ring.
Qed.
Lemma on_line_ends n x1 x2 y : shape n x1 -> shape n x2 ->
  (on_line x1 x2 y 0 -> y = x1) /\ (on_line x1 x2 y 1 -> y = x2).
Proof.
  intros S1 S2.
  assert (EXT : forall x y m, shape m x -> shape m y -> (forall i j u, entry x i j = Some u -> entry y i j = Some u) -> y = x).
  { clear. intros x y m [L1 F1] [L2 F2]. rewrite <- L1 in L2. clear L1 m. revert y L2 F2. induction x as [|r x IH]; intros [|r' y] L F2 H; try discriminate; [reflexivity|].
    inversion F1; subst. inversion F2; subst. f_equal.
    - assert (G : forall (r r' : list R), List.length r' = List.length r -> (forall j u, nth_error r j = Some u -> nth_error r' j = Some u) -> r' = r).
      { clear. induction r as [|u r IH]; intros [|v r'] L H; try discriminate; [reflexivity|].
        pose proof (H 0%nat u eq_refl) as E. injection E as ->. f_equal. apply IH; [now injection L|]. intros j. apply (H (S j)). }
      apply G; [congruence|]. intros j u. apply (H 0%nat j u).
    - apply IH; [assumption|now injection L|assumption|]. intros i. apply (H (S i)). }
  assert (OTHER : forall x y m i j u, shape m x -> shape m y -> entry x i j = Some u -> exists v, entry y i j = Some v).
  { clear. intros x y m i j u [L1 F1] [L2 F2]. rewrite Forall_forall in F1, F2. unfold entry.
    destruct (nth_error x i) as [r|] eqn:E; [|discriminate]. intros Eu.
    destruct (nth_error y i) as [r'|] eqn:E'.
    2:{ apply nth_error_None in E'. assert (nth_error x i <> None) by congruence. apply nth_error_Some in H. lia. }
    destruct (nth_error r' j) eqn:Ej; [eauto|]. apply nth_error_None in Ej. apply nth_error_In in E, E'.
    specialize (F1 _ E). specialize (F2 _ E'). assert (nth_error r j <> None) by congruence. apply nth_error_Some in H. lia. }
  split; intros [Sy H]; destruct S1 as [L1 F1]; rewrite L1 in Sy.
  - apply (EXT x1 y n); [split; auto|exact Sy|]. intros i j u Eu.
    destruct (OTHER x1 x2 n i j u (conj L1 F1) S2 Eu) as (v & Ev). rewrite (H i j u v Eu Ev). f_equal. ring.
  - apply (EXT x2 y n); [exact S2|exact Sy|]. intros i j v Ev.
    destruct (OTHER x2 x1 n i j v S2 (conj L1 F1) Ev) as (u & Eu). rewrite (H i j u v Eu Ev). f_equal. ring.
Qed.
Lemma mix_spec n st1 st2 alpha : atoms n st1 -> atoms n st2 -> symbols st1 = symbols st2 ->
  exists tr, mix st1 st2 alpha = Some tr /\ nstep tr = List.length alpha /\ tsymbols tr = symbols st1 /\
    (forall k a, nth_error alpha k = Some a ->
       (exists c, nth_error (tcoords tr) k = Some c /\ on_line (coords st1) (coords st2) c a) /\
       (exists h, nth_error (tcell tr) k = Some h /\ on_line (cell st1) (cell st2) h a)) /\
    (forall f1 f2, forces st1 = Some f1 -> forces st2 = Some f2 -> exists f, tforces tr = Some f /\
       forall k a, nth_error alpha k = Some a -> exists g, nth_error f k = Some g /\ on_line f1 f2 g a) /\
    (forces st1 = None \/ forces st2 = None -> tforces tr = None).
Proof.
  intros (C1 & H1 & G1) (C2 & H2 & G2) Sy. unfold mix, same_shape. destruct C1 as [L1 C1], C2 as [L2 C2].
  rewrite L1, L2, Nat.eqb_refl. cbn [negb]. destruct (list_eq_dec string_dec (symbols st1) (symbols st2)); [|contradiction]. cbn [negb].
  destruct (blend_some n (coords st1) (coords st2) alpha (conj L1 C1) (conj L2 C2)) as (c & -> & Lc & Hc).
  destruct (blend_some 3 (cell st1) (cell st2) alpha H1 H2) as (h & -> & Lh & Hh).
  destruct (forces st1) as [f1|] eqn:E1; [destruct (forces st2) as [f2|] eqn:E2|].
  - destruct (blend_some n f1 f2 alpha G1 G2) as (f & -> & Lf & Hf). eexists. split; [reflexivity|]. cbn.
    split; [exact Lc|]. split; [reflexivity|]. split; [auto|]. split; [|intros [?|?]; discriminate].
    intros ? ? [= <-] [= <-]. eauto.
  - eexists. split; [reflexivity|]. cbn. split; [exact Lc|]. split; [reflexivity|]. split; [auto|]. split; [discriminate|auto].
  - eexists. split; [reflexivity|]. cbn. split; [exact Lc|]. split; [reflexivity|]. split; [auto|]. split; [discriminate|auto].
Qed.
