(** Proofs about [TagTimer]. *)
From Coq Require Import List Bool Arith Lia.
From Verif Require Import Timer TimerSpec.
Import ListNotations.

Section Proofs.
Context {Tag Time : Type}.
Variable tag_eqb : Tag -> Tag -> bool.
Hypothesis tag_eqb_spec : forall x y, tag_eqb x y = true <-> x = y.
Variable sub : Time -> Time -> Time.

Local Notation run := (run tag_eqb sub).
Local Notation step := (step tag_eqb sub).
Local Notation reads := (@reads Tag Time tag_eqb).

Lemma eqb_refl x : tag_eqb x x = true.
Proof. apply tag_eqb_spec. reflexivity. Qed.

Lemma eqb_neq x y : x <> y -> tag_eqb x y = false.
Proof. intro H. destruct (tag_eqb x y) eqn:E; [|reflexivity]. apply tag_eqb_spec in E. contradiction. Qed.

Lemma set_same (d : @dict Tag Time) tag v : set tag_eqb d tag v tag = Some v.
Proof. unfold set. rewrite eqb_refl. reflexivity. Qed.

Lemma set_other (d : @dict Tag Time) tag v (x : Tag) : x <> tag -> set tag_eqb d tag v x = d x.
Proof. intro H. unfold set. rewrite eqb_neq by exact H. reflexivity. Qed.

(** the slots that belong to a sequence of clock times *)
Definition slots_of (l : list Time) : option slots :=
  match rev l with
  | [] => None
  | x :: r =>
      if Nat.odd (length l) then Some (Some x, None)
      else match r with y :: _ => Some (Some y, Some x) | [] => None end
  end.

Lemma slots_of_snoc l x :
  slots_of (l ++ [x]) =
  if Nat.odd (length l)
  then match rev l with y :: _ => Some (Some y, Some x) | [] => None end
  else Some (Some x, None).
Proof.
  unfold slots_of. rewrite rev_app_distr. cbn [rev app].
  rewrite app_length, Nat.add_1_r, Nat.odd_succ, <- Nat.negb_odd.
  destruct (Nat.odd (length l)); reflexivity.
Qed.

Lemma t_other now tag (d : @dict Tag Time) x : x <> tag -> t tag_eqb now tag d x = d x.
Proof.
  intro H. unfold t. destruct (d tag) as [[[s0|] [s1|]]|] eqn:E; cbv zeta;
    rewrite ?set_same, ?E; cbn; rewrite ?(set_other _ tag _ x H); reflexivity.
Qed.

Lemma t_same now tag (d : @dict Tag Time) l : d tag = slots_of l -> t tag_eqb now tag d tag = slots_of (l ++ [now]).
Proof.
  intro H. rewrite slots_of_snoc. unfold t. rewrite H. unfold slots_of.
  destruct (rev l) as [|x r] eqn:R.
  - assert (l = []) as -> by (rewrite <- (rev_involutive l), R; reflexivity).
    cbv zeta. rewrite set_same. cbn. rewrite set_same. reflexivity.
  - destruct (Nat.odd (length l)) eqn:O.
    + cbv zeta. rewrite H. unfold slots_of. rewrite R, O. rewrite set_same. reflexivity.
    + destruct r as [|y r].
      * assert (length l = 1) by (rewrite <- rev_length, R; reflexivity).
        rewrite H0 in O. discriminate.
      * cbv zeta. rewrite H. unfold slots_of. rewrite R, O, set_same. reflexivity.
Qed.

Lemma pt_other now tag (d : @dict Tag Time) x : x <> tag -> fst (pt tag_eqb sub now tag d) x = d x.
Proof.
  intro H. unfold pt. destruct (d tag) as [[[s0|] [s1|]]|] eqn:E; cbv zeta; try reflexivity.
  - rewrite E. reflexivity.
  - destruct (t tag_eqb now tag d tag) as [[[?|] [?|]]|]; cbn [fst]; apply t_other; exact H.
Qed.

Lemma pt_same now tag (d : @dict Tag Time) l : d tag = slots_of l ->
  pt tag_eqb sub now tag d =
  (if Nat.odd (length l) then t tag_eqb now tag d else d,
   match last_interval (if Nat.odd (length l) then l ++ [now] else l) with
   | Some (start, stop) => Printed (sub stop start) | None => Raised end).
Proof.
  intro H. unfold pt. rewrite H. unfold slots_of.
  destruct (rev l) as [|x r] eqn:R.
  - assert (l = []) as -> by (rewrite <- (rev_involutive l), R; reflexivity). reflexivity.
  - destruct (Nat.odd (length l)) eqn:O.
    + cbv zeta. rewrite (t_same now tag d l H), slots_of_snoc, O, R.
      unfold last_interval. rewrite rev_app_distr, R. reflexivity.
    + destruct r as [|y r].
      * assert (length l = 1) as L by (rewrite <- rev_length, R; reflexivity).
        rewrite L in O. discriminate.
      * cbv zeta. rewrite H. unfold slots_of. rewrite R, O. unfold last_interval. rewrite R. reflexivity.
Qed.

Lemma run_app h c : run (h ++ [c]) = step (run h) c.
Proof. unfold run. rewrite fold_left_app. reflexivity. Qed.

Lemma fold_state h d tag got : d tag = slots_of got ->
  fold_left step h d tag = slots_of (reads tag h got).
Proof.
  revert d got. induction h as [|c h IH]; intros d got H; [exact H|].
  cbn [fold_left TimerSpec.reads]. destruct c as [now x | now x]; apply IH; cbn [Timer.step].
  - destruct (tag_eqb x tag) eqn:E.
    + apply tag_eqb_spec in E. subst x. apply t_same. exact H.
    + rewrite t_other; [exact H|]. intros ->. rewrite eqb_refl in E. discriminate.
  - destruct (tag_eqb x tag) eqn:E; cbn [andb].
    + apply tag_eqb_spec in E. subst x. rewrite (pt_same now tag d got H). cbn [fst].
      destruct (Nat.odd (length got)); [apply t_same|]; exact H.
    + rewrite pt_other; [exact H|]. intros ->. rewrite eqb_refl in E. discriminate.
Qed.

Lemma run_state h tag : run h tag = slots_of (reads tag h []).
Proof. apply fold_state. reflexivity. Qed.

Lemma reads_app tag h1 h2 (got : list Time) : reads tag (h1 ++ h2) got = reads tag h2 (reads tag h1 got).
Proof.
  revert got. induction h1 as [|[now x|now x] h1 IH]; intro got; cbn [app TimerSpec.reads]; auto.
Qed.

Lemma report_expected h now tag :
  report tag_eqb sub h now tag = expected tag_eqb sub h now tag.
Proof.
  unfold report, expected. rewrite (pt_same now tag (run h) (reads tag h []) (run_state h tag)).
  cbn [snd]. rewrite reads_app. cbn [TimerSpec.reads]. rewrite eqb_refl. reflexivity.
Qed.

Lemma reads_only tag h (got : list Time) : reads tag (only tag_eqb tag h) got = reads tag h got.
Proof.
  revert got. induction h as [|c h IH]; intro got; [reflexivity|].
  unfold only in *. cbn [List.filter]. destruct (tag_eqb (tag_of c) tag) eqn:E.
  - destruct c as [now x|now x]; cbn [TimerSpec.reads tag_of] in *; rewrite E; apply IH.
  - rewrite IH. destruct c as [now x|now x]; cbn [TimerSpec.reads tag_of] in *; rewrite E; reflexivity.
Qed.

Lemma report_only h now tag :
  report tag_eqb sub (only tag_eqb tag h) now tag = report tag_eqb sub h now tag.
Proof.
  rewrite !report_expected. unfold expected. rewrite !reads_app, reads_only. reflexivity.
Qed.

Lemma report_twice h now now' tag v :
  report tag_eqb sub h now tag = Printed v ->
  report tag_eqb sub (h ++ [Pt now tag]) now' tag = Printed v.
Proof.
  rewrite !report_expected. unfold expected. rewrite !reads_app. cbn [TimerSpec.reads].
  rewrite eqb_refl. cbn [andb].
  destruct (Nat.odd (length (reads tag h []))) eqn:O.
  - rewrite app_length, Nat.add_1_r, Nat.odd_succ, <- Nat.negb_odd, O. cbn [negb]. auto.
  - rewrite O. auto.
Qed.

Lemma report_raises h now tag :
  report tag_eqb sub h now tag = Raised <-> (forall s, ~ In (T s tag) h).
Proof.
  rewrite report_expected. unfold expected. rewrite reads_app. cbn [TimerSpec.reads].
  rewrite eqb_refl. cbn [andb].
  assert (G : forall h got, reads tag h got = [] <-> got = [] /\ (forall s, ~ In (T s tag) h)).
  { clear h. induction h as [|c h IH]; intro got.
    - cbn. intuition.
    - destruct c as [s x|s x]; cbn [TimerSpec.reads]; rewrite IH.
      + destruct (tag_eqb x tag) eqn:E.
        * apply tag_eqb_spec in E. subst x. split.
          -- intros [H _]. destruct got; discriminate.
          -- intros [_ H]. exfalso. apply (H s). left. reflexivity.
        * split.
          -- intros [-> H]. split; [reflexivity|]. intros s' [K|K]; [|exact (H s' K)].
             injection K as _ ->. rewrite eqb_refl in E. discriminate.
          -- intros [-> H]. split; [reflexivity|]. intros s' K. apply (H s'). right. exact K.
      + destruct got as [|g got].
        * cbn [length Nat.odd]. change (Nat.odd 0) with false. rewrite andb_false_r. split.
          -- intros [_ H]. split; [reflexivity|]. intros s' [K|K]; [discriminate | exact (H s' K)].
          -- intros [_ H]. split; [reflexivity|]. intros s' K. apply (H s'). right. exact K.
        * split.
          -- intros [H _]. destruct (_ && _); discriminate.
          -- intros [H _]. discriminate. }
  rewrite <- (iff_trans (G h []) (conj (fun p => proj2 p) (fun q => conj eq_refl q))).
  set (l := reads tag h []).
  unfold last_interval. destruct (Nat.odd (length l)) eqn:O.
  - rewrite rev_app_distr. cbn [rev app]. destruct (rev l) as [|y r] eqn:R.
    + assert (l = []) as E by (rewrite <- (rev_involutive l), R; reflexivity).
      rewrite E in O. discriminate.
    + split; [discriminate|]. intro E. rewrite E in R. discriminate.
  - destruct (rev l) as [|y [|z r]] eqn:R.
    + assert (l = []) as E by (rewrite <- (rev_involutive l), R; reflexivity). tauto.
    + assert (length l = 1) as L by (rewrite <- rev_length, R; reflexivity).
      rewrite L in O. discriminate.
    + split; [discriminate|]. intro E. rewrite E in R. discriminate.
Qed.
End Proofs.
