(** C52: [TagTimer]. *)
From Coq Require Import List Bool Arith ZArith Lia.
From Verif Require Import Timer TimerSpec TimerProofs.
Import ListNotations.

(** C52: after every history of calls, [pt(tag)] prints the length of the last interval of the clock
    times read for this tag, or raises if there is none. *)
Theorem C52_report :
  forall (Tag Time : Type) (tag_eqb : Tag -> Tag -> bool) (sub : Time -> Time -> Time),
  (forall x y, tag_eqb x y = true <-> x = y) ->
  forall h now tag, report tag_eqb sub h now tag = expected tag_eqb sub h now tag.
Proof. intros. apply report_expected. assumption. Qed.

(** C52: it depends on the calls with this tag only. *)
Theorem C52_tags_independent :
  forall (Tag Time : Type) (tag_eqb : Tag -> Tag -> bool) (sub : Time -> Time -> Time),
  (forall x y, tag_eqb x y = true <-> x = y) ->
  forall h now tag, report tag_eqb sub (only tag_eqb tag h) now tag = report tag_eqb sub h now tag.
Proof. intros. apply report_only. assumption. Qed.

(** C52: it raises exactly when [t(tag)] was never called. *)
Theorem C52_raises :
  forall (Tag Time : Type) (tag_eqb : Tag -> Tag -> bool) (sub : Time -> Time -> Time),
  (forall x y, tag_eqb x y = true <-> x = y) ->
  forall h now tag,
  report tag_eqb sub h now tag = Raised <-> (forall s, ~ In (T s tag) h).
Proof. intros. apply report_raises. assumption. Qed.

(** C52: a repeated [pt] prints the same value at any later time. *)
Theorem C52_pt_twice :
  forall (Tag Time : Type) (tag_eqb : Tag -> Tag -> bool) (sub : Time -> Time -> Time),
  (forall x y, tag_eqb x y = true <-> x = y) ->
  forall h now now' tag v,
  report tag_eqb sub h now tag = Printed v ->
  report tag_eqb sub (h ++ [Pt now tag]) now' tag = Printed v.
Proof. intros Tag Time tag_eqb sub E h now now' tag v H. eapply report_twice; eassumption. Qed.

(** C52: start, stop, print; then a third [t] starts anew. *)
Example C52_case :
  report Nat.eqb Z.sub [T 10%Z 1; T 11%Z 2; T 17%Z 1; T 20%Z 2] 30%Z 1 = Printed 7%Z /\
  report Nat.eqb Z.sub [T 10%Z 1; T 11%Z 2; T 17%Z 1; T 20%Z 1] 30%Z 1 = Printed 10%Z /\
  report Nat.eqb Z.sub [T 10%Z 1] 30%Z 1 = Printed 20%Z /\
  report Nat.eqb Z.sub [T 10%Z 1; Pt 12%Z 1] 30%Z 1 = Printed 2%Z /\
  report Nat.eqb Z.sub [T 10%Z 1] 30%Z 2 = Raised.
Proof. vm_compute. repeat split. Qed.

Print Assumptions C52_report.
Print Assumptions C52_tags_independent.
Print Assumptions C52_raises.
Print Assumptions C52_pt_twice.
