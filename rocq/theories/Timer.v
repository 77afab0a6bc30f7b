(** Model of [TagTimer], src/pwtools/timer.py lines 3-128.  Tags are any type with decidable equality
    (hashable objects), times any type with a subtraction; [time()] is an argument of every call that
    may read the clock.  Printing with [silence=True] is left out: the printed time is the result. *)
From Coq Require Import List Bool.
Import ListNotations.

Section TagTimer.
Context {Tag Time : Type}.
Variable tag_eqb : Tag -> Tag -> bool.
Variable sub : Time -> Time -> Time.

(** [time_ar_dict]: a tag that is absent is [None] *)
Definition slots : Type := option Time * option Time.
Definition dict := Tag -> option slots.
Definition none_ar : slots := (None, None).                     (* line 43 *)
Definition init : dict := fun _ => None.                        (* line 47 *)
Definition set (d : dict) (tag : Tag) (v : slots) : dict :=
  fun x => if tag_eqb x tag then Some v else d x.

(** lines 50-89, [t(tag)]; the recursive call of line 89 always takes the first branch *)
Definition t (now : Time) (tag : Tag) (d : dict) : dict :=
  let d1 := match d tag with None => set d tag none_ar | Some _ => d end in
  match d1 tag with
  | Some (None, s1) => set d1 tag (Some now, s1)
  | Some (Some s0, None) => set d1 tag (Some s0, Some now)
  | Some (Some _, Some _) => set d1 tag (Some now, None)
  | None => d1
  end.

(** what [pt] does: prints a difference, or raises *)
Inductive outcome := Printed (difference : Time) | Raised.

(** lines 91-122, [pt(tag)]; [now] is read only if the second time is missing *)
Definition pt (now : Time) (tag : Tag) (d : dict) : dict * outcome :=
  match d tag with
  | None => (d, Raised)
  | Some (None, None) => (d, Raised)
  | Some (Some _, s1) =>
      let d1 := match s1 with None => t now tag d | Some _ => d end in
      match d1 tag with
      | Some (Some v0, Some v1) => (d1, Printed (sub v1 v0))
      | _ => (d1, Raised)
      end
  | Some (None, _) => (d, Raised)
  end.

(** a history of calls; every call comes with the time the clock shows *)
Inductive call := T (now : Time) (tag : Tag) | Pt (now : Time) (tag : Tag).

Definition step (d : dict) (c : call) : dict :=
  match c with T now tag => t now tag d | Pt now tag => fst (pt now tag d) end.

Definition run (h : list call) : dict := fold_left step h init.

(** what [pt(tag)] at time [now] does after the history [h] *)
Definition report (h : list call) (now : Time) (tag : Tag) : outcome := snd (pt now tag (run h)).
End TagTimer.
