(** What a user expects of [TagTimer], without its storage arrays: every tag has a sequence of times
    read from the clock.  [t] always reads; [pt] reads only to stop a running interval. *)
From Coq Require Import List Bool Arith.
From Verif Require Import Timer.
Import ListNotations.

Section Spec.
Context {Tag Time : Type}.
Variable tag_eqb : Tag -> Tag -> bool.
Variable sub : Time -> Time -> Time.

(** the clock times read for [tag] *)
Fixpoint reads (tag : Tag) (h : list (@call Tag Time)) (got : list Time) : list Time :=
  match h with
  | [] => got
  | T now x :: h' => reads tag h' (if tag_eqb x tag then got ++ [now] else got)
  | Pt now x :: h' => reads tag h' (if tag_eqb x tag && Nat.odd (length got) then got ++ [now] else got)
  end.

(** the last interval: times number 2k-1 and 2k when 2k times were read *)
Definition last_interval (l : list Time) : option (Time * Time) :=
  match rev l with
  | stop :: start :: _ => Some (start, stop)
  | _ => None
  end.

(** what [pt(tag)] should print: the running interval is stopped, otherwise the last one is repeated;
    without any earlier [t(tag)] it raises *)
Definition expected (h : list (@call Tag Time)) (now : Time) (tag : Tag) : @outcome Time :=
  match last_interval (reads tag (h ++ [Pt now tag]) []) with
  | Some (start, stop) => Printed (sub stop start)
  | None => Raised
  end.

(** the calls with one tag *)
Definition tag_of (c : @call Tag Time) : Tag := match c with T _ x => x | Pt _ x => x end.
Definition only (tag : Tag) (h : list (@call Tag Time)) := List.filter (fun c => tag_eqb (tag_of c) tag) h.
End Spec.
