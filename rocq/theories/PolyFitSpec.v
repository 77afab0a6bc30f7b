(** Words for C93 *)
From Coq Require Import Reals List.
From Verif Require Import Poly PolySpec PolyFit.
Import ListNotations.
Local Open Scope R_scope.
Local Notation length := List.length.

(** p is a best polynomial: no other one is closer to the data *)
Definition best (deg : nat) {n} (p : mpoly n) (points : list (list R)) (values : list R) : Prop :=
  forall q : mpoly n, deviation (value deg p) points values <= deviation (value deg q) points values.
(** what is assumed of fmin: it evaluates the function at the start, and never ends above it *)
Definition descends (fmin : (list R -> option R) -> list R -> option (list R)) : Prop :=
  forall f x0, match f x0 with
    | None => fmin f x0 = None
    | Some y0 => forall x, fmin f x0 = Some x -> exists y, f x = Some y /\ y <= y0
    end.
(** a smallest of the values *)
Definition smallest (values : list R) (i : nat) : Prop := exists y, nth_error values i = Some y /\ forall x, In x values -> y <= x.
