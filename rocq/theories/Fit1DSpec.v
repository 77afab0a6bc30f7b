(** What root finders have to do, and words for curves *)
From Coq Require Import List Reals Arith.
From Verif Require Import Fit1D.
Import ListNotations.
Local Open Scope R_scope.

Definition on (a b x : R) : Prop := a <= x <= b.
(** brentq refuses intervals at whose ends the function has the same sign. For a continuous function
    it finds, up to the tolerance [tol], a zero in the interval. *)
Definition bracketing (tol : R) (brentq : (R -> R) -> R -> R -> option R) : Prop :=
  (forall f a b, 0 < f a * f b -> brentq f a b = None) /\
  (forall f a b, a <= b -> (forall x, on a b x -> continuity_pt f x) -> f a * f b <= 0 -> exists x, brentq f a b = Some x) /\
  (forall f a b x, a <= b -> (forall x, on a b x -> continuity_pt f x) -> brentq f a b = Some x -> exists z, on a b z /\ f z = 0 /\ Rabs (x - z) <= tol).
(** newton finds a zero, somewhere *)
Definition finds_zero (tol : R) (newton : (R -> R) -> R -> option R) : Prop :=
  forall f x0 x, newton f x0 = Some x -> exists z, f z = 0 /\ Rabs (x - z) <= tol.
(** the derivatives are derivatives on the interval *)
Definition smooth (s : fit) (a b : R) : Prop :=
  forall x, on a b x -> derivable_pt_lim (at_ s 0) x (at_ s 1 x) /\ continuity_pt (at_ s 1) x.
Definition increasing_on (f : R -> R) (a b : R) : Prop := forall x y, on a b x -> on a b y -> x <= y -> f x <= f y.
Definition strictly_on (f : R -> R) (a b : R) : Prop := forall x y, on a b x -> on a b y -> x < y -> f x < f y.
Definition minimum_on (f : R -> R) (a b z : R) : Prop := on a b z /\ forall x, on a b x -> f z <= f x.
Definition maximum_on (f : R -> R) (a b z : R) : Prop := on a b z /\ forall x, on a b x -> f x <= f z.
(** a relation between all values at an earlier and a later data point *)
Definition pairs (l : list R) (P : R -> R -> Prop) : Prop := forall i j a b, (i < j)%nat -> nth_error l i = Some a -> nth_error l j = Some b -> P a b.
(** the interval of the data *)
Definition range (s : fit) (a b : R) : Prop := exists t, fx s = a :: t /\ b = last (a :: t) 0.
