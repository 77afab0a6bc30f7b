From Coq Require Import Reals ZArith.
Open Scope R_scope.
(** [n] is the integer nearest to [x], the even one if there are two. *)
Definition nearest_even (x : R) (n : Z) : Prop :=
  Rabs (x - IZR n) <= 1/2 /\ (Rabs (x - IZR n) = 1/2 -> Z.even n = true).
