(** The Debye integral; convergence for high temperatures *)
From Coq Require Import Reals.
From Coquelicot Require Import Coquelicot.
Local Open Scope R_scope.

(** 3 times the integral of t^3 / (exp(t x) - 1) from 0 to 1 *)
Definition debye_integral (x : R) : R := 3 * RInt (fun t => t ^ 3 / (exp (t * x) - 1)) 0 1.
(** the function is defined there (it has an integral) *)
Definition debye_exists (x : R) : Prop := ex_RInt (fun t => t ^ 3 / (exp (t * x) - 1)) 0 1.
(** f(T) goes to l for high (low) temperatures *)
Definition high_limit (f : R -> R) (l : R) : Prop := forall eps, 0 < eps -> exists T0, 0 < T0 /\ forall T, T0 <= T -> Rabs (f T - l) <= eps.
Definition low_limit (f : R -> R) (l : R) : Prop := forall eps, 0 < eps -> exists T0, 0 < T0 /\ forall T, 0 < T <= T0 -> Rabs (f T - l) <= eps.
