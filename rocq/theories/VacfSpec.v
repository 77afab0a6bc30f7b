(** The velocity autocorrelation function as physicists write it. *)
From Coq Require Import Reals List Arith.
Import ListNotations.
Local Open Scope R_scope.

(** Sum of [f 0 .. f (n-1)]. *)
Fixpoint total (n : nat) (f : nat -> R) : R := match n with O => 0 | S n => total n f + f n end.

(** C(t) = sum over time origins j and atoms i of m_i v_i(j) . v_i(j+t) *)
Definition Cvv (vel : nat -> nat -> nat -> R) (nstep natoms : nat) (m : nat -> R) (t : nat) : R :=
  total (nstep - t) (fun j => total natoms (fun i => m i *
    (vel j i 0%nat * vel (j + t)%nat i 0%nat + vel j i 1%nat * vel (j + t)%nat i 1%nat + vel j i 2%nat * vel (j + t)%nat i 2%nat))).

Definition masses (m : option (nat -> R)) : nat -> R := match m with Some m => m | None => fun _ => 1 end.
