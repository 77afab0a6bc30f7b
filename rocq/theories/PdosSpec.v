(** The vibrational spectrum of a trajectory, in terms of sines and cosines. *)
From Coq Require Import Reals List Arith.
From Verif Require Import VacfSpec.
Local Open Scope R_scope.

(** Squared modulus of the Fourier transform of [x 0 .. x (n-1)] at angular frequency [w]. *)
Definition power_at (x : nat -> R) (n : nat) (w : R) : R :=
  (total n (fun j => x j * cos (INR j * w))) ^ 2 + (total n (fun j => x j * sin (INR j * w))) ^ 2.
(** Sum over atoms and components, weighted with the masses. *)
Definition spectrum (vel : nat -> nat -> nat -> R) (nstep natoms : nat) (m : nat -> R) (w : R) : R :=
  total natoms (fun i => m i * total 3 (fun k => power_at (fun j => vel j i k) nstep w)).

(** The velocities, or the velocities times the parabola that is 1 in the middle and 0 at
    the first and last time step. *)
Definition tapered (vel : nat -> nat -> nat -> R) (nstep : nat) (window : bool) : nat -> nat -> nat -> R :=
  fun j i k => if window then vel j i k * (if Nat.eqb nstep 1 then 1 else 1 - (2 * INR j / (INR nstep - 1) - 1) ^ 2) else vel j i k.
