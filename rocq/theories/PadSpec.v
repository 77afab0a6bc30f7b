(** Zero padding along one axis. *)
From Coq Require Import List ZArith Arith String.
From Verif Require Import Nd NdSpec.
Import ListNotations.
Local Open Scope Z_scope.

(** [r] is [a] with the length of axis [k] grown to [n'], filled with zeros at the end or
    at the start. *)
Definition padded {A} (zero : A) (where_ : string) (a : arr A) (k n' : nat) (r : arr A) : Prop :=
  let n := nth k (shape a) 0%nat in
  shape r = replace k n' (shape a) /\
  forall i, index_of (shape r) i -> let j := nth k i 0%nat in
    (where_ = "end"%string -> ((j < n)%nat -> at_ r i = at_ a i) /\ ((n <= j)%nat -> at_ r i = zero)) /\
    (where_ = "start"%string -> ((j < n' - n)%nat -> at_ r i = zero) /\
                                ((n' - n <= j)%nat -> at_ r i = at_ a (replace k (j - (n' - n))%nat i))).

(** [p] is the smallest power of two that is at least [m]. *)
Definition next_power (m p : Z) : Prop :=
  m <= p /\ (exists e, 0 <= e /\ p = 2 ^ e) /\ forall e, 0 <= e -> m <= 2 ^ e -> p <= 2 ^ e.

(** The requested length. *)
Inductive request (n : Z) : option Z -> option Z -> option bool -> option Z -> Z -> Prop :=
| by_number z tn tm : tn <> Some true -> request n (Some z) None tn tm (n + z)
| by_length u tn tm : tn <> Some true -> request n None (Some u) tn tm u
| by_power tm p : (match tm with Some m => m | None => n end) <= 2 ^ 29 ->
    next_power (match tm with Some m => m | None => n end) p -> request n None None (Some true) tm p
| twice tn tm : tn <> Some true -> request n None None tn tm (2 * n).
