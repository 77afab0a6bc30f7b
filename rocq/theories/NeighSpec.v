(** Neighbours of an atom, by distance. *)
From Coq Require Import List Reals Sorting.Permutation Sorting.Sorted String.
Import ListNotations.
Local Open Scope R_scope.
(** an order of the atoms 0 .. n-1 by increasing distance; ties in any order *)
Definition sorts (n : nat) (dist : nat -> R) (l : list nat) : Prop :=
  Permutation l (seq 0 n) /\ Sorted (fun i j => dist i <= dist j) l.
(** [idx] is an atom, at distance zero from itself only *)
Definition central (n : nat) (dist : nat -> R) (idx : nat) : Prop :=
  (idx < n)%nat /\ dist idx = 0 /\ forall j, (j < n)%nat -> j <> idx -> 0 < dist j.
(** [r] lists the [k] nearest of the atoms in [ok] (all of them if there are fewer) *)
Definition k_nearest (n : nat) (dist : nat -> R) (ok : nat -> Prop) (k : nat) (r : list nat) : Prop :=
  NoDup r /\ (forall i, In i r -> (i < n)%nat /\ ok i) /\ (List.length r <= k)%nat /\
  (forall i j, In i r -> (j < n)%nat -> ok j -> ~ In j r -> dist i <= dist j) /\
  (forall j, (j < n)%nat -> ok j -> ~ In j r -> List.length r = k).
