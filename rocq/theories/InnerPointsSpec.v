(** Inner points, for C109. *)
From Coq Require Import List Arith Reals.
Import ListNotations.

(** The first coordinate of a point. *)
Definition at_x (points : list (list R)) (i : nat) : R := hd 0%R (nth i points []).
Definition ascending (points : list (list R)) : Prop := forall i j, i <= j < length points -> (at_x points i <= at_x points j)%R.
Definition strictly_ascending (points : list (list R)) : Prop := forall i j, i < j < length points -> (at_x points i < at_x points j)%R.
(** A mask selects the points that have a property. *)
Definition selects (msk : list bool) (points : list (list R)) (inner : nat -> Prop) : Prop :=
  length msk = length points /\ forall i, i < length points -> (nth i msk false = true <-> inner i).
