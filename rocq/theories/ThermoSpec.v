(** Hypotheses about a density of states and an integrator. *)
From Coq Require Import Reals List Sorted.
From Verif Require Import Thermo.
Import ListNotations.
Local Open Scope R_scope.

(** positive frequencies, one dos value for each *)
Definition positive_freqs (ha : harmonic) : Prop :=
  length (doses ha) = length (freqs ha) /\ Forall (fun f => 0 < f) (freqs ha).

(** besides, frequencies in order and a dos that is nowhere negative *)
Definition proper (ha : harmonic) : Prop :=
  positive_freqs ha /\ StronglySorted Rle (freqs ha) /\ Forall (fun d => 0 <= d) (doses ha).

(** an integrator of sampled data that is linear in the data *)
Definition linear (integ : list R -> list R -> R) : Prop :=
  forall a b y1 y2 x, length y1 = length x -> length y2 = length x ->
  integ (map (fun p => a * fst p + b * snd p) (combine y1 y2)) x = a * integ y1 x + b * integ y2 x.
