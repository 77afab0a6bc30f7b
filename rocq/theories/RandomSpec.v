(** What a user expects of a random structure. *)
From Coq Require Import Reals List.
From Verif Require Import Vec3 Cells WrapSpec Random.
Import ListNotations.
Local Open Scope R_scope.

(** [d] is the distance of the fractional coordinates [a] and [b] after every component of the
    difference was brought to [-1/2,1/2) by whole lattice vectors: the minimum image convention *)
Definition image_distance (cell : mat) (a b : vec) (d : R) : Prop :=
  exists w, centred3 (vsub a b) w /\ d = norm (vecmat w cell).

(** no two atoms closer than [dmin] in this sense *)
Definition apart (dmin : nat -> nat -> R) (cell : mat) (coords : list vec) : Prop :=
  forall i j a b d, (i < j)%nat -> nth_error coords i = Some a -> nth_error coords j = Some b ->
  image_distance cell a b d -> dmin i j <= d.

Definition in_unit (v : vec) : Prop := 0 <= vx v < 1 /\ 0 <= vy v < 1 /\ 0 <= vz v < 1.

(** the volume of the cell candidate drawn at [pos] is in, or out of, the range asked for; [impossible]
    when the three angles do not make a cell *)
Section Candidates.
Variable s : settings.
Variable u : nat -> R.
Definition fits (pos : nat) : Prop :=
  exists vol, volume (get_cc s u pos) = Some vol /\ fst (vol_range s) <= vol <= snd (vol_range s).
Definition rejected (pos : nat) : Prop :=
  exists vol, volume (get_cc s u pos) = Some vol /\ ~ (fst (vol_range s) <= vol <= snd (vol_range s)).
Definition impossible (pos : nat) : Prop := volume (get_cc s u pos) = None.

(** sensible settings: a positive mean volume and lower bounds, angles strictly between 0 and 180 *)
Definition sane : Prop :=
  0 < vol_mean s /\ 0 < fst (vol_range_scale s) /\
  0 < fst (length_range_scale s) <= snd (length_range_scale s) /\
  0 < fst (angle_range s) /\ fst (angle_range s) <= snd (angle_range s) /\ snd (angle_range s) < 180.
End Candidates.
