From Coq Require Import Reals List.
From Verif Require Import Vec3.
Import ListNotations.
Open Scope R_scope.
(** y is x shifted by an integer *)
Definition congruent (x y : R) : Prop := exists k : Z, y = x + IZR k.
Definition congruent3 (u v : vec) : Prop := congruent (vx u) (vx v) /\ congruent (vy u) (vy v) /\ congruent (vz u) (vz v).
(** the image of x in [-1/2, 1/2) and in [0, 1) *)
Definition centred (x y : R) : Prop := congruent x y /\ -(1/2) <= y < 1/2.
Definition centred3 (u v : vec) : Prop := centred (vx u) (vx v) /\ centred (vy u) (vy v) /\ centred (vz u) (vz v).
Definition inside (x y : R) : Prop := congruent x y /\ 0 <= y < 1.
(** the cell vectors are orthogonal to each other *)
Definition orthogonal (c : mat) : Prop := dot (ra c) (rb c) = 0 /\ dot (ra c) (rc c) = 0 /\ dot (rb c) (rc c) = 0.
Definition length_sq (v : vec) : R := dot v v.
Definition half_integer (x : R) : Prop := congruent x (1/2).
