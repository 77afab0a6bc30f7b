From Coq Require Import Reals List.
From Verif Require Import Vec3.
Import ListNotations.
Open Scope R_scope.
(** Three mutually orthogonal unit vectors. *)
Definition orthonormal (c : mat) : Prop :=
  dot (ra c) (ra c) = 1 /\ dot (rb c) (rb c) = 1 /\ dot (rc c) (rc c) = 1 /\
  dot (ra c) (rb c) = 0 /\ dot (ra c) (rc c) = 0 /\ dot (rb c) (rc c) = 0.
(** Components of a vector along the axes [c]. *)
Definition components (c : mat) (v : vec) : vec := Vec (dot v (ra c)) (dot v (rb c)) (dot v (rc c)).
(** Square of the distance of two points. *)
Definition distance2 (u v : vec) : R := dot (vsub u v) (vsub u v).
(** Cartesian coordinates for fractional coordinates and cells, frame by frame. *)
Inductive frames_cart : list (list vec) -> list mat -> list (list vec) -> Prop :=
  | no_frames : frames_cart [] [] []
  | one_more s h x ss hs xs : x = map (fun v => vecmat v h) s -> frames_cart ss hs xs -> frames_cart (s :: ss) (h :: hs) (x :: xs).
