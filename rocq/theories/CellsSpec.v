(** Valid crystallographic constants, equality of shape of cells, dual vectors. *)
From Coq Require Import Reals.
From Verif Require Import Vec3 Cells.
Open Scope R_scope.
Definition rad (x : R) : R := x * PI / 180.
(** Lengths are positive, angles between 0 and 180 degrees, and the three angles
    fit together: each is smaller than the sum of the others and their sum is below
    360 degrees, which is the same as a positive Gram determinant. *)
Definition angle_ok (x : R) : Prop := 0 < x < 180.
Definition gram (x y z : R) : R := 1 + 2 * cos x * cos y * cos z - cos x ^ 2 - cos y ^ 2 - cos z ^ 2.
Definition valid (k : cc) : Prop :=
  0 < a_ k /\ 0 < b_ k /\ 0 < c_ k /\ angle_ok (alpha k) /\ angle_ok (beta k) /\ angle_ok (gamma k) /\
  0 < gram (rad (alpha k)) (rad (beta k)) (rad (gamma k)).
(** All lengths of and angles between the vectors of two cells agree. *)
Definition same_shape (m n : mat) : Prop :=
  dot (ra m) (ra m) = dot (ra n) (ra n) /\ dot (rb m) (rb m) = dot (rb n) (rb n) /\ dot (rc m) (rc m) = dot (rc n) (rc n) /\
  dot (ra m) (rb m) = dot (ra n) (rb n) /\ dot (ra m) (rc m) = dot (ra n) (rc n) /\ dot (rb m) (rc m) = dot (rb n) (rc n).
(** The rows of r are dual to those of m up to the factor s. *)
Definition dual (s : R) (r m : mat) : Prop :=
  dot (ra r) (ra m) = s /\ dot (rb r) (rb m) = s /\ dot (rc r) (rc m) = s /\
  dot (ra r) (rb m) = 0 /\ dot (ra r) (rc m) = 0 /\ dot (rb r) (ra m) = 0 /\
  dot (rb r) (rc m) = 0 /\ dot (rc r) (ra m) = 0 /\ dot (rc r) (rb m) = 0.
Definition opposite (m : mat) : mat := Mat (scale (-1) (ra m)) (scale (-1) (rb m)) (scale (-1) (rc m)).
