(** Vectors and 3x3 matrices of real numbers as the code uses them: numpy's dot,
    cross, linalg.norm, linalg.det and np.dot(vector, matrix). *)
From Coq Require Import Reals.
Open Scope R_scope.

Record vec := Vec { vx : R; vy : R; vz : R }.
Record mat := Mat { ra : vec; rb : vec; rc : vec }.      (* rows *)
Definition dot (u v : vec) : R := vx u * vx v + vy u * vy v + vz u * vz v.
Definition cross (u v : vec) : vec :=
  Vec (vy u * vz v - vz u * vy v) (vz u * vx v - vx u * vz v) (vx u * vy v - vy u * vx v).
Definition scale (s : R) (v : vec) : vec := Vec (s * vx v) (s * vy v) (s * vz v).
Definition vadd (u v : vec) : vec := Vec (vx u + vx v) (vy u + vy v) (vz u + vz v).
Definition vsub (u v : vec) : vec := Vec (vx u - vx v) (vy u - vy v) (vz u - vz v).
Definition norm (v : vec) : R := sqrt (dot v v).
Definition det (m : mat) : R := dot (ra m) (cross (rb m) (rc m)).
Definition vecmat (v : vec) (m : mat) : vec := vadd (vadd (scale (vx v) (ra m)) (scale (vy v) (rb m))) (scale (vz v) (rc m)).
