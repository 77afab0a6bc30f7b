From Coq Require Import Reals List.
From Verif Require Import Vec3 WrapSpec.
Open Scope R_scope.
(** The Cartesian vector between two atoms at the fractional coordinates u and v: with pbc
    the one of the centred image of u - v. *)
Definition vector_between (pbc : bool) (cell : mat) (u v w : vec) : Prop :=
  exists f, (if pbc then centred3 (vsub u v) f else f = vsub u v) /\ w = vecmat f cell.
(** The cosine of the angle between two vectors. *)
Definition cosine (w w' : vec) : R := dot w w' / (norm w * norm w').
Definition distinct3 (i j k : nat) : Prop := i <> j /\ i <> k /\ j <> k.
