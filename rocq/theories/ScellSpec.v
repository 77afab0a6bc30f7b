(** Lattice translations of a supercell and symmetric tensors. *)
From Coq Require Import List ZArith Reals.
From Verif Require Import Vec3.
Import ListNotations.
(** the multiples of a cell vector that an n-fold repetition uses: 0 .. n-1, or
    0 .. n+1 downwards for negative n *)
Definition in_range (n k : Z) : Prop := (0 <= k < n \/ n < k <= 0)%Z.
Definition in_block (dims m : Z * Z * Z) : Prop :=
  match dims, m with (n1, n2, n3), (k1, k2, k3) => in_range n1 k1 /\ in_range n2 k2 /\ in_range n3 k3 end.
Definition nonzero (dims : Z * Z * Z) : Prop := match dims with (n1, n2, n3) => n1 <> 0%Z /\ n2 <> 0%Z /\ n3 <> 0%Z end.
Definition copies (dims : Z * Z * Z) : nat := match dims with (n1, n2, n3) => Z.abs_nat n1 * Z.abs_nat n2 * Z.abs_nat n3 end.
(** Cartesian position plus k1 a + k2 b + k3 c *)
Definition translated (x : vec) (c : mat) (m : Z * Z * Z) : vec :=
  match m with (k1, k2, k3) =>
    vadd x (vadd (vadd (scale (IZR k1) (ra c)) (scale (IZR k2) (rb c))) (scale (IZR k3) (rc c))) end.
Definition symmetric {A} (t : nat -> nat -> A) : Prop := forall i j, (i < 3)%nat -> (j < 3)%nat -> t i j = t j i.
