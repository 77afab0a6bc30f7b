(** Specifications for the small functions of num. *)
From Coq Require Import List ZArith Reals Bool Arith Sorting.Sorted.
From Verif Require Import Vec3 Nd.
Close Scope R_scope.
Import ListNotations.
(** the smallest multiple of m that is not below x *)
Definition next_multiple (x m y : Z) : Prop := (m | y)%Z /\ (x <= y)%Z /\ forall z, (m | z)%Z -> (x <= z)%Z -> (y <= z)%Z.
(** a flattened grid: for every index of the grid (last axis fastest) the coordinates and the value *)
Fixpoint coords (axes : list (list Z)) (i : list nat) : list Z :=
  match axes, i with a :: axes, k :: i => nth k a 0%Z :: coords axes i | _, _ => [] end.
Definition grid {A} (axes : list (list Z)) (v : list nat -> A) : list (list Z * A) :=
  map (fun i => (coords axes i, v i)) (indices (map (@List.length Z) axes)).
Definition increasing (a : list Z) : Prop := StronglySorted Z.lt a.

Local Open Scope R_scope.
(** rows and columns orthonormal, right-handed *)
Definition rotation (m : mat) : Prop :=
  dot (ra m) (ra m) = 1 /\ dot (rb m) (rb m) = 1 /\ dot (rc m) (rc m) = 1 /\
  dot (ra m) (rb m) = 0 /\ dot (ra m) (rc m) = 0 /\ dot (rb m) (rc m) = 0 /\ det m = 1.
Definition unit_mat : mat := Mat (Vec 1 0 0) (Vec 0 1 0) (Vec 0 0 1).
(** homogeneous in the values and in the abscissas, as integrals are *)
Definition homogeneous (func : list R -> list R -> R) : Prop :=
  (forall c y x, func (map (Rmult c) y) x = c * func y x) /\ (forall c y x, func y (map (Rmult c) x) = c * func y x).
(** the streams t (row i, column j) are followed: the value nearest to the extrapolation of a stream
    is its own next value *)
Definition extrapolated (t : nat -> nat -> R) (i j : nat) : R :=
  match i with
  | O => t 0%nat j
  | S O => 2 * t 1%nat j - t 0%nat j
  | S (S k) => t k j - 3 * t (S k) j + 3 * t (S (S k)) j
  end.
Definition followed (t : nat -> nat -> R) (i j : nat) (row : list R) : Prop :=
  In (t (S i) j) row /\ forall x, In x row -> x = t (S i) j \/ Rabs (t (S i) j - extrapolated t i j) < Rabs (x - extrapolated t i j).
