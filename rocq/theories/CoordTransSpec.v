(** The point that fractional coordinates stand for: the combination of the basis
    vectors, which are the rows of [basis]. *)
From mathcomp Require Import all_ssreflect all_algebra.
Set Implicit Arguments.
Unset Strict Implicit.
Local Open Scope ring_scope.
Definition position (F : fieldType) (M : nat) (x : 'rV[F]_M) (basis : 'M[F]_M) : 'rV[F]_M :=
  \sum_k x 0 k *: row k basis.
(** A basis: its vectors are linearly independent, the determinant is not zero. *)
Definition basis (F : fieldType) (M : nat) (b : 'M[F]_M) : Prop := \det b != 0.
