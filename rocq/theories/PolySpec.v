(** What a least-squares polynomial fit is, stated without the model's matrices. *)
From Coq Require Import Reals List.
Import ListNotations.
Local Open Scope R_scope.

(** Polynomials in [n] variables of degree at most [deg] in each of them: a polynomial
    in the first variable whose coefficients are such polynomials in the others. *)
Inductive mpoly : nat -> Type :=
  | Const (c : R) : mpoly 0
  | Coeffs (n : nat) (c : nat -> mpoly n) : mpoly (S n).

(** The value at a point. *)
Fixpoint value (deg : nat) {n} (p : mpoly n) (x : list R) : R :=
  match p with
  | Const c => c
  | Coeffs m c => sum_f_R0 (fun k => hd 0 x ^ k * value deg (c k) (tl x)) deg
  end.

(** The sum of squared deviations of [f] from the data. *)
Fixpoint deviation (f : list R -> R) (points : list (list R)) (values : list R) : R :=
  match points, values with
  | x :: xs, v :: vs => (f x - v) ^ 2 + deviation f xs vs
  | _, _ => 0
  end.

(** The same for a linear system. *)
Definition residual (A : list (list R)) (y c : list R) : R :=
  deviation (fun r => fold_right Rplus 0 (map (fun q => fst q * snd q) (combine r c))) A y.

(** What is assumed of the solver: for every matrix with [k] columns and right-hand
    side it returns [k] numbers whose residual no other [k] numbers beat. *)
Definition least_squares (lstsq : list (list R) -> list R -> list R) : Prop :=
  forall k A y, A <> [] -> length y = length A -> Forall (fun r => length r = k) A ->
  length (lstsq A y) = k /\
  forall c, length c = k -> residual A y (lstsq A y) <= residual A y c.
