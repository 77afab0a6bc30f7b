(** debye_func, einstein_func and expansion, /repo/src/pwtools/thermo.py 761-828, over the real
    numbers: no overflow of exp, and division by zero is not used. A number for x is an array of one
    element (np.atleast_1d); a 2d array raises and is not modelled. *)
From Coq Require Import Reals List.
From Verif Require Import Thermo.
Import ListNotations.
Local Open Scope R_scope.

(** np.linspace(a, b, n), 779; one point is a *)
Definition linspace (a b : R) (n : nat) : list R := map (fun i => a + INR i * ((b - a) / INR (n - 1))) (seq 0 n).
(** debye_func 761-780: trapezoids over t **3 / (exp(t x) - 1) *)
Definition debye1 (nstep : nat) (zero x : R) : R :=
  let tt := linspace zero 1 nstep in 3 * trapz (map (fun t => t ^ 3 / (exp (t * x) - 1)) tt) tt.
Definition debye_func (nstep : nat) (zero : R) (x : list R) : list R := map (debye1 nstep zero) x.
(** einstein_func 783-793 *)
Definition einstein1 (x : R) : R := 1 / (exp x - 1).
Definition einstein_func (x : list R) : list R := map einstein1 x.
(** expansion 796-828 *)
Definition expansion (temp : list R) (alpha theta x0 : R) (func : list R -> list R) : list R :=
  map (fun f => x0 * (1 + alpha * theta * f)) (func (map (fun T => theta / T) temp)).
