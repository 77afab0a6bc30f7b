(** What transforms along an axis, windows and filters are *)
From Coq Require Import Reals List Arith.
From Coquelicot Require Import Coquelicot.
From Verif Require Import Nd.
Import ListNotations.
Local Open Scope nat_scope.
Local Open Scope list_scope.

(** the values of [a] on the line through index [i] along axis [k] *)
Definition on_line {A} (a : arr A) (k : nat) (i : list nat) : list A :=
  map (fun j => at_ a (firstn k i ++ j :: skipn (S k) i)) (seq 0 (nth k (shape a) 0)).
(** [r] is [a] with each line along axis [k] transformed by [g] *)
Definition along {A} (dflt : A) (g : list A -> list A) (k : nat) (a r : arr A) : Prop :=
  shape r = shape a /\ forall i, Forall2 lt i (shape a) -> at_ r i = nth (nth k i 0) (g (on_line a k i)) dflt.
Local Open Scope R_scope.
(** the discrete Fourier transform of l at frequency f/N *)
Definition fourier_sum (l : list C) (f : nat) : C :=
  fold_right Cplus (RtoC 0) (map (fun n => Cmult (nth n l (RtoC 0)) (cos (-2 * PI * INR n * INR f / INR (length l)), sin (-2 * PI * INR n * INR f / INR (length l)))) (seq 0 (length l))).
(** the Lorentz function with half width [std], 1 at distance [d] from the centre [c] *)
Definition lorentzian (std c d x : R) : R := (d ^ 2 + std ^ 2) / ((x - c) ^ 2 + std ^ 2).
Definition is_min (m : R) (l : list R) : Prop := In m l /\ forall x, In x l -> m <= x.
Definition is_max (m : R) (l : list R) : Prop := In m l /\ forall x, In x l -> x <= m.
