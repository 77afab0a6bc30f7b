(** The autocorrelation function and the discrete Fourier transform. *)
From Coq Require Import Reals List Arith.
From Coquelicot Require Import Coquelicot.
Import ListNotations.
Local Open Scope R_scope.

(** The sum of [v(j) v(j+t)] over all [j] with [j] and [j + t] below the length. *)
Definition acf (v : list R) (t : nat) : R :=
  fold_right Rplus 0 (map (fun j => nth j v 0 * nth (j + t) v 0) (seq 0 (length v - t))).

(** Interior points higher than both neighbours. *)
Definition peak (y : list R) (i : nat) : Prop :=
  (0 < i)%nat /\ (i + 1 < length y)%nat /\ nth (i - 1) y 0 < nth i y 0 /\ nth (i + 1) y 0 < nth i y 0.
