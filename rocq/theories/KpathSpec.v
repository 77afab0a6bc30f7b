(** What a path through special points is. *)
From Coq Require Import Reals List.
Import ListNotations.
Local Open Scope R_scope.

(** the point at the fraction [s] of the way from [a] to [b] *)
Definition between (a b : list R) (s : R) : list R :=
  map (fun c => nth c a 0 + s * (nth c b 0 - nth c a 0)) (seq 0 (length a)).

(** vectors of the same dimension *)
Definition same_dim (M : nat) (vecs : list (list R)) : Prop := List.Forall (fun v => length v = M) vecs.

(** f(0) + ... + f(n-1) *)
Fixpoint total (f : nat -> R) (n : nat) : R :=
  match n with O => 0 | S m => total f m + f m end.

(** length of a vector and distance of two points, by components *)
Definition length_of (v : list R) : R := sqrt (total (fun c => nth c v 0 * nth c v 0) (length v)).
Definition distance (a b : list R) : R :=
  sqrt (total (fun c => (nth c b 0 - nth c a 0) * (nth c b 0 - nth c a 0)) (length a)).
