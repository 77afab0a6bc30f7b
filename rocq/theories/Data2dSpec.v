(** The forms of data on a grid *)
From Coq Require Import List Arith.
Import ListNotations.

(** element in row i and column j *)
Definition entry {T} (M : list (list T)) (i j : nat) : option T := match nth_error M i with Some r => nth_error r j | None => None end.
(** a rectangular array with n rows and k columns *)
Definition rect {T} (n k : nat) (M : list (list T)) : Prop := length M = n /\ Forall (fun r => length r = k) M.
(** X, Y on the grid of x and y *)
Definition on_grid {A} (x y : list A) (X Y : list (list A)) : Prop :=
  rect (length x) (length y) X /\ rect (length x) (length y) Y /\
  forall i j a b, nth_error x i = Some a -> nth_error y j = Some b -> entry X i j = Some a /\ entry Y i j = Some b.
(** the double loop: for a in x: for b in y *)
Definition loops {A} (x y : list A) : list (A * A) := flat_map (fun a => map (fun b => (a, b)) y) x.
(** Z and its elements in the order of the loops *)
Definition flat {T} (nx ny : nat) (Z : list (list T)) (zz : list T) : Prop :=
  rect nx ny Z /\ length zz = nx * ny /\ forall i j, i < nx -> j < ny -> entry Z i j = nth_error zz (i * ny + j).
