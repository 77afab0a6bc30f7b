(** Distances between atoms of a crystal, and counting. *)
From Coq Require Import String Reals List ZArith Bool.
From Verif Require Import Vec3 Rpdf.
Import ListNotations.
Local Open Scope R_scope.
(** A lattice vector in fractional coordinates. *)
Record shift := Shift { na : Z; nb : Z; nc : Z }.
Definition shifted (s : vec) (n : shift) : vec := Vec (vx s + IZR (na n)) (vy s + IZR (nb n)) (vz s + IZR (nc n)).
(** The distance from atom [v] to the periodic image [n] of atom [u], both fractional. *)
Definition image_distance (cell : mat) (u v : vec) (n : shift) : R := norm (vecmat (shifted (vsub u v) n) cell).
(** [n] entries of the list have the property. *)
Inductive counts {A} (P : A -> Prop) : list A -> nat -> Prop :=
| C_nil : counts P [] 0
| C_yes x l n : P x -> counts P l n -> counts P (x :: l) (S n)
| C_no x l n : ~ P x -> counts P l n -> counts P (x :: l) n.
(** The volume of a ball. *)
Definition ball (r : R) : R := 4 / 3 * PI * r ^ 3.
(** The perpendicular widths of the cell. *)
Definition width_a (c : mat) : R := Rabs (det c) / norm (cross (rb c) (rc c)).
Definition width_b (c : mat) : R := Rabs (det c) / norm (cross (rc c) (ra c)).
Definition width_c (c : mat) : R := Rabs (det c) / norm (cross (ra c) (rb c)).
Fixpoint sum (l : list R) : R := match l with [] => 0 | x :: l => x + sum l end.
(** The atoms an entry of amask stands for, in a structure with these symbols. *)
Definition selects (sy : list string) (m : amask1) (i : nat) : Prop :=
  match m with All => True | Bools l => nth_error l i = Some true | Name s => nth_error sy i = Some s end.
(** What dmask keeps. *)
Definition kept (dmask : option (R -> bool)) (d : R) : Prop := match dmask with Some p => p d = true | None => True end.
Definition origin : vec := Vec 0 0 0.
Definition atom (step : list vec) (i : nat) : vec := nth i step origin.
