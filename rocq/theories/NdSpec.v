(** Selecting, putting, repeating and summing elements of arrays, by index. *)
From Coq Require Import List ZArith Arith Bool.
From Verif Require Import Traj Nd.
Import ListNotations.

(** [i] is an index of an array with shape [sh] *)
Definition index_of (sh i : list nat) : Prop := Forall2 lt i sh.
(** What a slice selects from an axis of length n: that part of 0, 1, ..., n-1 *)
Definition selected (s : slice) (n : nat) : option (list nat) := slice_list s (seq 0 n).
(** One slice per axis *)
Inductive per_axis : list slice -> list nat -> list (list nat) -> Prop :=
| per_nil : per_axis [] [] []
| per_cons s n l ss sh ls : selected s n = Some l -> per_axis ss sh ls -> per_axis (s :: ss) (n :: sh) (l :: ls).
(** the element number p of the selection *)
Fixpoint source (ls : list (list nat)) (p : list nat) : list nat :=
  match ls, p with l :: ls, k :: p => nth k l 0 :: source ls p | _, _ => [] end.
(** an axis argument [z] means axis [k] of [n] *)
Definition axis_is (n : nat) (z : Z) (k : nat) : Prop := (k < n)%nat /\ (z = Z.of_nat k \/ z = Z.of_nat k - Z.of_nat n)%Z.
Definition bad_axis (n : nat) (z : Z) : Prop := ~ (- Z.of_nat n <= z < Z.of_nat n)%Z.

(** the entries of a list at positions in (or not in) a set of axes *)
Definition at_axes {B} (in_axes : nat -> bool) (l : list B) : list B :=
  map snd (List.filter (fun p => in_axes (fst p)) (combine (seq 0 (List.length l)) l)).
Definition mem (axes : list nat) (k : nat) : bool := existsb (Nat.eqb k) axes.
Definition those {B} (axes : list nat) (l : list B) : list B := at_axes (mem axes) l.
Definition others {B} (axes : list nat) (l : list B) : list B := at_axes (fun k => negb (mem axes k)) l.

Section Sum.
Context {A : Type}.
Variables (zero : A) (add : A -> A -> A).
(** all elements of [a] whose index is [i] once the summed axes are left out, added up *)
Definition sum_over (a : arr A) (axes : list nat) (i : list nat) : A :=
  total zero add (map (at_ a) (List.filter (fun p => idx_eqb (others axes p) i) (indices (shape a)))).
(** [r] is the sum of [a] over [axes] *)
Definition is_sum (a : arr A) (axes : list nat) (r : arr A) : Prop :=
  shape r = others axes (shape a) /\ forall i, index_of (shape r) i -> at_ r i = sum_over a axes i.
End Sum.
