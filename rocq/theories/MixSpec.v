(** n x 3 arrays and their entries. *)
From Coq Require Import List Reals.
From Verif Require Import Mix.
Import ListNotations.
Open Scope R_scope.

Definition shape (n : nat) (x : list (list R)) : Prop := List.length x = n /\ Forall (fun r => List.length r = 3%nat) x.
(** A Structure with n atoms *)
Definition atoms (n : nat) (st : struct) : Prop :=
  shape n (coords st) /\ shape 3 (cell st) /\ match forces st with Some f => shape n f | None => True end.
Definition entry (x : list (list R)) (i j : nat) : option R :=
  match nth_error x i with Some r => nth_error r j | None => None end.
(** step k of [y] is the straight line from x1 to x2 at [alpha] *)
Definition on_line (x1 x2 y : list (list R)) (alpha : R) : Prop :=
  shape (List.length x1) y /\
  forall i j u v, entry x1 i j = Some u -> entry x2 i j = Some v -> entry y i j = Some (u + alpha * (v - u)).
