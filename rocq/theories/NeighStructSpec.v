(** Structures which consist of some of the atoms of another one. *)
From Coq Require Import List Reals String.
From Verif Require Import Vec3 DistSpec NeighSpec NeighStruct.
Import ListNotations.
Local Open Scope R_scope.
(** as many positions as symbols *)
Definition consistent (st : struct) : Prop := List.length (st_frac st) = List.length (st_syms st).
(** [st'] has the cell of [st] and, in this order, its atoms number js *)
Definition is_part (st : struct) (js : list nat) (st' : struct) : Prop :=
  st_cell st' = st_cell st /\
  Forall2 (fun j v => nth_error (st_frac st) j = Some v) js (st_frac st') /\
  Forall2 (fun j s => nth_error (st_syms st) j = Some s) js (st_syms st').
(** the atoms i and j are at distance d *)
Definition apart (pbc : bool) (st : struct) (i j : nat) (d : R) : Prop :=
  exists u v w, nth_error (st_frac st) i = Some u /\ nth_error (st_frac st) j = Some v /\
    vector_between pbc (st_cell st) u v w /\ d = norm w.
(** the atom j is there and its species is not to be skipped *)
Definition wanted (st : struct) (skip : list string) (j : nat) : Prop :=
  exists s, nth_error (st_syms st) j = Some s /\ ~ In s skip.
(** no other atom is at the place of the atom i *)
Definition alone (pbc : bool) (st : struct) (i : nat) : Prop :=
  forall j d, j <> i -> apart pbc st j i d -> 0 < d.
