(** Which files are open, and what a function may do with a file object. *)
From Coq Require Import Ascii String List.
From Verif Require Import Comb ArrayIO FileNames.
Import ListNotations.

Definition is_open (w : world) (i : nat) : Prop := exists h, nth_error (hs w) i = Some h /\ h_open h = true.
(** the function opens nothing, closes nothing, leaves other objects and the files alone *)
Definition reads_only {T} (func : world -> nat -> option T * world) : Prop :=
  forall w i, let w' := snd (func w i) in
    disk w' = disk w /\ List.length (hs w') = List.length (hs w) /\ (forall k, k <> i -> nth_error (hs w') k = nth_error (hs w) k) /\ (forall k, is_open w' k <-> is_open w k).
Definition compressed_name (fn : pstr) : Prop := exists p, fn = p ++ list_ascii_of_string ".gz".
