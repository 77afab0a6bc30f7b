(** Words for C91 *)
From Coq Require Import Ascii List Reals ZArith.
From Verif Require Import Comb ArrayIO Species Vec3 Cells Symmetry.
Import ListNotations.
Local Open Scope list_scope.
Local Open Scope R_scope.

(** numbers which agree to 1e-5 of the second one, or 1e-8 *)
Definition near (a b : R) : Prop := Rabs (a - b) <= / 10 ^ 8 + / 10 ^ 5 * Rabs b.
Definition near_vec (u v : vec) : Prop := near (vx u) (vx v) /\ near (vy u) (vy v) /\ near (vz u) (vz v).
Definition near_cc (k l : cc) : Prop := near (a_ k) (a_ l) /\ near (b_ k) (b_ l) /\ near (c_ k) (c_ l) /\ near (alpha k) (alpha l) /\ near (beta k) (beta l) /\ near (gamma k) (gamma l).
(** known elements, one position each *)
Definition proper (st : struct) : Prop := Forall (fun s => In s table) (symbols st) /\ List.length (coords_frac st) = List.length (symbols st).
(** the cell in a rotated frame: all scalar products of the cell vectors are the same *)
Definition rotated (c d : mat) : Prop :=
  dot (ra d) (ra d) = dot (ra c) (ra c) /\ dot (rb d) (rb d) = dot (rb c) (rb c) /\ dot (rc d) (rc d) = dot (rc c) (rc c) /\
  dot (rb d) (rc d) = dot (rb c) (rc c) /\ dot (ra d) (rc d) = dot (ra c) (rc c) /\ dot (ra d) (rb d) = dot (ra c) (rb c).
(** a text of spglib: symbol, blanks, number in brackets *)
Definition spg_text (sym : pstr) (n : Z) (gap : pstr) : pstr := sym ++ gap ++ "("%char :: show_int n ++ [")"%char].
