(** Specification vocabulary for the sequence helpers: what the English
    properties talk about, independent of how the code computes it. *)
From Coq Require Import List Arith ZArith Ascii Bool.
From Verif Require Import Comb.
Import ListNotations.

(** The items one gets by iterating over a value, if that is possible. *)
Inductive items_of : pyval -> list pyval -> Prop :=
| items_bytes b : items_of (PBytes b) (map PInt b)
| items_list l : items_of (PList l) l
| items_tuple l : items_of (PTuple l) l.

(** [leaves v l]: [l] are the non-iterable values found in [v] when it is taken
    apart completely, from left to right. *)
Inductive leaves : pyval -> list pyval -> Prop :=
| leaf_self v : (forall l, ~ items_of v l) -> leaves v [v]
| leaf_items v cs lss : items_of v cs -> Forall2 leaves cs lss -> leaves v (concat lss).

(** Mixed-radix number of an index vector: the last digit varies fastest. *)
Fixpoint rank (lens ix : list nat) : nat :=
  match lens, ix with
  | n :: lens', i :: ix' => i * fold_right Nat.mul 1 lens' + rank lens' ix'
  | _, _ => 0
  end.

(** [choice lists ix tup]: [tup] takes element number [ix_k] of list [k]. *)
Definition choice {A} (lists : list (list A)) (ix : list nat) (tup : list A) : Prop :=
  Forall2 (fun li x => nth_error (fst li) (snd li) = Some x) (combine lists ix) tup
  /\ length lists = length ix.

(** Position [i] holds the first occurrence of its value. *)
Definition first_occ {A} (l : list A) (i : nat) : Prop :=
  i < length l /\ forall j, j < i -> nth_error l j <> nth_error l i.

(** [l'] consists of the elements of [l] at positions [idx], in order. *)
Definition picks {A} (l : list A) (idx : list nat) (l' : list A) : Prop :=
  Forall2 (fun i x => nth_error l i = Some x) idx l'.

(** strictly increasing *)
Fixpoint increasing (idx : list nat) : Prop :=
  match idx with
  | [] => True
  | i :: r => Forall (lt i) r /\ increasing r
  end.

(** Column [j] of a rectangular array given by its rows. *)
Definition column (arr : list (list Z)) (j : nat) : list Z := map (fun row => nth j row 0%Z) arr.
Definition rectangular (n : nat) (arr : list (list Z)) : Prop := Forall (fun r => length r = n) arr.

(** [spaced words s]: [s] consists of the words, with whitespace between them and perhaps
    around them. *)
Definition blank (g : pstr) : Prop := Forall (fun a => is_space a = true) g.
Inductive spaced : list pstr -> pstr -> Prop :=
| spaced_end g : blank g -> spaced [] g
| spaced_word g w words s : blank g -> w <> [] -> Forall (fun a => is_space a = false) w ->
    (s = [] \/ exists c r, s = c :: r /\ is_space c = true) -> spaced words s -> spaced (w :: words) (g ++ w ++ s).
