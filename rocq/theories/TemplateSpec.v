(** What "replace every placeholder and nothing else" means. *)
From Coq Require Import Ascii List Arith.
From Verif Require Import Comb Template.
Import ListNotations.

Definition starts_with (k s : pstr) : Prop := exists r, s = k ++ r.
Definition occurs_at (k s : pstr) (i : nat) : Prop := exists a b, s = a ++ k ++ b /\ length a = i.
Definition occurs_in (k s : pstr) : Prop := exists i, occurs_at k s i.

(** One pass over the text, all rules at once: a placeholder is replaced by its
    value and scanning continues behind it, a character at which no placeholder
    starts is copied. *)
Inductive substituted (dct : list (pstr * pstr)) : pstr -> pstr -> Prop :=
| sub_end : substituted dct [] []
| sub_key k v s out : In (k, v) dct -> k <> [] -> substituted dct s out ->
    substituted dct (k ++ s) (v ++ out)
| sub_char c s out : (forall k v, In (k, v) dct -> ~ starts_with k (c :: s)) ->
    substituted dct s out -> substituted dct (c :: s) (c :: out).

(** The three ways in which one placeholder can get in the way of another. *)
(** (1) occurrences of different placeholders overlap in the text *)
Definition keys_disjoint (dct : list (pstr * pstr)) (txt : pstr) : Prop :=
  forall k1 v1 k2 v2 i j, In (k1, v1) dct -> In (k2, v2) dct -> k1 <> k2 ->
    occurs_at k1 txt i -> occurs_at k2 txt j ->
    i + length k1 <= j \/ j + length k2 <= i.
(** (2) a placeholder comes directly after an incomplete beginning [q] of
    another one *)
Definition keys_separated (dct : list (pstr * pstr)) (txt : pstr) : Prop :=
  forall k1 v1 k2 v2 q p, In (k1, v1) dct -> In (k2, v2) dct -> k1 <> k2 ->
    k1 = q ++ p -> q <> [] -> p <> [] -> ~ occurs_in (q ++ k2) txt.
(** (3) a value contains another placeholder or ends in a beginning of one *)
Definition values_clean (dct : list (pstr * pstr)) : Prop :=
  forall k1 v1 k2 v2 x y, In (k1, v1) dct -> In (k2, v2) dct -> k1 <> k2 ->
    v2 = x ++ y -> y <> [] -> ~ starts_with k1 y /\ ~ starts_with y k1.

(** a Python dict with non-empty keys *)
Definition dict_ok (dct : list (pstr * pstr)) : Prop :=
  NoDup (map fst dct) /\ Forall (fun kv => fst kv <> []) dct.
