(** Properties C17-C21: sequence helpers of comb.py and common.py. *)
From Coq Require Import Ascii String List Arith ZArith Bool Lia.
From Verif Require Import Comb CombSpec CombProofs.
Import ListNotations.

(** C17: one entry per choice of an element from each list, at the position
    given by the mixed-radix value of the index vector (last index fastest);
    every position below the length is the rank of exactly one index vector. *)
Theorem C17_nested_loops_enumerates (lists : list (list pyval)) :
  let lens := map (@length pyval) lists in
  length (nested_loops lists false) = fold_right Nat.mul 1 lens
  /\ (forall ix tup, choice lists ix tup ->
        nth_error (nested_loops lists false) (rank lens ix)
        = Some (PList (map ensure_list tup)))
  /\ (forall n, n < length (nested_loops lists false) ->
        exists ix tup, choice lists ix tup /\ rank lens ix = n
          /\ forall ix' tup', choice lists ix' tup' -> rank lens ix' = n -> ix' = ix /\ tup' = tup).
Proof. exact (nested_loops_enumerates lists). Qed.
Print Assumptions C17_nested_loops_enumerates.

(** flatten=True: same order, each tuple replaced by its leaves. *)
Theorem C17_nested_loops_flatten (lists : list (list pyval)) :
  let lens := map (@length pyval) lists in
  length (nested_loops lists true) = fold_right Nat.mul 1 lens
  /\ forall ix tup, choice lists ix tup ->
       exists lv, leaves (PTuple tup) lv
       /\ nth_error (nested_loops lists true) (rank lens ix) = Some (PList lv).
Proof. exact (nested_loops_flat_spec lists). Qed.
Print Assumptions C17_nested_loops_flatten.

(** Result entries contain no tuples at any depth: what is converted by
    [ensure_list] has the same leaves as before. *)
Theorem C17_ensure_list_leaves v l : leaves v l <-> leaves (ensure_list v) l.
Proof. exact (ensure_list_leaves v l). Qed.
Print Assumptions C17_ensure_list_leaves.

Example C17_case :
  choice [[PInt 1; PInt 2]; [PTuple [PInt 3; PInt 4]; PInt 5]] [1; 0] [PInt 2; PTuple [PInt 3; PInt 4]]
  /\ nested_loops [[PInt 1; PInt 2]; [PTuple [PInt 3; PInt 4]; PInt 5]] true
     = [PList [PInt 1; PInt 3; PInt 4]; PList [PInt 1; PInt 5];
        PList [PInt 2; PInt 3; PInt 4]; PList [PInt 2; PInt 5]].
Proof. split; [split; [repeat constructor|reflexivity]|reflexivity]. Qed.

(** C18 *)
Theorem C18_unique2d_rows arr :
  arr <> [] ->
  exists u idx, unique2d arr = Some u /\ increasing idx /\
    (forall i, In i idx <-> first_occ arr i) /\ picks arr idx u.
Proof. exact (unique2d_spec arr). Qed.
Print Assumptions C18_unique2d_rows.

Theorem C18_unique2d_distinct_complete arr u :
  unique2d arr = Some u -> NoDup u /\ (forall r, In r u <-> In r arr).
Proof. exact (unique2d_distinct arr u). Qed.
Print Assumptions C18_unique2d_distinct_complete.

Theorem C18_unique2d_idempotent arr u : unique2d arr = Some u -> unique2d u = Some u.
Proof. exact (unique2d_idem arr u). Qed.
Print Assumptions C18_unique2d_idempotent.

(** columns: the result is arr[:, idx] with idx the first occurrences *)
Theorem C18_unique2d_columns n arr :
  0 < n ->
  exists r idx, unique2d_col n arr = Some r /\ increasing idx /\
    (forall j, In j idx <-> j < n /\ forall k, k < j -> column arr k <> column arr j) /\
    r = map (fun row => map (fun j => nth j row 0%Z) idx) arr.
Proof. exact (unique2d_col_spec n arr). Qed.
Print Assumptions C18_unique2d_columns.

(** an array without rows is rejected *)
Theorem C18_unique2d_empty : unique2d [] = None.
Proof. exact eq_refl. Qed.
Print Assumptions C18_unique2d_empty.

Example C18_case :
  unique2d [[1; 2]; [3; 4]; [1; 2]; [0; 0]; [3; 4]]%Z = Some [[1; 2]; [3; 4]; [0; 0]]%Z
  /\ unique2d_col 3 [[1; 2; 1]; [3; 4; 3]]%Z = Some [[1; 2]; [3; 4]]%Z.
Proof. split; reflexivity. Qed.

(** C19 *)
Theorem C19_flatten_leaves seq l : flatten seq = l <-> leaves (PList seq) l.
Proof. exact (flatten_leaves seq l). Qed.
Print Assumptions C19_flatten_leaves.

Theorem C19_flatten_app a b : flatten (a ++ b) = flatten a ++ flatten b.
Proof. exact (flatten_app a b). Qed.
Print Assumptions C19_flatten_app.

Theorem C19_flatten_flat seq :
  (forall v l, In v seq -> ~ items_of v l) -> flatten seq = seq.
Proof. exact (flatten_flat_items seq). Qed.
Print Assumptions C19_flatten_flat.

Theorem C19_flatten_result_flat seq v l : In v (flatten seq) -> ~ items_of v l.
Proof. exact (flatten_result_flat seq v l). Qed.
Print Assumptions C19_flatten_result_flat.

Example C19_case :
  flatten [PInt 1; PTuple [PStr "ab"; PList []; PList [PInt 2; PTuple [PBytes [97; 98]%Z]]]]
  = [PInt 1; PStr "ab"; PInt 2; PInt 97; PInt 98].
Proof. reflexivity. Qed.

(** C20: position [i] of the list survives iff at least as many equal elements
    precede it as copies are to be removed. *)
Theorem C20_pop_from_list_removes {A} (dec : forall a b : A, {a = b} + {a <> b}) lst items :
  (forall x, count_occ dec items x <= count_occ dec lst x) ->
  exists r idx, pop_from_list (fun a b => if dec a b then true else false) lst items = Some r
    /\ increasing idx
    /\ (forall i, In i idx <-> exists x, nth_error lst i = Some x /\
                               count_occ dec items x <= count_occ dec (firstn i lst) x)
    /\ picks lst idx r.
Proof. exact (pop_from_list_positions dec lst items). Qed.
Print Assumptions C20_pop_from_list_removes.

Theorem C20_pop_from_list_raises {A} (dec : forall a b : A, {a = b} + {a <> b}) lst items x :
  count_occ dec lst x < count_occ dec items x ->
  pop_from_list (fun a b => if dec a b then true else false) lst items = None.
Proof. exact (pop_from_list_None dec lst items x). Qed.
Print Assumptions C20_pop_from_list_raises.

Theorem C20_pop_from_list_counts {A} (dec : forall a b : A, {a = b} + {a <> b}) lst items r x :
  pop_from_list (fun a b => if dec a b then true else false) lst items = Some r ->
  count_occ dec lst x = count_occ dec r x + count_occ dec items x.
Proof. exact (pop_from_list_count dec lst items r x). Qed.
Print Assumptions C20_pop_from_list_counts.

Example C20_case :
  pop_from_list Nat.eqb [1; 2; 1; 3; 1] [1; 3; 1] = Some [2; 1]
  /\ (forall x, count_occ Nat.eq_dec [1; 3; 1] x <= count_occ Nat.eq_dec [1; 2; 1; 3; 1] x)
  /\ pop_from_list Nat.eqb [1; 2] [1; 1] = None.
Proof.
  split; [reflexivity|split; [|reflexivity]]. intros x. cbn [count_occ].
  repeat match goal with |- context [Nat.eq_dec ?a x] => destruct (Nat.eq_dec a x) end; lia.
Qed.

(** C21 *)
Theorem C21_str2seq_seq2str (c : ascii) items :
  items <> [] -> Forall (fun x => ~ In c x) items ->
  str2seq (seq2str items [c]) (Some [c]) = Some items.
Proof. exact (str2seq_seq2str c items). Qed.
Print Assumptions C21_str2seq_seq2str.

(** default separators (a blank, any whitespace) *)
Theorem C21_str2seq_seq2str_default items :
  Forall (fun x => x <> [] /\ Forall (fun a => is_space a = false) x) items ->
  str2seq (seq2str items [" "%char]) None = Some items.
Proof. exact (str2seq_seq2str_default items). Qed.
Print Assumptions C21_str2seq_seq2str_default.

(** Any text, any separator: the pieces do not contain the separator, and joining them gives
    the text again. *)
Theorem C21_seq2str_str2seq sep s : sep <> [] ->
  exists items, str2seq s (Some sep) = Some items /\ items <> [] /\ seq2str items sep = s
    /\ forall x, In x items -> forall a b, x <> a ++ sep ++ b.
Proof. exact (split_any sep s). Qed.
Print Assumptions C21_seq2str_str2seq.

(** Without a separator the words of the text, whatever whitespace is between and around them;
    every text has such a form. *)
Theorem C21_words words s : spaced words s -> str2seq s None = Some words.
Proof. intros H. unfold str2seq. f_equal. exact (split_spaced words s H). Qed.
Print Assumptions C21_words.
Theorem C21_words_exist : forall s, exists words, spaced words s.
Proof. exact spaced_exists. Qed.
Print Assumptions C21_words_exist.

(** A separator of several characters can meet a piece of an item. *)
Theorem C21_multichar_separator_refuted :
  exists sep items, items <> [] /\ sep <> []
    /\ (forall x, In x items -> forall a b, x <> a ++ sep ++ b)
    /\ str2seq (seq2str items sep) (Some sep) <> Some items.
Proof. exact multichar_refuted. Qed.
Print Assumptions C21_multichar_separator_refuted.

(** The empty sequence is lost with an explicit separator. *)
Theorem C21_empty_sequence c : str2seq (seq2str [] [c]) (Some [c]) = Some [[]].
Proof. exact (empty_sequence c). Qed.
Print Assumptions C21_empty_sequence.

Example C21_case :
  str2seq (seq2str [["a"; "b"]; []; ["c"]]%char [","%char]) (Some [","%char])
  = Some [["a"; "b"]; []; ["c"]]%char.
Proof. reflexivity. Qed.
