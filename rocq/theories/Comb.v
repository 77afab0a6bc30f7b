(** Model of the sequence helpers in src/pwtools/comb.py and
    src/pwtools/common.py.  Definitions only. *)
From Coq Require Import Ascii String List Arith ZArith Bool.
Import ListNotations.

(** ** Python values as far as the sequence helpers can tell them apart
    common.py:586-605 (is_seq): strings are not sequences, everything else
    that supports iter() is.  [PObj] stands for any non-iterable object other
    than an int (told apart by an identity number), [PBytes] for bytes objects
    (iter() yields the ints), lists and tuples are kept apart because
    comb.py:49-53 converts one into the other.  Simplification: numpy arrays are
    lists; dicts, generators and open files are not represented. *)
Inductive pyval : Type :=
| PInt (z : Z)
| PObj (n : nat)
| PStr (s : string)
| PBytes (b : list Z)
| PList (l : list pyval)
| PTuple (l : list pyval).

(** common.py:586-605 *)
Definition is_seq (v : pyval) : bool :=
  match v with
  | PInt _ | PObj _ | PStr _ => false
  | PBytes _ | PList _ | PTuple _ => true
  end.

(** common.py:608-621 (iflatten, flatten): [flat_item] is what one item of the
    outer loop yields: the item itself (line 613) if it is not a sequence, else
    the items of flatten(item) (lines 615-616). *)
Fixpoint flat_item (v : pyval) : list pyval :=
  match v with
  | PInt _ | PObj _ | PStr _ => [v]
  | PBytes b => map PInt b
  | PList l | PTuple l => flat_map flat_item l
  end.

(** common.py:619-621: flatten of a Python list or tuple with items [seq]. *)
Definition flatten (seq : list pyval) : list pyval := flat_map flat_item seq.

(** comb.py:49-53 *)
Fixpoint ensure_list (v : pyval) : pyval :=
  match v with
  | PInt _ | PObj _ | PStr _ => v
  | PBytes b => PList (map PInt b)
  | PList l | PTuple l => PList (map ensure_list l)
  end.

(** itertools.product applied to the lists, used in comb.py:96; after the documented
    equivalent: [result = [[]]; for pool in pools: result = [x+[y] for x in
    result for y in pool]]. *)
Definition product {A} (pools : list (list A)) : list (list A) :=
  fold_left (fun result pool => flat_map (fun x => map (fun y => x ++ [y]) pool) result)
            pools [[]].

(** comb.py:58-98 (nested_loops).  The result of the function is a list of
    lists; [_ensure_list] (line 98) is applied to every entry. *)
Definition nested_loops (lists : list (list pyval)) (flat : bool) : list pyval :=
  let perms := product lists in
  let ret := if flat then map (fun xx => PList (flatten xx)) perms
             else map PTuple perms in
  map ensure_list ret.

(** comb.py:8-46 (unique2d), what='row': rows are lists of numbers; comparing
    two rows of a 2d array with (a == b).all() is equality of the lists. *)
Definition row_eqb (a b : list Z) : bool := if list_eq_dec Z.eq_dec a b then true else false.

(** comb.py:35-42, one iteration of the outer loop on the list [uniq]. *)
Definition uniq_step (uniq : list (list Z)) (row : list Z) : list (list Z) :=
  if existsb (row_eqb row) uniq then uniq else uniq ++ [row].

(** comb.py:28-44; [None] is the IndexError of [arr[0,:]] (line 34) on an array
    without rows. *)
Definition unique2d (arr : list (list Z)) : option (list (list Z)) :=
  match arr with
  | [] => None
  | r0 :: _ => Some (fold_left uniq_step arr [r0])
  end.

(** numpy transpose of a list of [n]-column rows. *)
Definition transpose (n : nat) (arr : list (list Z)) : list (list Z) :=
  map (fun j => map (fun row => nth j row 0%Z) arr) (seq 0 n).

(** comb.py:30-31,45-46, what='col' on an (m,n) array with [length arr = m]. *)
Definition unique2d_col (n : nat) (arr : list (list Z)) : option (list (list Z)) :=
  match unique2d (transpose n arr) with
  | None => None
  | Some u => Some (transpose (length arr) u)
  end.

(** common.py:624-641 (pop_from_list).  lst.pop(lst.index(item)) removes the
    first item equal to [item]; [None] is the ValueError of index(). *)
Section Pop.
  Context {A : Type} (eqb : A -> A -> bool).
  Fixpoint pop_index (item : A) (lst : list A) : option (list A) :=
    match lst with
    | [] => None
    | x :: xs => if eqb x item then Some xs
                 else match pop_index item xs with
                      | None => None
                      | Some r => Some (x :: r)
                      end
    end.
  Fixpoint pop_from_list (lst : list A) (items : list A) : option (list A) :=
    match items with
    | [] => Some lst
    | it :: its => match pop_index it lst with
                   | None => None
                   | Some lst' => pop_from_list lst' its
                   end
    end.
End Pop.

(** ** seq2str / str2seq, common.py:225-236
    Strings are lists of characters.  The conversion functions [func] are
    applied item by item and are left out here: items are their text. *)
Definition pstr := list ascii.

(** sep.join(items), common.py:227 *)
Fixpoint join (sep : pstr) (items : list pstr) : pstr :=
  match items with
  | [] => []
  | [x] => x
  | x :: xs => x ++ sep ++ join sep xs
  end.

Fixpoint is_prefix (p s : pstr) : bool :=
  match p, s with
  | [], _ => true
  | _ :: _, [] => false
  | a :: p', b :: s' => Ascii.eqb a b && is_prefix p' s'
  end.

(** str.split(sep) for a non-empty separator (common.py:236): scan from the
    left, cut at each occurrence and continue behind it.  [acc] is the piece
    being collected, [fuel] bounds the number of characters looked at. *)
Fixpoint split_aux (fuel : nat) (sep : pstr) (acc s : pstr) : list pstr :=
  match fuel with
  | O => [acc ++ s]
  | S fuel' =>
    if is_prefix sep s then acc :: split_aux fuel' sep [] (skipn (length sep) s)
    else match s with
         | [] => [acc]
         | c :: s' => split_aux fuel' sep (acc ++ [c]) s'
         end
  end.

(** [None]: ValueError("empty separator"). *)
Definition split_sep (sep s : pstr) : option (list pstr) :=
  match sep with
  | [] => None
  | _ => Some (split_aux (S (length s)) sep [] s)
  end.

(** ASCII whitespace as used by str.split() without argument. *)
Definition is_space (c : ascii) : bool :=
  let n := nat_of_ascii c in
  ((9 <=? n) && (n <=? 13)) || ((28 <=? n) && (n <=? 32)).

(** str.split() (common.py:234): runs of whitespace separate, no empty items. *)
Fixpoint split_ws (acc s : pstr) : list pstr :=
  match s with
  | [] => match acc with [] => [] | _ => [acc] end
  | c :: s' =>
    if is_space c then
      match acc with [] => split_ws [] s' | _ => acc :: split_ws [] s' end
    else split_ws (acc ++ [c]) s'
  end.

(** common.py:225-227 and 230-236 *)
Definition seq2str (items : list pstr) (sep : pstr) : pstr := join sep items.
Definition str2seq (st : pstr) (sep : option pstr) : option (list pstr) :=
  match sep with
  | None => Some (split_ws [] st)
  | Some s => split_sep s st
  end.
