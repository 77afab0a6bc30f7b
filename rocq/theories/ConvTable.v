(** Convergence tables, /repo/src/pwtools/batch.py conv_table 617-695. Real numbers stand for floats.
    None is an exception. Formatting with ffmt and sfmt is a parameter: what the format strings make of
    a number or of an entry of xx. Not modelled: format strings which are invalid or which hold more than
    one directive; boolean and unsigned yy. *)
From Coq Require Import Ascii List Reals.
From Verif Require Import Comb ArrayIO.
Import ListNotations.
Local Open Scope list_scope.
Local Open Scope R_scope.
Local Notation length := List.length.

(** yy: a sequence of numbers, or a sequence of sequences (one per parameter) *)
Inductive data := One (l : list R) | Many (rows : list (list R)).
(** mode: 'next', 'last' or anything else *)
Inductive mode := Next | Last | Unknown.
(** lines 665-670: np.asarray(yy), as a list of the columns of the array of shape (number of values,
    number of parameters); an empty outer list has one empty column, ragged lists are refused *)
Definition columns (yy : data) : option (list (list R)) :=
  match yy with
  | One l => Some [l]
  | Many [] => Some [[]]
  | Many (r :: rows) => if forallb (fun q => Nat.eqb (length q) (length r)) rows then Some (r :: rows) else None
  end.
(** np.diff followed by the zero of line 675 *)
Fixpoint next_diff (l : list R) : list R :=
  match l with [] => [] | [a] => [0] | a :: (b :: _) as t => (b - a) :: next_diff t end.
(** lines 673-680; item -1 of an empty axis is an error *)
Definition diff (m : mode) (l : list R) : option (list R) :=
  match l with
  | [] => None
  | a :: t => match m with Next => Some (next_diff l) | Last => Some (map (fun y => last t a - y) l) | Unknown => None end
  end.
(** lines 681-682 *)
Definition maybe_abs (absdiff : bool) (l : list R) : list R := if absdiff then map Rabs l else l.
Section FORMAT.
Variable X : Type.
Variable sfmt : X -> pstr.
Variable ffmt : R -> pstr.
(** lines 688-693: the entries of one line after the first; dy or dy, y for each parameter *)
Fixpoint entries (orig : bool) (idx : nat) (dyy yy : list (list R)) : option (list R) :=
  match dyy, yy with
  | d :: dyy, y :: yy =>
    match nth_error d idx, nth_error y idx, entries orig idx dyy yy with
    | Some a, Some b, Some r => Some (if orig then a :: b :: r else a :: r)
    | _, _, _ => None
    end
  | _, _ => Some []
  end.
(** line 694 *)
Definition line (x : X) (r : list R) : pstr := sfmt x ++ concat (map ffmt r) ++ ["010"%char].
(** the loop 687-694 *)
Fixpoint body (orig : bool) (idx : nat) (xx : list X) (dyy yy : list (list R)) : option pstr :=
  match xx with
  | [] => Some []
  | x :: xx => match entries orig idx dyy yy, body orig (S idx) xx dyy yy with Some r, Some st => Some (line x r ++ st) | _, _ => None end
  end.
Definition conv_table (xx : list X) (yy : data) (m : mode) (orig absdiff : bool) : option pstr :=
  match columns yy with
  | None => None
  | Some cols => match opt_map (diff m) cols with Some dyy => body orig 0 xx (map (maybe_abs absdiff) dyy) cols | None => None end
  end.
End FORMAT.
