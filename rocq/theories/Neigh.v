(** Model of nearest_neighbors_from_dists, /repo/src/pwtools/crys.py:1947-1998. *)
From Coq Require Import List Reals Bool Arith String.
Import ListNotations.
Section Neigh.
(** dists[:,idx] and symbols of the n atoms *)
Variables (n : nat) (dist : nat -> R) (sym : nat -> string) (idx : nat).
(** idx_lst_sort = np.argsort(dist1d): some permutation which sorts the distances; numpy does not
    say in which order equal distances come *)
Variable idx_sort : list nat.
Definition rlt (a b : R) : bool := if Rlt_dec a b then true else false.
(** 1978-1982; skip None is the empty list *)
Definition only_msk (skip : list string) (i : nat) : bool := negb (existsb (String.eqb (sym i)) skip).
(** 1983-1991; [num] atoms, then [cutoff] *)
Definition by_num (skip : list string) (num : nat) : list nat := firstn num (skipn 1 (List.filter (only_msk skip) idx_sort)).
Definition by_cutoff (skip : list string) (cutoff : R) : list nat :=
  List.filter (fun i => rlt 0 (dist i) && rlt (dist i) cutoff && only_msk skip i) idx_sort.
(** 1992-1995: with sort=False, orig_idx[match_mask(orig_idx, ret_idx)] *)
Definition unsort (ret : list nat) : list nat := List.filter (fun i => existsb (Nat.eqb i) ret) (seq 0 n).
(** 1971-1975: idx None, or both num and cutoff, or none of them, is an AssertionError or fails *)
Definition nearest (num : option nat) (cutoff : option R) (skip : list string) (sort : bool) : option (list nat) :=
  match num, cutoff with
  | Some k, None => Some (if sort then by_num skip k else unsort (by_num skip k))
  | None, Some c => Some (if sort then by_cutoff skip c else unsort (by_cutoff skip c))
  | _, _ => None
  end.
End Neigh.
