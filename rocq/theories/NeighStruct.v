(** Model of nearest_neighbors and nearest_neighbors_struct, /repo/src/pwtools/crys.py:2001-2107,
    on top of nearest_neighbors_from_dists (Neigh.v), distances (Dist.v) and match_mask (Num.v).
    Real arithmetic. [None] is an exception. *)
From Coq Require Import List Reals Bool Arith String ZArith.
From Verif Require Import Vec3 Dist Neigh Num.
Import ListNotations.
(** The attributes of a Structure which are read here; those of the new Structure which are not
    listed (forces, stress, ...) are not set, 2104-2106. *)
Record struct := Struct { st_cell : mat; st_frac : list vec; st_syms : list string }.
(** dists[:,idx], 1979: Python index into n columns; None is IndexError *)
Definition at_index (n : nat) (i : Z) : option nat :=
  if ((0 <=? i) && (i <? Z.of_nat n))%Z then Some (Z.to_nat i)
  else if ((- Z.of_nat n <=? i) && (i <? 0))%Z then Some (Z.to_nat (Z.of_nat n + i)) else None.
Section NS.
(** np.argsort *)
Variable argsort : nat -> (nat -> R) -> list nat.
(** memory of np.empty *)
Variable s0 : scratch.
Definition position (st : struct) (i : nat) : vec := nth i (st_frac st) (Vec 0 0 0)%R.
Definition symbol (st : struct) (i : nat) : string := nth i (st_syms st) EmptyString.
(** column idx of the distance matrix, 2079 and 1979 *)
Definition dist1d (st : struct) (pbc : bool) (k j : nat) : R :=
  fst (fst (distances s0 (position st) (st_cell st) (List.length (st_syms st)) pbc false)) (j, k).
(** 2001-2082 with fullout=False; idx=None is an AssertionError, 1970 *)
Definition nearest_neighbors (st : struct) (idx : option Z) (skip : list string) (cutoff : option R) (num : option nat)
  (pbc sort : bool) : option (list nat) :=
  match idx with None => None | Some i =>
  match at_index (List.length (st_syms st)) i with None => None | Some k =>
    nearest (List.length (st_syms st)) (dist1d st pbc k) (symbol st)
      (argsort (List.length (st_syms st)) (dist1d st pbc k)) num cutoff skip sort
  end end.
(** 2085-2107; with fullout=True [ni] is a pair of arrays, which np.concatenate makes a 2d array
    and refuses to join with the 1d list [idx] *)
Definition nearest_neighbors_struct (st : struct) (idx : option Z) (skip : list string) (cutoff : option R) (num : option nat)
  (pbc sort fullout : bool) : option struct :=
  match nearest_neighbors st idx skip cutoff num pbc sort, idx with
  | Some ni, Some i =>
    if fullout then None else
    let values := map Z.of_nat ni ++ [i] in
    let msk := fst (match_mask (fun a v => (Z.of_nat a =? v)%Z) (seq 0 (List.length (st_syms st))) values) in
    Some (Struct (st_cell st) (take_mask (st_frac st) msk) (take_mask (st_syms st) msk))
  | _, _ => None
  end.
End NS.
