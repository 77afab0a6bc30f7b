(** inner_points_mask (/repo/src/pwtools/num.py 1171-1197). Points are rows of real numbers. *)
From Coq Require Import List Bool Arith Reals.
Import ListNotations.
Local Open Scope list_scope.

(** 1189-1190, 1196: msk[i] = False, msk.put; an index out of range is an IndexError *)
Fixpoint put (msk : list bool) (i : nat) : option (list bool) :=
  match msk, i with
  | [], _ => None
  | _ :: msk, 0 => Some (false :: msk)
  | b :: msk, S i => option_map (cons b) (put msk i)
  end.
Fixpoint put_all (msk : list bool) (idx : list nat) : option (list bool) :=
  match idx with [] => Some msk | i :: idx => match put msk i with Some m => put_all m idx | None => None end end.
(** 1188: (np.diff(points[:,0]) >= 0.0).all() *)
Fixpoint diffs (l : list R) : list R :=
  match l with x :: (y :: _) as r => (y - x)%R :: diffs r | _ => [] end.
Definition monotonic (l : list R) : bool := forallb (fun d => if Rle_dec 0 d then true else false) (diffs l).
(** 1186-1197. [ndim] is points.shape[1]; [convex_hull] gives the simplices of the convex hull as
    found by scipy's Delaunay, a list of indices each. np.unique drops repeated indices (its order
    does not matter here). msk[-1] is the last entry. *)
Definition inner_points_mask (convex_hull : list (list R) -> list (list nat)) (ndim : nat) (points : list (list R)) : option (list bool) :=
  let n := length points in
  let msk := repeat true n in
  if ndim =? 1 then
    if monotonic (map (hd 0%R) points) then put_all msk [0; n - 1] else None
  else put_all msk (nodup Nat.eq_dec (concat (convex_hull points))).
