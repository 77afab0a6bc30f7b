(** Model of [vlinspace] (src/pwtools/num.py lines 48-74), [kpath] and [get_path_norm]
    (src/pwtools/kpath.py lines 4-56) over the real numbers.  A 1d array is a list, a 2d array a list of
    rows; an exception is [None]. *)
From Coq Require Import Reals List Arith.
Import ListNotations.
Local Open Scope R_scope.

Definition vzip (f : R -> R -> R) (u v : list R) : list R := map (fun p => f (fst p) (snd p)) (combine u v).

(** np.cumsum(rows, axis=0) *)
Fixpoint cumsum_from (acc : list R) (rows : list (list R)) : list (list R) :=
  match rows with
  | [] => []
  | r :: rows' => vzip Rplus acc r :: cumsum_from (vzip Rplus acc r) rows'
  end.
Definition cumsum (rows : list (list R)) : list (list R) :=
  match rows with [] => [] | r :: rows' => r :: cumsum_from r rows' end.

(** num.py lines 61-74.  The assertions on [a.ndim] hold by typing. *)
Definition vlinspace (a b : list R) (num : nat) (endpoint : bool) : option (list (list R)) :=
  if negb (length a =? length b)%nat then None
  else if negb (1 <=? num)%nat then None
  else
    let dv := vzip Rminus b a in
    let ddv :=
      if endpoint
      then if (num =? 1)%nat then map (fun _ => 0) dv else map (fun x => x / INR (num - 1)) dv
      else map (fun x => x / INR num) dv in
    let ret := repeat ddv num in
    Some (cumsum (a :: tl ret)).

(** [arr[lo:lo+len(new), :] = new]; a slice of another length does not broadcast *)
Definition set_rows (arr new : list (list R)) (lo hi : nat) : option (list (list R)) :=
  if (length (firstn (hi - lo) (skipn lo arr)) =? length new)%nat
  then Some (firstn lo arr ++ new ++ skipn hi arr) else None.

(** kpath.py lines 32-34, the loop [for i in range(1, K)] *)
Fixpoint kpath_loop (vecs : list (list R)) (N : nat) (is : list nat) (new_vecs : list (list R))
    : option (list (list R)) :=
  match is with
  | [] => Some new_vecs
  | i :: is' =>
      match vlinspace (nth (i - 1) vecs []) (nth i vecs []) N false with
      | None => None
      | Some rows =>
          match set_rows new_vecs rows ((i - 1) * N) (i * N) with
          | None => None
          | Some nv => kpath_loop vecs N is' nv
          end
      end
  end.

(** kpath.py lines 30-37; [junk] is what [np.empty] holds, an array of [(K-1)*N+1] rows *)
Definition kpath (junk : list (list R)) (vecs : list (list R)) (N : nat) : option (list (list R)) :=
  let K := length vecs in
  match vecs with
  | [] => None                                   (* vecs[-1,:] is an IndexError *)
  | _ =>
      match kpath_loop vecs N (seq 1 (K - 1)) junk with
      | None => None
      | Some nv => set_rows nv [nth (K - 1) vecs []] (length nv - 1) (length nv)
      end
  end.

(** np.linalg.norm of a 1d array *)
Fixpoint sumsq (v : list R) : R := match v with [] => 0 | x :: v' => x * x + sumsq v' end.
Definition norm1 (v : list R) : R := sqrt (sumsq v).

(** np.diff(ks, axis=0), then the norm of every row: kpath.py line 53 *)
Fixpoint diff_norms (prev : list R) (ks : list (list R)) : list R :=
  match ks with
  | [] => []
  | k :: ks' => norm1 (vzip Rminus k prev) :: diff_norms k ks'
  end.

Fixpoint cumsum1 (acc : R) (l : list R) : list R :=
  match l with [] => [] | x :: l' => (acc + x) :: cumsum1 (acc + x) l' end.

(** kpath.py lines 40-56 *)
Definition get_path_norm (ks : list (list R)) : option (list R) :=
  match ks with
  | [] => None                                   (* ks[0,:] is an IndexError *)
  | k :: ks' => Some (cumsum1 0 (norm1 k :: diff_norms k ks'))
  end.
