(** Radial basis function networks: pwtools.rbf.Rbf (src/pwtools/rbf/core.py), without
    jax. Points are lists of coordinates, arrays of points lists of lists, real
    arithmetic stands for floats. None is a failed assertion, an exception, or a result
    that contains nan or inf. *)
From Coq Require Import Reals List Arith Lra.
Import ListNotations.
Open Scope R_scope.
Definition rsum (n : nat) (f : nat -> R) : R := fold_right Rplus 0 (map f (seq 0 n)).
Definition nthR (k : nat) (x : list R) : R := nth k x 0.
Fixpoint mapM {A B} (f : A -> option B) (l : list A) : option (list B) :=
  match l with
  | [] => Some []
  | a :: l => match f a, mapM f l with Some b, Some bs => Some (b :: bs) | _, _ => None end
  end.
(** numpy division: 0/0 is nan, x/0 is inf. *)
Definition fdiv (x y : R) : option R := if Req_EM_T y 0 then None else Some (x / y).
(** The basis functions of rbf_dct (40-83), or any other callable. A callable's name
    decides in deriv, so Other never has one of the three names. *)
Inductive rbf := Gauss | Multi | InvMulti | Other (f : R -> R -> option R).
Definition rbf_multi (rsq p : R) : R := sqrt (rsq + p ^ 2).                                (* 53-63 *)
Definition basis (b : rbf) (rsq p : R) : option R :=
  match b with
  | Gauss => match fdiv (- (1/2) * rsq) (p ^ 2) with Some y => Some (exp y) | None => None end   (* 40-50 *)
  | Multi => Some (rbf_multi rsq p)
  | InvMulti => fdiv 1 (rbf_multi rsq p)                                                   (* 66-76 *)
  | Other f => f rsq p
  end.
(** cdist(aa, bb, "sqeuclidean") for points with n coordinates (108-119). *)
Definition sqdist (n : nat) (a b : list R) : R := rsum n (fun k => (nthR k a - nthR k b) ^ 2).
Definition squared_dists (n : nat) (aa bb : list (list R)) : list (list R) :=
  map (fun a => map (sqdist n a) bb) aa.
(** A model: training points and values, their dimension, basis, width and weights. *)
Record model := Model { ndim : nat; points : list (list R); values : list R; fn : rbf; p_ : R; w_ : list R }.
Definition dotl (u v : list R) : R := fold_right Rplus 0 (map (fun q => fst q * snd q) (combine u v)).
(** self.rbf(distsq, p) on a matrix. *)
Definition apply_rbf (b : rbf) (p : R) (m : list (list R)) : option (list (list R)) :=
  mapM (mapM (fun rsq => basis b rsq p)) m.
(** np.abs(w).max(), which raises for an empty array. *)
Definition maxabs (w : list R) : option R :=
  match w with [] => None | _ => Some (fold_right (fun x m => Rmax (Rabs x) m) 0 w) end.
(** p = "mean": np.sqrt(distsq).mean() (259-263). *)
Definition mean_p (n : nat) (pts : list (list R)) : option R :=
  let d := concat (squared_dists n pts pts) in
  fdiv (fold_right Rplus 0 (map sqrt d)) (INR (length d)).
(** __init__ (223-273): shapes are asserted; rows of a 2d array have one length. *)
Definition shapes (n : nat) (pts : list (list R)) (vals : list R) : bool :=
  (length vals =? length pts)%nat && forallb (fun x => (length x =? n)%nat) pts.
(** The solvers (365-407). [solve A z] is scipy.linalg.solve(A, z, assume_a="sym"),
    which raises (None) for a singular matrix; [lstsq A z] is scipy.linalg.lstsq. *)
Definition add_diag (r : R) (g : list (list R)) : list (list R) :=                          (* G + eye * r *)
  map (fun q => let '(i, row) := q in map (fun q => let '(j, x) := q in if (i =? j)%nat then x + 1 * r else x + 0 * r)
                                          (combine (seq 0 (length row)) row))
      (combine (seq 0 (length g)) g).
Section FIT.
  Variable solve : list (list R) -> list R -> option (list R).
  Variable lstsq : list (list R) -> list R -> list R.
  Definition fit (n : nat) (pts : list (list R)) (vals : list R) (b : rbf) (p : R) (r : option R) : option model := (* 322-363 *)
    if shapes n pts vals then
      match apply_rbf b p (squared_dists n pts pts) with
      | None => None
      | Some g =>
          match (match r with
                 | None => Some (lstsq g vals)
                 | Some r => if Req_EM_T r 0 then solve g vals else solve (add_diag r g) vals
                 end) with
          | Some w => Some (Model n pts vals b p w)
          | None => None
          end
      end
    else None.
End FIT.
(** predict on a 2d array (409-436): np.dot(G, w / maxw) * maxw. *)
Definition predict (m : model) (pts : list (list R)) : option (list R) :=
  if forallb (fun x => (length x =? ndim m)%nat) pts then
    match apply_rbf (fn m) (p_ m) (squared_dists (ndim m) pts (points m)), maxabs (w_ m) with
    | Some g, Some maxw =>
        if (length (points m) =? length (w_ m))%nat then
          match mapM (fun x => fdiv x maxw) (w_ m) with
          | Some wn => Some (map (fun row => dotl row wn * maxw) g)
          | None => None
          end
        else None
    | _, _ => None
    end
  else None.
(** predict on a single point (N,): atleast_2d, then values[0]. *)
Definition predict1 (m : model) (x : list R) : option R :=
  match predict m [x] with Some (y :: _) => Some y | _ => None end.
(** deriv (474-594). D_zz: one coordinate of one row of the result. *)
Definition d_multi (n : nat) (cs : list (list R)) (x g wn : list R) (maxw : R) (k : nat) : option R :=
  match mapM (fun q => fdiv (nthR k (fst q) - nthR k x) (snd q)) (combine cs g) with
  | Some col => Some (- dotl col wn * maxw)
  | None => None
  end.
Definition d_inv (cs : list (list R)) (x g wn : list R) (maxw : R) (k : nat) : R :=
  dotl (map (fun q => (nthR k (fst q) - nthR k x) * (snd q) ^ 3) (combine cs g)) wn * maxw.
Definition d_gauss (p : R) (cs : list (list R)) (x g wn : list R) (maxw : R) (k : nat) : option R :=
  match fdiv 1 (p ^ 2) with
  | Some c => Some (c * dotl (map (fun q => (nthR k (fst q) - nthR k x) * snd q) (combine cs g)) wn * maxw)
  | None => None
  end.
Definition d_row (m : model) (wn : list R) (maxw : R) (x g : list R) : option (list R) :=
  mapM (fun k => match fn m with
                 | Multi => d_multi (ndim m) (points m) x g wn maxw k
                 | InvMulti => Some (d_inv (points m) x g wn maxw k)
                 | Gauss => d_gauss (p_ m) (points m) x g wn maxw k
                 | Other _ => None                                         (* assert fname in D_zz.keys() *)
                 end) (seq 0 (ndim m)).
Definition deriv (m : model) (pts : list (list R)) : option (list (list R)) :=
  if forallb (fun x => (length x =? ndim m)%nat) pts then
    match apply_rbf (fn m) (p_ m) (squared_dists (ndim m) pts (points m)), maxabs (w_ m) with
    | Some g, Some maxw =>
        match mapM (fun x => fdiv x maxw) (w_ m) with
        | Some wn => mapM (fun q => d_row m wn maxw (fst q) (snd q)) (combine pts g)
        | None => None
        end
    | _, _ => None
    end
  else None.
Definition deriv1 (m : model) (x : list R) : option (list R) :=
  match deriv m [x] with Some (d :: _) => Some d | _ => None end.
(** fit_error (596-600): the mean of squared residuals, with a penalty for p < 0. *)
Definition fit_error (m : model) (pts : list (list R)) (vals : list R) : option R :=
  match predict m pts with
  | None => None
  | Some y =>
      if (length vals =? length y)%nat then
        let res := map (fun q => fst q - snd q) (combine vals y) in
        match fdiv (dotl res res) (INR (length res)) with
        | Some err => Some (if Rlt_dec (p_ m) 0 then exp (Rabs err) else err)
        | None => None
        end
      else None
  end.
