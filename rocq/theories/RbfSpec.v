(** What a radial basis function network is: the sum of w_j phi(|x - c_j|^2) over its
    centers. *)
From Coq Require Import Reals List Arith.
From Verif Require Import Rbf.
Import ListNotations.
Open Scope R_scope.
Definition sumR (l : list R) : R := fold_right Rplus 0 l.
(** Squared Euclidean distance. *)
Definition dist2 (x c : list R) : R := sumR (map (fun q => (fst q - snd q) ^ 2) (combine x c)).
Definition inner (u v : list R) : R := sumR (map (fun q => fst q * snd q) (combine u v)).
(** The three documented basis functions of the squared distance, where they are
    finite. *)
Definition phi (b : rbf) (p rsq : R) : R :=
  match b with
  | Gauss => exp (- (rsq / (2 * p ^ 2)))
  | Multi => sqrt (rsq + p ^ 2)
  | InvMulti => 1 / sqrt (rsq + p ^ 2)
  | Other f => match f rsq p with Some y => y | None => 0 end
  end.
Definition builtin (b : rbf) : Prop := match b with Other _ => False | _ => True end.
Definition network (b : rbf) (p : R) (cs : list (list R)) (ws x : list R) : R :=
  sumR (map (fun q => snd q * phi b p (dist2 x (fst q))) (combine cs ws)).
(** The basis functions are finite at x; smooth: they are also differentiable. *)
Definition finite (b : rbf) (p : R) (cs : list (list R)) (x : list R) : Prop :=
  match b with
  | Gauss => p <> 0
  | Multi => True
  | InvMulti => forall c, In c cs -> 0 < dist2 x c + p ^ 2
  | Other _ => False
  end.
Definition smooth (b : rbf) (p : R) (cs : list (list R)) (x : list R) : Prop :=
  match b with
  | Gauss => p <> 0
  | Multi | InvMulti => forall c, In c cs -> 0 < dist2 x c + p ^ 2
  | Other _ => False
  end.
(** A fitted model: shapes agree and some weight is not zero. *)
Definition fitted (m : model) : Prop :=
  length (w_ m) = length (points m) /\ (forall c, In c (points m) -> length c = ndim m) /\ (exists w, In w (w_ m) /\ w <> 0).
(** x + t v *)
Definition along (x v : list R) (t : R) : list R := map (fun q => fst q + t * snd q) (combine x v).
Definition matvec (a : list (list R)) (w : list R) : list R := map (fun row => inner row w) a.
Definition square (n : nat) (a : list (list R)) : Prop := length a = n /\ (forall row, In row a -> length row = n).
Definition symmetric (a : list (list R)) : Prop :=
  forall i j, (i < length a)%nat -> (j < length a)%nat -> nth j (nth i a []) 0 = nth i (nth j a []) 0.
(** scipy.linalg.solve with assume_a="sym": used on symmetric matrices only, what it
    returns solves the system. *)
Definition solve_ok (solve : list (list R) -> list R -> option (list R)) : Prop :=
  forall a z w, square (length z) a -> symmetric a -> solve a z = Some w -> length w = length z /\ matvec a w = z.
(** scipy.linalg.lstsq: no other weights give a smaller sum of squared residuals. *)
Definition sqres (y z : list R) : R := dist2 z y.
Definition lstsq_ok (lstsq : list (list R) -> list R -> list R) : Prop :=
  forall a z, square (length z) a -> length (lstsq a z) = length z /\
    forall w, length w = length z -> sqres (matvec a (lstsq a z)) z <= sqres (matvec a w) z.
