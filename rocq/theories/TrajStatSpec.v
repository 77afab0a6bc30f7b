From Coq Require Import Reals List.
From Verif Require Import Vec3.
Import ListNotations.
Open Scope R_scope.
(** The numbers of an array of shape (natoms, 3) or (3, 3) in memory order. *)
Definition flat (l : list vec) : list R := flat_map (fun v => [vx v; vy v; vz v]) l.
Definition flat_cell (h : mat) : list R := flat [ra h; rb h; rc h].
(** Cartesian coordinates of atoms with fractional coordinates [s] in the cell [h]. *)
Definition to_cart (h : mat) (s : list vec) : list vec := map (fun x => vecmat x h) s.
Definition total (l : list R) : R := fold_right Rplus 0 l.
(** Root mean square displacement between two structures. *)
Definition rms_displacement (a b : list vec) : R :=
  sqrt (total (map (fun p => dot (vsub (fst p) (snd p)) (vsub (fst p) (snd p))) (combine a b)) / INR (length a)).
(** A rotation or reflection followed by a translation. *)
Definition rigid (f : vec -> vec) : Prop :=
  exists q d, (forall u, dot (vecmat u q) (vecmat u q) = dot u u) /\ forall u, f u = vadd (vecmat u q) d.
(** Volume of a cell given as numbers in memory order. *)
Definition volume (h : mat) : R := Rabs (det h).
