(** What cross validation and optimization of parameters mean. *)
From Coq Require Import Reals List Arith Permutation.
From Verif Require Import Rbf HyperOpt.
Import ListNotations.
Open Scope R_scope.
(** the rows of an array at these indices *)
Definition at_rows {A} (l : list A) (idx : list nat) (r : list A) : Prop := Forall2 (fun i x => nth_error l i = Some x) idx r.
(** basis, p and r for these parameters and fixed keywords; the keywords may not contain what is varied *)
Definition chosen (k : rkwds) (params : list (option R)) (b : rbf) (p : R) (r : option R) : Prop :=
  b = match k_rbf k with Some b => b | None => Gauss end /\ k_p k = None /\
  (params = [Some p] /\ r = match k_r k with Some r => r | None => Some 0 end \/ params = [Some p; r] /\ k_r k = None).
(** a model fitted to the rows [tr] of the data, and to nothing else *)
Definition trained solve lstsq (e : fiterror) (params : list (option R)) (tr : list nat) (m : model) : Prop :=
  exists pt vt b p r, at_rows (fe_points e) tr pt /\ at_rows (fe_values e) tr vt /\ chosen (fe_kwds e) params b p r /\ fit solve lstsq (fe_n e) pt vt b p r = Some m.
(** K folds of n rows: every row is tested once, by a model trained on the rows of the other folds *)
Definition kfold (n : nat) (fs : list (list nat * list nat)) : Prop :=
  Permutation (concat (map snd fs)) (seq 0 n) /\ Forall (fun f => snd f <> [] /\ forall i, In i (fst f) <-> (i < n)%nat /\ ~ In i (snd f)) fs.
(** the same data but other values outside these rows *)
Definition agree_on (tr : list nat) (e e' : fiterror) : Prop :=
  fe_n e' = fe_n e /\ fe_points e' = fe_points e /\ fe_kwds e' = fe_kwds e /\ length (fe_values e') = length (fe_values e) /\ forall i, In i tr -> nth_error (fe_values e') i = nth_error (fe_values e) i.
Definition total (n : nat) (f : nat -> R) : R := fold_right Rplus 0 (map f (seq 0 n)).
(** an optimizer returns parameters that are not worse than the start *)
Definition improves (opt : (list R -> option R) -> list R -> bool -> okwds -> option (list R)) : Prop :=
  forall f x0 d o x, opt f x0 d o = Some x -> length x = length x0 /\ exists y, f x = Some y /\ forall y0, f x0 = Some y0 -> y <= y0.
