(** What users read in the documentation of fit() and get_min() *)
From Coq Require Import List Reals String.
From Verif Require Import Fit1D ExternEos.
Import ListNotations.
Local Open Scope R_scope.

(** a spline drawn through the points of a curve: it hits all of them, up to 1e-10 *)
Definition drawn_through (splrep : list R -> list R -> option (nat -> R -> R)) (c : curve) (f : fit) : Prop :=
  fx f = map fst c /\ fy f = map snd c /\ splrep (fx f) (fy f) = Some (at_ f) /\
  (forall x y, In (x, y) c -> Rabs (at_ f 0 x - y) < / 10 ^ 10) /\
  (forall i j x x', (i < j)%nat -> nth_error (map fst c) i = Some x -> nth_error (map fst c) j = Some x' -> x <= x').
(** B = -V dP/dV at the volumes of P(V), or B = V d2E/dV2 at the volumes of E(V) *)
Definition bulk_modulus (fac : R) (m : string) (ce cp : curve) (fe fp : fit) (cb : curve) : Prop :=
  (m = "pv"%string /\ map fst cb = map fst cp /\ forall v b, In (v, b) cb -> b = - (v * at_ fp 1 v)) \/
  (m = "ev"%string /\ map fst cb = map fst ce /\ forall v b, In (v, b) cb -> b = fac * (v * at_ fe 2 v)).
(** eos.x divides volumes and energies by the number of atoms; its curve E(V), in Bohr^3 and Ha, and
    the pressure P(V), in GPa, depend on data and type of the EOS only *)
Definition normalises (eosx : elk_input -> option (curve * curve)) (law press : curve -> nat -> R -> R) : Prop :=
  forall i e p, i_natoms i <> 0 -> eosx i = Some (e, p) ->
    (forall v x, In (v, x) e -> x * i_natoms i = law (i_data i) (i_etype i) (v * i_natoms i)) /\
    (forall v x, In (v, x) p -> x = press (i_data i) (i_etype i) (v * i_natoms i)).
