(** What the attributes of a Structure or Trajectory are, given some of them. *)
From Coq Require Import List String.
From Verif Require Import Getters StructGetters.
Import ListNotations.
Open Scope string_scope.

Section Spec.
Variable V : Type.
Variable F : funs V.
Variable is_traj : bool.
Variable given : string -> option V.

Definition or_else (o p : option V) : option V := match o with Some v => Some v | None => p end.
Definition map2 (f : V -> V -> V) (o p : option V) : option V :=
  match o, p with Some x, Some y => Some (f x y) | _, _ => None end.
Definition map1 (f : V -> V) (o : option V) : option V := match o with Some x => Some (f x) | None => None end.

(** What is given is taken; cell and cryst_const come from each other, coords and
    coords_frac from each other with the cell; everything else from these and the
    symbols. *)
Definition cell := or_else (given "cell") (map1 (cc2cell V F) (given "cryst_const")).
Definition cryst_const := or_else (given "cryst_const") (map1 (cell2cc V F) (given "cell")).
Definition coords := or_else (given "coords") (map2 (frac2cart V F) (given "coords_frac") cell).
Definition coords_frac := or_else (given "coords_frac") (map2 (cart2frac V F) (given "coords") cell).
Definition symbols := given "symbols".
Definition natoms :=
  or_else (given "natoms") (or_else (map1 (len_symbols V F) symbols)
    (or_else (map1 (natoms_of V F) (given "coords")) (map1 (natoms_of V F) (given "coords_frac")))).
Definition nstep := or_else (given "nstep") (or_else (map1 (nstep_of V F) (given "coords")) (map1 (nstep_of V F) (given "coords_frac"))).
Definition velocity := or_else (given "velocity") (map2 (velocity_of V F) coords (given "timestep")).
Definition mass := or_else (given "mass") (map1 (masses_of V F) symbols).
Definition ekin := or_else (given "ekin") (map2 (ekin_of V F) mass velocity).
Definition unique := or_else (given "symbols_unique") (map1 (unique_of V F) symbols).
Definition order := or_else (given "order") (map1 (order_of V F) unique).
Definition typat := or_else (given "typat") (map2 (typat_of V F) symbols order).
Definition znucl_unique := or_else (given "znucl_unique") (map1 (numbers_of V F) unique).

Definition meant (a : string) : option V :=
  if a =? "cell" then cell else
  if a =? "cryst_const" then cryst_const else
  if a =? "coords" then coords else
  if a =? "coords_frac" then coords_frac else
  if a =? "volume" then or_else (given a) (map1 (volume_of V F) cell) else
  if a =? "pressure" then or_else (given a) (map1 (third_trace V F) (given "stress")) else
  if a =? "velocity" then velocity else
  if a =? "ekin" then ekin else
  if a =? "temperature" then or_else (given a) (map2 (temp_of V F) ekin natoms) else
  if a =? "time" then or_else (given a) (map2 (time_of V F) (given "timestep") nstep) else
  if a =? "nstep" then nstep else
  if a =? "natoms" then natoms else
  if a =? "symbols_unique" then unique else
  if a =? "order" then order else
  if a =? "typat" then typat else
  if a =? "znucl_unique" then znucl_unique else
  if a =? "znucl" then or_else (given a) (map1 (numbers_of V F) symbols) else
  if a =? "ntypat" then or_else (given a) (map1 (length_of V F) unique) else
  if a =? "nspecies" then or_else (given a) (map2 (counts_of V F) order typat) else
  if a =? "mass" then mass else
  if a =? "mass_unique" then or_else (given a) (map1 (masses_of_numbers V F) znucl_unique) else
  given a.

(** Transforming coordinates keeps the number of atoms and steps. *)
Definition shapes_kept : Prop :=
  forall x c, natoms_of V F (frac2cart V F x c) = natoms_of V F x /\ natoms_of V F (cart2frac V F x c) = natoms_of V F x /\
              nstep_of V F (frac2cart V F x c) = nstep_of V F x /\ nstep_of V F (cart2frac V F x c) = nstep_of V F x.
End Spec.
