(** What indexing, slicing, looping over and concatenating trajectories mean. *)
From Coq Require Import List String ZArith.
From Verif Require Import StructGetters Traj.
Import ListNotations.
Open Scope string_scope.

(** [r] holds the elements of [l] at a, a+d, a+2d, ... before b. *)
Definition before (d x b : Z) : Prop := if (d <? 0)%Z then (b < x)%Z else (x < b)%Z.
Definition is_slice {B} (l : list B) (a b d : Z) (r : list B) : Prop :=
  forall i, (before d (a + Z.of_nat i * d) b -> nth_error r i = nth_error l (Z.to_nat (a + Z.of_nat i * d)) /\
                                             (0 <= a + Z.of_nat i * d < Z.of_nat (List.length l))%Z) /\
            (~ before d (a + Z.of_nat i * d) b -> nth_error r i = None).

(** First position and end of a slice with positive step of a sequence of length n. *)
Definition pos (n x : Z) : Z := if (x <? 0)%Z then Z.max 0 (x + n) else Z.min x n.
Definition first (s : slice) (n : Z) : Z := match start s with Some x => pos n x | None => 0%Z end.
Definition last (s : slice) (n : Z) : Z := match stop s with Some x => pos n x | None => n end.
Definition by_ (s : slice) : Z := match step s with Some d => d | None => 1%Z end.
(** Number of elements of it *)
Definition count (s : slice) (n : Z) : Z := Z.max 0 ((last s n - first s n + by_ s - 1) / by_ s).
(** The slice that is the same as slicing with s and then with s'. *)
Definition composed (n : Z) (s s' : slice) : slice :=
  let m := count s n in
  Slice (Some (first s n + first s' m * by_ s)%Z) (Some (first s n + last s' m * by_ s)%Z) (Some (by_ s * by_ s')%Z).

Section Whole.
Context {A X T : Type}.
Notation obj := (obj A X T).
(** A trajectory with n steps whose arrays all have n steps. *)
Definition whole (n : nat) (tr : obj) : Prop :=
  tr "nstep" = Some (Int (Z.of_nat n)) /\
  (forall a, In a attrs_nstep -> tr a = None \/ exists l, tr a = Some (Arr l) /\ List.length l = n) /\
  (tr "coords" <> None \/ tr "coords_frac" <> None) /\
  (tr "timestep" = None \/ exists t, tr "timestep" = Some (Num t)).
(** A Structure: one row for each time dependent attribute. *)
Definition single (st : obj) : Prop :=
  (forall a, In a attrs_nstep -> st a = None \/ exists r, st a = Some (Row r)) /\
  (forall a, In a attrs_only_traj -> st a = None) /\
  (st "coords" <> None \/ st "coords_frac" <> None).
(** Step i of a trajectory or Structure *)
Definition row (o : obj) (a : string) (i : nat) : option A :=
  match o a with Some (Arr l) => nth_error l i | Some (Row r) => match i with 0 => Some r | _ => None end | _ => None end.
End Whole.

(** The parts of a concatenation: trajectories with n steps and Structures (n = 1). *)
Definition part {A X T} (p : nat * (bool * obj A X T)) : Prop :=
  if fst (snd p) then whole (fst p) (snd (snd p)) else single (snd (snd p)) /\ fst p = 1.
Definition steps {A X T} (ps : list (nat * (bool * obj A X T))) : nat := list_sum (map fst ps).
Definition has {A X T} (a : string) (p : nat * (bool * obj A X T)) : Prop := snd (snd p) a <> None.
