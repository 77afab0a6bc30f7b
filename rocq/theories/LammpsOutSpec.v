(** What a LAMMPS data file says, for C82. *)
From Coq Require Import Ascii String List ZArith QArith.
From Verif Require Import Comb ArrayIO Decimal TextOutSpec.
Import ListNotations.
Local Open Scope list_scope.
Local Open Scope nat_scope.
Local Notation length := List.length.

Definition words (l : pstr) : list pstr := split_ws [] l.
Definition int (n : nat) : pstr := show_int (Z.of_nat n).
(** The atoms: running number from 1, type, position. The types: number from 1, mass. *)
Definition atom_is (l : pstr) (i t : nat) (row : list float64) : Prop := exists ws, words l = int i :: int t :: ws /\ numbers ws row.
Definition data_file (natoms ntypes : nat) (x y z xy xz yz : pstr) (types : list nat) (coords : list (list float64)) (masses : list pstr) (ls : list pstr) : Prop :=
  exists head l1 l2 lx ly lz lt atoms ms,
    ls = head :: [] :: l1 :: l2 :: [] :: lx :: ly :: lz :: lt :: [] :: text "Atoms" :: [] :: atoms ++ [] :: text "Masses" :: [] :: ms ++ [[]] /\
    words l1 = [int natoms; text "atoms"] /\ words l2 = [int ntypes; text "atom"; text "types"] /\
    words lx = [text "0.0"; x; text "xlo"; text "xhi"] /\ words ly = [text "0.0"; y; text "ylo"; text "yhi"] /\ words lz = [text "0.0"; z; text "zlo"; text "zhi"] /\
    words lt = [xy; xz; yz; text "xy"; text "xz"; text "yz"] /\
    length atoms = natoms /\ length types = natoms /\ length coords = natoms /\
    (forall i l t row, nth_error atoms i = Some l -> nth_error types i = Some t -> nth_error coords i = Some row -> atom_is l (i + 1) t row) /\
    length ms = ntypes /\ length masses = ntypes /\
    (forall i l m, nth_error ms i = Some l -> nth_error masses i = Some m -> words l = [int (i + 1); m]).
