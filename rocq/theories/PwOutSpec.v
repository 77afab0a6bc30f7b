(** The output of a pw.x run as the manual and the program print it. A file is a list of pieces:
    a piece with data begins with a line that carries its mark, and no other line of the file
    carries a mark. *)
From Coq Require Import Ascii String List Arith Reals ZArith.
From Verif Require Import Comb ArrayIO.
Import ListNotations.
Local Open Scope list_scope.
Local Notation length := List.length.

Definition with_text (w l : pstr) : Prop := exists a b, l = a ++ w ++ b.
Definition blanks (g : pstr) : Prop := g <> [] /\ forall c, In c g -> c = " "%char.
Inductive mark := MEnergy | MForces | MForce | MStress | MPos | MCell.
Definition has (m : mark) (l : pstr) : Prop :=
  match m with
  | MEnergy => exists t, l = "!"%char :: t
  | MForces => exists p g1 g2 g3 q, blanks g1 /\ blanks g2 /\ blanks g3 /\
               l = p ++ text "Forces" ++ g1 ++ text "acting" ++ g2 ++ text "on" ++ g3 ++ text "atoms" ++ q
  | MForce => exists a b c d, l = a ++ text "atom" ++ b ++ text "type" ++ c ++ text "force" ++ d
  | MStress => with_text (text "P=") l
  | MPos => with_text (text "ATOMIC_POSITIONS") l
  | MCell => with_text (text "CELL_PARAMETERS") l
  end.
Definition only (m : mark) (l : pstr) : Prop := has m l /\ forall m', has m' l -> m' = m.
Definition plain (l : pstr) : Prop := forall m, ~ has m l.
(** A line of numbers *)
Definition data (l : pstr) : Prop := plain l /\ ~ with_text (text "--") l.
Definition words (l : pstr) : list pstr := split_ws [] l.

(** What a piece says, as texts: the forces on all atoms, once for the total and once for each
    contribution; header words after the keyword; rows of three *)
Inductive piece :=
| Other (l : pstr)
| Energy (e : pstr)
| Forces (blocks : list (list (list pstr)))
| Stress (rows : list (list pstr))
| Positions (unit_ : list pstr) (rows : list (list pstr))
| Cell (unit_ : list pstr) (rows : list (list pstr)).
Definition force_row (l : pstr) (f : list pstr) : Prop :=
  only MForce l /\ exists i t, length f = 3 /\ words l = [text "atom"; i; text "type"; t; text "force"; text "="] ++ f.
Inductive force_rows : list pstr -> list (list pstr) -> Prop :=
| fr_nil : force_rows [] []
| fr_plain l ls fs : plain l -> force_rows ls fs -> force_rows (l :: ls) fs
| fr_row l ls f fs : force_row l f -> force_rows ls fs -> force_rows (l :: ls) (f :: fs).
Definition stress_row (l : pstr) (s : list pstr) : Prop := data l /\ exists a b c, length s = 3 /\ words l = [a; b; c] ++ s.
Definition pos_row (l : pstr) (x : list pstr) : Prop := data l /\ exists sym flags, length x = 3 /\ words l = sym :: x ++ flags.
Definition cell_row (l : pstr) (x : list pstr) : Prop := data l /\ length x = 3 /\ words l = x.
Definition prints (natoms : nat) (p : piece) (ls : list pstr) : Prop :=
  match p with
  | Other l => ls = [l] /\ plain l
  | Energy e => exists l, ls = [l] /\ only MEnergy l /\ words l = [text "!"; text "total"; text "energy"; text "="; e; text "Ry"]
  | Forces bs => exists h rest, ls = h :: rest /\ only MForces h /\ force_rows rest (concat bs) /\ bs <> [] /\ Forall (fun b => length b = natoms) bs
  | Stress rows => exists h rest, ls = h :: rest /\ only MStress h /\ length rows = 3 /\ Forall2 stress_row rest rows
  | Positions u rows => exists h rest, ls = h :: rest /\ only MPos h /\ words h = text "ATOMIC_POSITIONS" :: u /\ length rows = natoms /\ Forall2 pos_row rest rows
  | Cell u rows => exists h rest, ls = h :: rest /\ only MCell h /\ words h = text "CELL_PARAMETERS" :: u /\ length rows = 3 /\ Forall2 cell_row rest rows
  end.
Definition file (natoms : nat) (ps : list piece) (lines : list pstr) : Prop :=
  exists lss, Forall2 (prints natoms) ps lss /\ lines = concat lss.
(** The first line about the number of atoms (lattice parameter) states it. *)
Definition says_natoms (lines : list pstr) (n : nat) : Prop :=
  exists a l b, lines = a ++ l :: b /\
    (forall x, In x a -> ~ exists p q r, x = p ++ text "number" ++ q ++ text "atoms/cell" ++ r) /\
    exists p q r g t, l = p ++ text "number" ++ q ++ text "atoms/cell" ++ r ++ text "=" ++ g ++ show_int (Z.of_nat n) ++ t /\
      blanks g /\ forall c, In c t -> c = " "%char.
Definition says_alat (lines : list pstr) (x : pstr) : Prop :=
  exists a l b, lines = a ++ l :: b /\ (forall x, In x a -> ~ with_text (text "lattice parameter") x) /\
    exists p r g g', l = p ++ text "lattice parameter" ++ r ++ text "=" ++ g ++ x ++ g' ++ text "a.u." /\
      blanks g /\ blanks g' /\ x <> [] /\ forall c, In c x -> is_space c = false /\ c <> "="%char.

(** The pieces of one kind, in the order of the file *)
Definition energies := flat_map (fun p => match p with Energy e => [e] | _ => [] end).
Definition forces := flat_map (fun p => match p with Forces f => [f] | _ => [] end).
Definition stresses := flat_map (fun p => match p with Stress s => [s] | _ => [] end).
Definition positions := flat_map (fun p => match p with Positions _ x => [x] | _ => [] end).
Definition position_units := flat_map (fun p => match p with Positions u _ => [u] | _ => [] end).
Definition cells := flat_map (fun p => match p with Cell _ x => [x] | _ => [] end).
Definition cell_units := flat_map (fun p => match p with Cell u _ => [u] | _ => [] end).

(** A run: the result of a self-consistent calculation, and what the run prints of it *)
Record result := Result { energy : pstr; force : list (list (list pstr)); stress : list (list pstr) }.
Definition of_result (r : result) : list piece := [Energy (energy r); Forces (force r); Stress (stress r)].
(** One step: the new structure, and then the result of the calculation of this structure *)
Definition of_step (s : list (list pstr) * result) : list piece := Positions [text "(bohr)"] (fst s) :: of_result (snd s).
Definition significant := List.filter (fun p => match p with Other _ => false | Cell _ _ => false | _ => true end).
Definition md_run (r0 : result) (steps : list (list (list pstr) * result)) (ps : list piece) : Prop :=
  significant ps = of_result r0 ++ flat_map of_step steps.
(** The run stops when the structure of the next step is printed, but not its result; a finished
    relaxation prints the last structure once more, with the same effect. *)
Definition md_stopped (r0 : result) (steps : list (list (list pstr) * result)) (next : list (list pstr)) (ps : list piece) : Prop :=
  significant ps = of_result r0 ++ flat_map of_step steps ++ [Positions [text "(bohr)"] next].
(** Texts and the numbers they stand for *)
Section READS.
Variable parse : pstr -> option R.
Definition reads (t : pstr) (x : R) : Prop := parse t = Some x.
Definition reads1 := Forall2 reads.
Definition reads2 := Forall2 reads1.
Definition reads3 := Forall2 reads2.
Definition reads4 := Forall2 reads3.
End READS.
(** The unit after the keyword: a word, bare or in brackets *)
Definition names_unit (u : list pstr) (x : pstr) : Prop :=
  x <> [] /\ (forall c, In c x -> ~ In c (text "(){}=")) /\ (u = [x] \/ u = [text "(" ++ x ++ text ")"] \/ u = [text "{" ++ x ++ text "}"]).
(** All headers of cells are like "CELL_PARAMETERS (alat= 22.7)"; their numbers *)
Inductive alat_headers : list pstr -> list pstr -> Prop :=
| ah_nil : alat_headers [] []
| ah_other l ls xs : ~ has MCell l -> alat_headers ls xs -> alat_headers (l :: ls) xs
| ah_cell g x ls xs : (forall c, In c g -> c = " "%char) -> x <> [] -> (forall c, In c x -> In c (text "0123456789.")) -> alat_headers ls xs ->
    alat_headers ((text "CELL_PARAMETERS (alat=" ++ g ++ x ++ text ")") :: ls) (x :: xs).
