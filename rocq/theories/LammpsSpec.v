(** Dump files and thermo output as LAMMPS documents them. *)
From Coq Require Import Ascii String List Arith Bool Reals ZArith.
From Verif Require Import Comb Template ArrayIO Vec3.
Import ListNotations.
Local Open Scope list_scope.
Local Notation length := List.length.
Section SPEC.
Variable parse : pstr -> option R.
(** A word: printed text without blanks, and without the marks the file format uses. *)
Definition plain (s : pstr) : Prop :=
  s <> [] /\ Forall (fun c => is_space c = false) s /\ contains (text "--") s = false /\ contains (text "ITEM") s = false /\
  contains (text "TOMS") s = false.
(** [t] is the text of the number [x]. *)
Definition shows (t : pstr) (x : R) : Prop := plain t /\ parse t = Some x.
(** A triclinic box: corner, edge lengths, tilts ("Howto triclinic" in the manual). *)
Record box := Box { xlo : R; ylo : R; zlo : R; lx : R; ly : R; lz : R; xy : R; xz : R; yz : R }.
Local Open Scope R_scope.
(** The numbers a dump prints for it: the bounds of the rectangle around the box, and the
    tilts. *)
Definition smallest (l : list R) : R := fold_right Rmin 0 l.
Definition largest (l : list R) : R := fold_right Rmax 0 l.
Definition bounds (b : box) : list (list R) :=
  [[xlo b + smallest [xy b; xz b; xy b + xz b]; xlo b + lx b + largest [xy b; xz b; xy b + xz b]; xy b];
   [ylo b + smallest [yz b]; ylo b + ly b + largest [yz b]; xz b];
   [zlo b; zlo b + lz b; yz b]].
Definition box_cell (b : box) : mat := Mat (Vec (lx b) 0 0) (Vec (xy b) (ly b) 0) (Vec (xz b) (yz b) (lz b)).
(** One frame of a dump: time step, atoms, box texts, rows of texts. *)
Record frame := Frame { step : Z; boxtxt : list (list pstr); rows : list (list pstr) }.
Definition sp := text " ".
Definition frame_lines (boxline : pstr) (cols : list pstr) (natoms : nat) (f : frame) : list pstr :=
  [text "ITEM: TIMESTEP"; show_int (step f); text "ITEM: NUMBER OF ATOMS"; show_int (Z.of_nat natoms); boxline] ++
  map (join sp) (boxtxt f) ++ [text "ITEM: ATOMS " ++ join sp cols] ++ map (join sp) (rows f).
Definition dump_lines (boxline : pstr) (cols : list pstr) (natoms : nat) (fs : list frame) : list pstr :=
  concat (map (frame_lines boxline cols natoms) fs).
Definition triclinic : pstr := text "ITEM: BOX BOUNDS xy xz yz pp pp pp".
Definition orthogonal : pstr := text "ITEM: BOX BOUNDS pp pp pp".
(** The frame prints these numbers, row by row. *)
Definition frame_shows (cols : list pstr) (natoms : nat) (b : list (list R)) (data : list (list R)) (f : frame) : Prop :=
  Forall2 (Forall2 shows) (boxtxt f) b /\ length b = 3%nat /\ Forall2 (Forall2 shows) (rows f) data /\
  length data = natoms /\ Forall (fun r => length r = length cols) data /\ (0 <= step f)%Z.
(** The value of the column [name] of one atom. *)
Fixpoint value_of (name : pstr) (cols : list pstr) (row : list R) : option R :=
  match cols, row with
  | c :: cols, x :: row => if pstr_eqb c name then Some x else value_of name cols row
  | _, _ => None
  end.
(** The log: other text, then for each run a header, rows of numbers and a line "Loop time ...". *)
Record run := Run { before : list pstr; trows : list (list pstr); loop : pstr }.
Definition run_lines (header : list pstr) (r : run) : list pstr :=
  before r ++ [join sp header] ++ map (join sp) (trows r) ++ [text "Loop" ++ loop r].
Definition log_lines (header : list pstr) (rs : list run) (rest : list pstr) : list pstr :=
  concat (map (run_lines header) rs) ++ rest.
Definition no_step (l : pstr) : Prop := contains (text "Step") l = false.
(** words of the table contain neither mark *)
Definition tword (s : pstr) : Prop :=
  s <> [] /\ Forall (fun c => is_space c = false) s /\ contains (text "Step") s = false /\ contains (text "Loop") s = false.
Definition tshows (t : pstr) (x : R) : Prop := tword t /\ parse t = Some x.
End SPEC.
