(** What CP2K writes, for C86. *)
From Coq Require Import Ascii String List Arith Reals ZArith.
From Verif Require Import Comb ArrayIO PwOutSpec.
Import ListNotations.
Local Open Scope list_scope.
Local Notation length := List.length.

Definition spaces (g : pstr) : Prop := forall c, In c g -> c = " "%char.
(** ** PROJECT-pos-1.xyz and the like: for each step the number of atoms, a line like
    "i = 4, time = 1.0, E = -23.1", and the atoms: symbol and three numbers *)
Definition number_line (n : nat) (l : pstr) : Prop :=
  exists g h, spaces g /\ spaces h /\ l = g ++ show_int (Z.of_nat n) ++ h.
Definition header_line (l : pstr) : Prop := exists a b c, l = a ++ text "i = " ++ b ++ text "E =" ++ c.
Definition atom := (pstr * list pstr)%type.
Definition atom_line (l : pstr) (a : atom) : Prop :=
  words l = fst a :: snd a /\ length (snd a) = 3 /\ (forall d, In d (text "0123456789") -> hd_error (fst a) <> Some d) /\ ~ with_text (text "i =") l.
Definition frame := list atom.
Definition frame_lines (n : nat) (f : frame) (ls : list pstr) : Prop :=
  exists c h rest, ls = c :: h :: rest /\ number_line n c /\ header_line h /\ length f = n /\ Forall2 atom_line rest f.
Definition xyz_file (n : nat) (fs : list frame) (lines : list pstr) : Prop :=
  exists lss, Forall2 (frame_lines n) fs lss /\ lines = concat lss.
(** ** Tables: a line of column names behind a #, and rows of numbers *)
Definition table_row (l : pstr) (r : list pstr) : Prop := ~ In "#"%char l /\ words l = r.
Definition table_file (width : nat) (rows : list (list pstr)) (lines : list pstr) : Prop :=
  exists t ls, lines = (text "#" ++ t) :: ls /\ Forall2 table_row ls rows /\ Forall (fun r => length r = width) rows.
(** ** Forces in the output of an MD run *)
Definition force_line (l : pstr) (f : list pstr) : Prop :=
  exists g1 i g2 k g3 e g4 rest, l = g1 ++ i ++ g2 ++ k ++ g3 ++ e ++ g4 ++ rest /\
    blanks g1 /\ blanks g2 /\ blanks g3 /\ blanks g4 /\
    (forall x, In x [i; k; e] -> x <> [] /\ ~ In " "%char x) /\ words rest = f /\ length f = 3 /\
    ~ with_text (text "ATOM") l /\ ~ with_text (text "--") l /\ ~ with_text (text "Kind") l.
Definition empty (l : pstr) : Prop := words l = [].
(** Pieces of the output: lines without the heading of the forces, and blocks of forces *)
Inductive out_piece := Line (l : pstr) | Block (fs : list (list pstr)).
Definition prints_out (n : nat) (p : out_piece) (ls : list pstr) : Prop :=
  match p with
  | Line l => ls = [l] /\ ~ with_text (text "ATOMIC FORCES in") l
  | Block fs => exists h e1 t rest, ls = h :: e1 ++ t :: rest /\ with_text (text "ATOMIC FORCES in") h /\ Forall empty e1 /\
                  with_text (text "Kind") t /\ ~ with_text (text "ATOMIC FORCES in") t /\ length fs = n /\ Forall2 force_line rest fs
  end.
Definition out_file (n : nat) (ps : list out_piece) (lines : list pstr) : Prop :=
  exists lss, Forall2 (prints_out n) ps lss /\ lines = concat lss.
Definition blocks := flat_map (fun p => match p with Block f => [f] | _ => [] end).
(** ** A single point calculation *)
Definition scf_row (l : pstr) (a : atom) : Prop :=
  length (snd a) = 3 /\ ~ with_text (text "SUM OF ATOMIC FORCES") l /\ exists i k, words l = i :: k :: fst a :: snd a.
Definition title_line (t : pstr) : Prop :=
  exists p g1 g2 q, blanks g1 /\ blanks g2 /\ t = p ++ text "Atom" ++ g1 ++ text "Kind" ++ g2 ++ text "Element" ++ q.
(** up to the rows of forces; the heading is not the first line of the file, and an empty line
    follows *)
Definition scf_head (ls : list pstr) : Prop :=
  exists l0 pre h e t, ls = l0 :: pre ++ [h; e; t] /\ (forall l, In l pre -> ~ with_text (text "ATOMIC FORCES") l) /\
    with_text (text "ATOMIC FORCES") h /\ empty e /\ title_line t.
(** The table of energies, row by row; those of cells and stresses, with a matrix in each row *)
Record ener := Ener { e_step : R; e_time : R; e_kin : R; e_temp : R; e_pot : R; e_cons : R; e_used : R }.
Definition ener_row (e : ener) : list R := [e_step e; e_time e; e_kin e; e_temp e; e_pot e; e_cons e; e_used e].
Record matrix_row := MatrixRow { m_step : R; m_time : R; m_matrix : list (list R); m_rest : list R }.
Definition is_33 (m : list (list R)) : Prop := length m = 3 /\ Forall (fun r => length r = 3) m.
Definition matrix_row_numbers (r : matrix_row) : list R := [m_step r; m_time r] ++ concat (m_matrix r) ++ m_rest r.
(** The output says what kind of run it is. *)
Definition says_run (out : list pstr) (w : pstr) : Prop :=
  exists a l b, out = a ++ l :: b /\ (forall x, In x a -> ~ exists p q r, x = p ++ text "GLOBAL" ++ q ++ text "Run type" ++ r) /\
    exists p q g h, l = p ++ text "GLOBAL" ++ q ++ text "Run type" ++ g ++ w ++ h /\ blanks g /\ spaces h /\ w <> [] /\
      forall c, In c w -> is_space c = false /\ c <> "t"%char.
(** Headers of trajectory files of optimisations: "i = 3, E = -1.5" *)
Definition opt_header (l e : pstr) : Prop := header_line l /\ exists k, words l = [text "i"; text "="; k; text "E"; text "="; e].
Definition opt_headers (lss : list (list pstr)) (es : list pstr) : Prop := Forall2 (fun ls e => exists c h rest, ls = c :: h :: rest /\ opt_header h e) lss es.
Definition energy_line (l x : pstr) : Prop :=
  exists p a b c g h, l = p ++ text "ENERGY" ++ a ++ text "Total" ++ b ++ text "energy" ++ c ++ text ":" ++ g ++ x ++ h /\
    spaces g /\ spaces h /\ x <> [] /\ forall d, In d x -> is_space d = false /\ d <> ":"%char.
Definition no_energy (l : pstr) : Prop := ~ exists p a b c d, l = p ++ text "ENERGY" ++ a ++ text "Total" ++ b ++ text "energy" ++ c ++ text ":" ++ d.
Definition stress_head (l : pstr) : Prop := exists g a b, spaces g /\ l = g ++ text "STRESS TENSOR" ++ a ++ text "GPa" ++ b.
Definition no_stress (l : pstr) : Prop := ~ exists p a b, l = p ++ text "STRESS TENSOR" ++ a ++ text "GPa" ++ b.
Definition stress_axes (l : pstr) : Prop :=
  exists p g1 g2 q, blanks g1 /\ blanks g2 /\ l = p ++ text "X" ++ g1 ++ text "Y" ++ g2 ++ text "Z" ++ q.
Definition stress_line (axis : ascii) (l : pstr) (x : list pstr) : Prop :=
  exists g rest, blanks g /\ l = g ++ axis :: rest /\ words (axis :: rest) = [axis] :: x /\ length x = 3 /\ (forall c, In c rest -> ~ In c (text "SXYZ")).
