(** What matdyn.x, ph.x and dynmat.x write about phonon modes, for C88. *)
From Coq Require Import Ascii String List Arith Reals.
From Verif Require Import Comb Template ArrayIO PwOutSpec.
Import ListNotations.
Local Open Scope list_scope.
Local Notation length := List.length.

(** A mode: its frequency, and for each atom three complex numbers; all as texts *)
Record mode := Mode { m_freq : pstr; m_vecs : list (list (pstr * pstr)) }.
Record qpoint := QPoint { q_coords : list pstr; q_modes : list mode }.
Definition complete (natoms : nat) (q : qpoint) : Prop :=
  length (q_coords q) = 3 /\ length (q_modes q) = 3 * natoms /\ Forall (fun m => length (m_vecs m) = natoms) (q_modes q).
Definition flat (v : list (pstr * pstr)) : list pstr := flat_map (fun z => [fst z; snd z]) v.

(** Lines *)
Definition without (cs : pstr) (s : pstr) : Prop := forall c, In c cs -> ~ In c s.
Definition opens (l : pstr) : Prop := exists g t, l = g ++ text "(" ++ t /\ forall c, In c g -> c = " "%char.
Definition assigns_q (l : pstr) : Prop := exists a b c, l = a ++ text "q" ++ b ++ text "=" ++ c.
(** "  q =   0.0   0.0  0.5" in matdyn.modes, "  q = (  0.0   0.0  0.5 )" in a dyn file *)
Definition says_q (paren : bool) (l : pstr) (q : list pstr) : Prop :=
  exists p g a t b, l = p ++ text "q" ++ g ++ text "=" ++ (if paren then a ++ text "(" ++ t ++ text ")" ++ b else t) /\
    (forall c, In c (g ++ a ++ b) -> c = " "%char) /\ without (text "=()") t /\ words t = q /\ ~ opens l /\ ~ with_text (text "omega") l.
(** "     omega( 1) =     -26.663631 [THz] =    -889.402992 [cm-1]" *)
Definition says_omega (l : pstr) (f : pstr) : Prop :=
  exists p i x u g h v, l = p ++ text "omega" ++ i ++ text "=" ++ x ++ text "[" ++ u ++ text "=" ++ g ++ f ++ h ++ text "[" ++ v /\
    (forall c, In c (p ++ g ++ h) -> c = " "%char) /\ f <> [] /\ (forall c, In c f -> is_space c = false) /\ without (text "oq=[") (i ++ x ++ u ++ f ++ v).
(** " ( -0.218314   0.000000    -0.025643   0.000000    -0.116601   0.000000   )" *)
Definition says_vec (l : pstr) (v : list (pstr * pstr)) : Prop :=
  exists g t h, l = g ++ text "(" ++ t ++ text ")" ++ h /\ (forall c, In c (g ++ h) -> c = " "%char) /\ without (text "oq=)") t /\ length v = 3 /\ words t = flat v.
Definition no_data (l : pstr) : Prop := ~ assigns_q l /\ ~ opens l /\ ~ with_text (text "omega") l.

(** A file: lines with data in this order, any other lines between them *)
Inductive item := IQ (q : list pstr) | IOmega (f : pstr) | IVec (v : list (pstr * pstr)).
Definition says (paren : bool) (l : pstr) (i : item) : Prop :=
  match i with IQ q => says_q paren l q | IOmega f => says_omega l f | IVec v => says_vec l v end.
Inductive listing (paren : bool) : list item -> list pstr -> Prop :=
| li_nil : listing paren [] []
| li_other l is ls : no_data l -> listing paren is ls -> listing paren is (l :: ls)
| li_item l i is ls : says paren l i -> listing paren is ls -> listing paren (i :: is) (l :: ls).
Definition mode_items (m : mode) : list item := IOmega (m_freq m) :: map IVec (m_vecs m).
Definition q_items (q : qpoint) : list item := IQ (q_coords q) :: flat_map mode_items (q_modes q).

(** The numbers *)
Definition reads_c (parse : pstr -> option R) (z : pstr * pstr) (v : R * R) : Prop := parse (fst z) = Some (fst v) /\ parse (snd z) = Some (snd v).
Record qvalue := QValue { v_coords : list R; v_freqs : list R; v_vecs : list (list (list (R * R))) }.
Definition reads_q (parse : pstr -> option R) (q : qpoint) (v : qvalue) : Prop :=
  Forall2 (fun t x => parse t = Some x) (q_coords q) (v_coords v) /\
  Forall2 (fun m x => parse (m_freq m) = Some x) (q_modes q) (v_freqs v) /\
  Forall2 (fun m x => Forall2 (Forall2 (reads_c parse)) (m_vecs m) x) (q_modes q) (v_vecs v).

(** ** dynmat.x *)
(** a block of the AXSF file: "PRIMCOORD  1", "   4  1", and rows "Al  x y z fx fy fz" *)
Definition axsf_row (l : pstr) (f : list pstr) : Prop :=
  ~ with_text (text "PRIMCO") l /\ length f = 3 /\ exists s x y z, words l = s :: x :: y :: z :: f.
Definition axsf_block (natoms : nat) (ls : list pstr) (b : list (list pstr)) : Prop :=
  exists h c rows, ls = h :: c :: rows /\ with_text (text "PRIMCO") h /\ ~ with_text (text "PRIMCO") c /\ length b = natoms /\ Forall2 axsf_row rows b.
Definition axsf_file (natoms : nat) (bs : list (list (list pstr))) (lines : list pstr) : Prop :=
  exists pre lss, lines = pre ++ concat lss /\ (forall l, In l pre -> ~ with_text (text "PRIMCO") l) /\ Forall2 (axsf_block natoms) lss bs.
(** the table of modes: "# mode   [cm-1]    [THz]      IR" and one row for each mode *)
Definition table_head (l : pstr) : Prop := exists a b c, l = a ++ text "mode" ++ b ++ text "cm-1" ++ c.
Definition mode_rows (n : nat) (lines : list pstr) (rows : list (list pstr)) : Prop :=
  exists pre h ls post, lines = pre ++ h :: ls ++ post /\ table_head h /\ length ls = n /\ map words ls = rows /\
    (forall l, In l (pre ++ post) -> ~ table_head l) /\ (forall l, In l ls -> ~ with_text (text "mode") l).
