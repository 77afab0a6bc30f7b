(** What the files mean, for C80. *)
From Coq Require Import Ascii String List ZArith.
From Verif Require Import Comb ArrayIO Decimal.
Import ListNotations.
Local Open Scope list_scope.

(** The lines of a text. *)
Fixpoint lines (t : pstr) : list pstr :=
  match t with
  | [] => [[]]
  | c :: t => if Ascii.eqb c "010" then [] :: lines t else match lines t with l :: ls => (c :: l) :: ls | [] => [] end
  end.
(** Words of numbers. *)
Definition numbers (words : list pstr) (l : list float64) : Prop := Forall2 (fun w v => read_float w = Some v) words l.
Definition number_line (l : pstr) (row : list float64) : Prop := numbers (split_ws [] l) row.
Definition atom_line (l : pstr) (sr : pstr * list float64) : Prop := exists words, split_ws [] l = fst sr :: words /\ numbers words (snd sr).
(** A word; no line end. *)
Definition word (w : pstr) : Prop := w <> [] /\ forall c, In c w -> is_space c = false.
Definition one_line (w : pstr) : Prop := ~ In "010"%char w.
(** A separator: blanks without line end. A symbol of at most 32 characters. *)
Definition gap (d : pstr) : Prop := d <> [] /\ (forall c, In c d -> is_space c = true) /\ one_line d.
Definition short_word (s : pstr) : Prop := word s /\ length s <= 32.
(** Numbers as text: words which are read back. *)
Definition prints (f : float64 -> pstr) : Prop := forall v, word (f v) /\ read_float (f v) = Some v.
Definition exact (str : float64 -> pstr) (limit : nat) : Prop := forall v, word (str v) /\ read_float (str v) = Some v /\ length (str v) <= limit.
(** A frame of an XYZ file: the number of atoms, a comment, the atoms. *)
Definition xyz_frame (comment : pstr) (symbols : list pstr) (coords : list (list float64)) (ls : list pstr) : Prop :=
  exists n body, ls = n :: comment :: body /\ read_int n = Some (Z.of_nat (length coords)) /\ Forall2 atom_line body (combine symbols coords).
(** A step of an animated XSF file. *)
Definition axsf_step (i : Z) (symbols : list pstr) (cell data : list (list float64)) (ls : list pstr) : Prop :=
  exists l1 l2 cl l3 l4 body, ls = l1 :: cl ++ l2 :: l3 :: body ++ [l4] /\
    split_ws [] l1 = [text "PRIMVEC"; show_int i] /\ Forall2 number_line cl cell /\
    split_ws [] l2 = [text "PRIMCOORD"; show_int i] /\ split_ws [] l3 = [show_int (Z.of_nat (length data)); text "1"] /\
    Forall2 atom_line body (combine symbols data) /\ l4 = [].
