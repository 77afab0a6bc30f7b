(** What a PDB file is, for C77. *)
From Coq Require Import Ascii String List Arith Bool.
From Verif Require Import Comb Regex.
Import ListNotations.
Local Open Scope list_scope.

Definition consists_of (p : ascii -> bool) (s : pstr) : Prop := forall c, In c s -> p c = true.
Definition starts_without (p : ascii -> bool) (s : pstr) : Prop := forall c r, s = c :: r -> p c = false.
Definition occurs (w s : pstr) : Prop := exists a b, s = a ++ w ++ b.
Definition newline : ascii := "010"%char.
Definition ATOM : pstr := list_ascii_of_string "ATOM".
Definition HETATM : pstr := list_ascii_of_string "HETATM".
Definition CRYST1 : pstr := list_ascii_of_string "CRYST1".

(** An ATOM or HETATM record: serial number, atom name, the text between the name and x (residue
    name, chain, residue number), the three coordinates, the rest of the line. *)
Record atom := Atom { record : pstr; serial : pstr; name : pstr; between : pstr; last : ascii; blank : ascii;
  x_int : pstr; x_mark : ascii; x_rest : pstr; gap1 : pstr; y : pstr; gap2 : pstr; z : pstr; tail : pstr }.
Definition x (a : atom) : pstr := x_int a ++ x_mark a :: x_rest a.
Definition atom_text (a : atom) : pstr :=
  record a ++ serial a ++ name a ++ between a ++ [last a; blank a] ++ x a ++ gap1 a ++ y a ++ gap2 a ++ z a ++ tail a.
(** Names of letters only (after digits that may come first, which belong to [serial] here), no
    special characters up to x, a digit or blank and one more blank before x, and an x with a
    decimal point or a sign. *)
Definition regular (a : atom) : Prop :=
  (record a = ATOM \/ record a = HETATM) /\
  serial a <> [] /\ consists_of (fun c => is_space c || digit c) (serial a) /\
  name a <> [] /\ consists_of letter (name a) /\
  consists_of (fun c => is_space c || letter c || digit c) (between a) /\ starts_without letter (between a ++ [last a]) /\
  is_space (last a) || digit (last a) = true /\ is_space (blank a) = true /\
  consists_of digit (x_int a) /\ (x_mark a = "."%char \/ sign (x_mark a) = true) /\ consists_of float_char (x_rest a) /\
  gap1 a <> [] /\ consists_of is_space (gap1 a) /\ y a <> [] /\ consists_of float_char (y a) /\
  gap2 a <> [] /\ consists_of is_space (gap2 a) /\ z a <> [] /\ consists_of float_char (z a) /\
  starts_without float_char (tail a) /\ ~ occurs ATOM (tail a) /\ ~ occurs HETATM (tail a).
(** All other lines. *)
Inductive line := AtomLine (a : atom) | Other (t : pstr).
Definition good (l : line) : Prop := match l with AtomLine a => regular a | Other t => ~ occurs ATOM t /\ ~ occurs HETATM t end.
Definition line_text (l : line) : pstr := match l with AtomLine a => atom_text a | Other t => t end.
Definition file_text (ls : list line) : pstr := flat_map (fun l => line_text l ++ [newline]) ls.
Definition atoms (ls : list line) : list atom := flat_map (fun l => match l with AtomLine a => [a] | Other _ => [] end) ls.

(** Six numbers of a CRYST1 record, each with the blanks before it. *)
Definition numbers_text (l : list (pstr * pstr)) : pstr := flat_map (fun gx => fst gx ++ snd gx) l.
Definition number_fine (gx : pstr * pstr) : Prop := fst gx <> [] /\ consists_of is_space (fst gx) /\ snd gx <> [] /\ consists_of float_char (snd gx).
(** Where lines begin: at the start of the file, or after a line end. *)
Definition lines_before (pre : pstr) : Prop := pre = [] \/ exists t, pre = t ++ [newline].
(** The small letter of a letter. *)
Definition small_of (a b : ascii) : Prop :=
  if (65 <=? nat_of_ascii a)%nat && (nat_of_ascii a <=? 90)%nat then nat_of_ascii b = (nat_of_ascii a + 32)%nat else b = a.
(** AL is read as Al, C as C, and CAB as CAB. *)
Definition symbol_of (n s : pstr) : Prop :=
  match n with [a; b] => exists b', small_of b b' /\ s = [a; b'] | _ => s = n end.
