(** What sgroup reads, for C108: its README, as quoted in io.py 38-69. *)
From Coq Require Import Ascii String List ZArith.
From Verif Require Import Comb ArrayIO Decimal TextOutSpec.
Import ListNotations.
Local Open Scope list_scope.

(** A slash and what follows it is a comment. *)
Fixpoint before_slash (l : pstr) : pstr :=
  match l with [] => [] | c :: l => if Ascii.eqb c "/" then [] else c :: before_slash l end.
(** The words of all lines, without comments and empty lines. *)
Definition data_lines (t : pstr) : list (list pstr) :=
  filter (fun ws => match ws with [] => false | _ => true end) (map (fun l => split_ws [] (before_slash l)) (lines t)).
(** An atom is a line with three numbers and a line with its name. *)
Definition read_numbers (k : nat) (ws : list pstr) : option (list float64) :=
  if Nat.eqb (List.length ws) k then opt_map read_float ws else None.
Fixpoint read_atoms (n : nat) (ls : list (list pstr)) : option (list (pstr * list float64)) :=
  match n, ls with
  | 0, _ => Some []
  | S n, pos :: [name] :: ls =>
    match read_numbers 3 pos, read_atoms n ls with Some row, Some atoms => Some ((name, row) :: atoms) | _, _ => None end
  | _, _ => None
  end.
Record crystal := Crystal { lattice : pstr; constants : list float64; atoms : list (pstr * list float64) }.
Definition read_sgroup (t : pstr) : option crystal :=
  match data_lines t with
  | [lat] :: cc :: [n] :: ls =>
    match read_numbers 6 cc, read_int n with
    | Some cc, Some z => option_map (Crystal lat cc) (read_atoms (Z.to_nat z) ls)
    | _, _ => None
    end
  | _ => None
  end.
(** A name: a word without a slash. *)
Definition name (s : pstr) : Prop := word s /\ ~ In "/"%char s.
(** A text on one line, with a word before the first slash. *)
Definition readable_symbol (s : pstr) : Prop := one_line s /\ word (before_slash s).
