(** Input of the symmetry analysis tool sgroup: wien_sgroup_input and write_wien_sgroup
    (/repo/src/pwtools/io.py 25-98), file_write (/repo/src/pwtools/common.py 353-359). Numbers are
    binary64; an exception is None. *)
From Coq Require Import Ascii String List Bool Arith ZArith.
From Verif Require Import Comb ArrayIO Decimal TextOut.
Import ListNotations.
Local Open Scope list_scope.
Local Notation length := List.length.

(** The attributes of the structure that are used. None is an attribute that is not set. *)
Record structure := Structure { cryst_const : option (list float64); symbols : option (list pstr); coords_frac : option (list (list float64)) }.
(** io.py 75, 80-82: k times "%.16e", joined by blanks, applied to a tuple; TypeError if the tuple has
    not k entries *)
Definition percent (k : nat) (row : list float64) : option pstr :=
  if length row =? k then Some (join (text " ") (map (fmt_e 16) row)) else None.
(** 71 *)
Definition empty : pstr := nl ++ nl.
(** 81-82: one round of the loop *)
Definition atom_text (sr : pstr * list float64) : option pstr :=
  option_map (fun c => c ++ nl ++ fst sr ++ nl) (percent 3 (snd sr)).
(** 71-83. tuple(None), "%i" % None and zip with None are TypeErrors; natoms is len(symbols) where
    symbols is set (crys.py 2579-2580). *)
Definition wien_sgroup_input (struct : structure) (lat_symbol : pstr) : option pstr :=
  match cryst_const struct, symbols struct, coords_frac struct with
  | Some cc, Some syms, Some coords =>
    match percent 6 cc, opt_map atom_text (combine syms coords) with
    | Some c, Some atoms =>
      Some ((text "/ lattice type symbol" ++ nl ++ lat_symbol) ++ empty ++
            (text "/ a b c alpha beta gamma" ++ nl) ++ c ++ empty ++
            (text "/ number of atoms" ++ nl ++ show_nat (length syms)) ++ empty ++
            (text "/ atom list (crystal cooords)" ++ nl) ++ concat atoms)
    | _, _ => None
    end
  | _, _, _ => None
  end.
(** 86-98: the files by name afterwards, and whether the call returned. The text is made before the
    file is opened, so an exception there leaves the files alone; opening it for writing drops what
    was there. Errors of the file system are left out. *)
Definition write_wien_sgroup (filename : string) (struct : structure) (lat_symbol : pstr) (files : string -> option pstr) : (string -> option pstr) * bool :=
  match wien_sgroup_input struct lat_symbol with
  | Some txt => (fun f => if String.eqb f filename then Some txt else files f, true)
  | None => (files, false)
  end.
