(** Model of PDBFile, /repo/src/pwtools/parse.py 431-535. [parse] is the reading of one number
    (astype(float)), [None] the ValueError. *)
From Coq Require Import Ascii String List Arith Bool Reals.
From Verif Require Import Comb ArrayIO Vec3 Regex.
Import ListNotations.
Local Open Scope list_scope.
Local Notation length := List.length.

(** [\s0-9] and [\sa-zA-Z0-9] *)
Definition blank_digit (c : ascii) : bool := is_space c || digit c.
Definition blank_alnum (c : ascii) : bool := is_space c || letter c || digit c.
(** 504-505: (ATOM|HETATM)[\s0-9]+([A-Za-z]+)[\sa-zA-Z0-9]*[\s0-9]+((\s+FLOAT){3}?) *)
Definition atom_re : re :=
  Seq (Group 1 (Alt (Lit (text "ATOM")) (Lit (text "HETATM"))))
  (Seq (Plus (Chr blank_digit))
  (Seq (Group 2 (Plus (Chr letter)))
  (Seq (Star (Chr blank_alnum))
  (Seq (Plus (Chr blank_digit))
       (Group 3 (Times 3 (Group 4 (Seq (Plus (Chr is_space)) float_re)))))))).
(** 533: CRYST1\s+((\s+FLOAT){6}).* *)
Definition not_newline (c : ascii) : bool := negb (Ascii.eqb c "010").
Definition cryst_re : re :=
  Seq (Lit (text "CRYST1"))
  (Seq (Plus (Chr is_space))
  (Seq (Group 1 (Times 6 (Group 2 (Seq (Plus (Chr is_space)) float_re))))
       (Star (Chr not_newline)))).

(** 507-508: one row of text per match; np.array needs rows of one length, which is 4 *)
Definition coords_data (txt : pstr) : list (pstr * list pstr) :=
  map (fun c => (match group 2 c with Some n => n | None => [] end, match group 3 c with Some t => split_ws [] t | None => [] end))
    (re_finditer (S (length txt)) atom_re txt).
(** 510-521. [None]: IndexError, as the array of no rows has no columns. *)
Definition fix_name (sym : pstr) : pstr := match sym with [a; b] => [a; lower_char b] | _ => sym end.
Definition get_symbols (txt : pstr) : option (list pstr) :=
  match coords_data txt with [] => None | rows => Some (map (fun r => fix_name (fst r)) rows) end.
Section Read.
Variable parse : pstr -> option R.
(** 523-526 *)
Definition get_coords (txt : pstr) : option (list (list R)) :=
  match coords_data txt with [] => None | rows => opt_map (fun r => opt_map parse (snd r)) rows end.
(** 528-535; [None]: AttributeError (no match) or ValueError *)
Definition get_cryst_const (txt : pstr) : option (list R) :=
  match re_search cryst_re txt with
  | None => None
  | Some (_, c) => match group 1 c with Some t => opt_map parse (split_ws [] t) | None => None end
  end.
End Read.
