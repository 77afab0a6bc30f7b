(** Model of CifFile, /repo/src/pwtools/parse.py 325-428, and of write_cif, /repo/src/pwtools/io.py
    105-153. PyCifRW is taken as storing the block that is written and giving it back when the file
    is read: a data block is a dictionary from names to a text or, for the columns of a loop, a
    list of texts. Names are compared as they are (PyCifRW ignores case). *)
From Coq Require Import Ascii String List Arith Bool.
From Verif Require Import Comb ArrayIO Regex.
Import ListNotations.
Local Open Scope list_scope.
Local Notation length := List.length.

Inductive value := One (t : pstr) | Column (l : list pstr).
Definition block := list (pstr * value).
Fixpoint get (b : block) (key : pstr) : option value :=
  match b with [] => None | (k, v) :: b => if pstr_eqb k key then Some v else get b key end.
(** What a loop over block[key] runs over: the characters if it is a text *)
Definition items (v : value) : list pstr := match v with One t => map (fun c => [c]) t | Column l => l end.

(** 351-355; group 1 of ([+-]*[\.0-9eEdD+-]+)(\(.* ) *)
Definition bracket_re : re := Seq (Group 1 float_re) (Group 2 (Seq (Chr (Ascii.eqb "(")) (Star (Chr (fun c => negb (Ascii.eqb c "010")))))).
(** 357-365; ([a-zA-Z]+)([0-9+-]* ) *)
Definition symbol_re : re := Seq (Group 1 (Plus (Chr letter))) (Group 2 (Star (Chr (fun c => digit c || sign c)))).
Definition first_group (r : re) (t : pstr) : option pstr := match re_match r t with Some (_, c) => group 1 c | None => None end.
(** [None]: AttributeError, no match *)
Definition cif_clear_atom_symbol (t : pstr) : option pstr := first_group symbol_re t.

Section Numbers.
Context {A : Type}.
Variable fmt : A -> pstr.                      (* "%.16e" *)
Variable parse : pstr -> option A.             (* float(); None is ValueError *)
Definition cif_str2float (t : pstr) : option A :=
  if existsb (Ascii.eqb "(") t then match first_group bracket_re t with Some n => parse n | None => None end
  else parse t.
(** block[key] where one text is expected. float() of a list is a TypeError. *)
Definition number (b : block) (key : pstr) : option A :=
  match get b key with Some (One t) => cif_str2float t | _ => None end.
(** 367-381, 425-428 *)
Definition get_cryst_const (b : block) : option (list A) :=
  opt_map (number b) (map text ["_cell_length_a"; "_cell_length_b"; "_cell_length_c"; "_cell_angle_alpha"; "_cell_angle_beta"; "_cell_angle_gamma"]%string).
(** zip of three *)
Fixpoint zip3 {B} (x y z : list B) : list (list B) :=
  match x, y, z with a :: x, b :: y, c :: z => [a; b; c] :: zip3 x y z | _, _, _ => [] end.
(** 391-403 and 405-415. Inner [None]: the getter returns None. *)
Definition coords (b : block) (kx ky kz : pstr) : option (option (list (list A))) :=
  match get b kx with
  | None => Some None
  | Some x => match get b ky, get b kz with
              | Some y, Some z => option_map Some (opt_map (fun row => opt_map cif_str2float row) (zip3 (items x) (items y) (items z)))
              | _, _ => None
              end
  end.
Definition get_coords_frac (b : block) : option (option (list (list A))) := coords b (text "_atom_site_fract_x") (text "_atom_site_fract_y") (text "_atom_site_fract_z").
Definition get_coords (b : block) : option (option (list (list A))) := coords b (text "_atom_site_Cartn_x") (text "_atom_site_Cartn_y") (text "_atom_site_Cartn_z").
(** 417-423 *)
Definition get_symbols (b : block) : option (option (list pstr)) :=
  match get b (text "_atom_site_type_symbol") with
  | Some v => option_map Some (opt_map cif_clear_atom_symbol (items v))
  | None => match get b (text "_atom_site_label") with
            | Some v => option_map Some (opt_map cif_clear_atom_symbol (items v))
            | None => Some None
            end
  end.
(** io.py 117-149; the six constants and the coordinates are floats *)
Definition write_cif (symbols : list pstr) (cryst_const : list A) (coords_frac : list (list A)) : option block :=
  match cryst_const with
  | [a; b; c; al; be; ga] =>
    match opt_map (fun row => nth_error row 0) coords_frac, opt_map (fun row => nth_error row 1) coords_frac, opt_map (fun row => nth_error row 2) coords_frac with
    | Some x, Some y, Some z =>
      Some [(text "_cell_length_a", One (fmt a)); (text "_cell_length_b", One (fmt b)); (text "_cell_length_c", One (fmt c));
            (text "_cell_angle_alpha", One (fmt al)); (text "_cell_angle_beta", One (fmt be)); (text "_cell_angle_gamma", One (fmt ga));
            (text "_symmetry_space_group_name_H-M", One (text "P 1")); (text "_symmetry_Int_Tables_number", One (text "1"));
            (text "_symmetry_equiv_pos_as_xyz", Column [text "x,y,z"]);
            (text "_atom_site_label", Column symbols);
            (text "_atom_site_fract_x", Column (map fmt x)); (text "_atom_site_fract_y", Column (map fmt y)); (text "_atom_site_fract_z", Column (map fmt z));
            (text "_atom_site_type_symbol", Column symbols)]
    | _, _, _ => None
    end
  | _ => None
  end.
End Numbers.
