(** parse.PwSCFOutputFile, PwMDOutputFile and PwVCMDOutputFile, /repo/src/pwtools/parse.py: the
    structure in the header of a pw.x output file (725-755, 774-818), the number of k points and
    the state of the self-consistent cycles (718-723, 826-840), kinetic energy, temperature and
    time step of an MD run (1094-1115, 1136-1172). As in PwOut.v a file is the list of its lines,
    [parse] reads one number, the outer None is an exception. *)
From Coq Require Import Ascii String List Arith Bool Reals ZArith.
From Verif Require Import Comb Template ArrayIO Grep Regex Lammps PwOut.
Import ListNotations.
Local Open Scope list_scope.
Local Open Scope nat_scope.
Local Notation length := List.length.

(** ** the tools *)
(** egrep -m1 -An: the first matching line and the n lines behind it. Simplified: GNU grep stops
    at a second matching line among them, depending on the version. *)
Fixpoint m1_after (n : nat) (p : pstr -> bool) (lines : list pstr) : list pstr :=
  match lines with [] => [] | l :: rest => if p l then l :: firstn n rest else m1_after n p rest end.
(** tail -nN *)
Definition tail (n : nat) (lines : list pstr) : list pstr := skipn (length lines - n) lines.
(** egrep 'temperature[ ]*=' *)
Fixpoint temperature_eq (s : pstr) : bool :=
  (is_prefix (text "temperature") s && is_prefix (text "=") (eat_blanks (skipn 11 s))) || match s with [] => false | _ :: t => temperature_eq t end.
(** 735: 'site.*atom.*positions.*units.*\)' *)
Definition site_head : pstr -> bool := in_order [text "site"; text "atom"; text "positions"; text "units"; text ")"].
(** 753: 'crystal.*axes.*units.*(a_0|alat)' *)
Definition axes_head (l : pstr) : bool :=
  in_order [text "crystal"; text "axes"; text "units"; text "a_0"] l || in_order [text "crystal"; text "axes"; text "units"; text "alat"] l.
(** 736: what stands between the last brackets; the flag g of sed finds nothing more, as no
    bracket is left *)
Definition paren_re : re := Seq dots (Seq (Lit (text "(")) (Seq (Group 1 dots) (Lit (text ")")))).
(** 829 *)
Definition points_re : re := Seq dots (Seq (Lit (text "points=")) (Seq (Star (Chr is_space)) (Seq (Group 1 (Plus (Chr digit))) (Seq (Star (Chr is_space)) dots)))).
(** 1105 *)
Definition temp_re : re :=
  Seq dots (Seq (Lit (text "temp")) (Seq dots (Seq (Lit (text "=")) (Seq (Star (Chr is_space)) (Seq (Group 1 float_re) (Seq (Star (Chr is_space)) (Lit (text "K")))))))).
(** 1111: in a.u. the dots stand for any character *)
Definition step_re : re :=
  Seq dots (Seq (Lit (text "step")) (Seq (Plus (Chr is_space)) (Seq (Lit (text "=")) (Seq (Plus (Chr is_space))
    (Seq (Group 1 dots) (Seq (Lit (text "a")) (Seq (Chr any) (Seq (Lit (text "u")) (Seq (Chr any) dots))))))))).

Section READ.
Variable parse : pstr -> option R.
(** ** the header *)
(** _get_coords_symbols 725-745: natoms None does not go into '%i' *)
Definition coords_symbols (lines : list pstr) : option (option (list (list R)) * list pstr) :=
  match get_natoms lines with
  | Some (Some natoms) =>
    let block := tail natoms (m1_after natoms site_head lines) in
    match arr2d_from_txt parse (map (sed_1 paren_re) block) with
    | Some c => Some (c, flat_map (fun l => split_ws [] (awk [2] l)) block)
    | None => None
    end
  | _ => None
  end.
(** _get_cell_2d 747-755 *)
Definition cell_2d (lines : list pstr) : option (option (list (list R))) :=
  arr2d_from_txt parse (map (awk [4; 5; 6]) (tail 3 (m1_after 3 axes_head lines))).
Definition scale2 (f : R) (a : list (list R)) : list (list R) := map (map (fun x => (x * f)%R)) a.
(** get_coords 774-780: a dictionary is set even if its coords are None, and None * alat is an
    exception *)
Definition scf_coords (use_alat : bool) (lines : list pstr) : option (option (list (list R))) :=
  match coords_symbols lines, get_alat parse use_alat lines with
  | Some _, Some None => Some None
  | Some (Some c, _), Some (Some a) => Some (Some (scale2 a c))
  | _, _ => None
  end.
(** get_symbols 782-787 *)
Definition scf_symbols (lines : list pstr) : option (list pstr) := option_map snd (coords_symbols lines).
(** get_cell 812-818; 1083-1084 for files without CELL_PARAMETERS *)
Definition scf_cell (use_alat : bool) (lines : list pstr) : option (option (list (list R))) :=
  match cell_2d lines with
  | None => None
  | Some None => Some None
  | Some (Some c) => match get_alat parse use_alat lines with None => None | Some None => Some None | Some (Some a) => Some (Some (scale2 a c)) end
  end.
(** PwMDOutputFile.get_cell 1022-1086; the 2d array stands as one frame *)
Definition md_cell (Angstrom Bohr : R) (use_alat : bool) (lines : list pstr) : option (option arr3) :=
  get_cell_md parse Angstrom Bohr use_alat lines (match scf_cell use_alat lines with Some (Some c) => Some (Some [c]) | Some None => Some None | None => None end).
(** get_nkpoints 826-830 *)
Definition nkpoints (lines : list pstr) : option (option nat) := int_from_txt (map (sed_1 points_re) (grep_m1 (text "number of k points=") lines)).
(** get_scf_converged 832-838 *)
Definition scf_converged (lines : list pstr) : bool :=
  negb (forallb blank_line (List.filter (in_order [text "convergence has been achieved in"; text "iterations"]) lines)).
(** _get_nstep_scf_raw 718-723; dtype int; PwSCFOutputFile.get_nstep_scf 814 takes the first *)
Definition int_number (t : pstr) : option R := option_map IZR (read_int t).
Definition nstep_scf_raw (lines : list pstr) : option (option (list R)) :=
  arr1d_from_txt int_number (map (awk [6]) (List.filter (contains (text "convergence has been achieved in")) lines)).
(** ** MD *)
(** get_ekin 1094-1099 *)
Definition ekin (lines : list pstr) : option (option (list R)) := arr1d_from_txt parse (map (awk [5]) (List.filter (contains (text "kinetic energy")) lines)).
(** get_temperature 1101-1107 *)
Definition temperature (lines : list pstr) : option (option (list R)) := arr1d_from_txt parse (map (sed_1 temp_re) (List.filter temperature_eq lines)).
(** get_timestep 1109-1113 *)
Definition timestep (lines : list pstr) : option (option R) :=
  float_from_txt parse (match find (in_order [text "Time"; text "step"]) lines with Some l => [sed_1 step_re l] | None => [] end).
(** PwVCMDOutputFile._get_datadct 1142-1153: loadtxt makes a column of single numbers a 1d array,
    atleast_2d makes it one row; get_ekin, get_temperature, get_econst 1155-1168: the k-th column,
    and an exception if there is no dictionary or no such column *)
Definition datadct (lines : list pstr) : option (option (list (list R))) :=
  let out := map (awk [3; 7; 11]) (List.filter (in_order [text "Ekin"; text "T"; text "Etot"]) lines) in
  if forallb blank_line out then Some None
  else match loadtxt parse out with
       | Some rows => Some (Some (if forallb (fun r => (length r =? 1)%nat) rows then [concat rows] else rows))
       | None => None
       end.
Definition vc_column (k : nat) (lines : list pstr) : option (list R) :=
  match datadct lines with Some (Some rows) => opt_map (fun r => nth_error r k) rows | _ => None end.
Definition vc_ekin := vc_column 0.
Definition vc_temperature := vc_column 1.
Definition vc_econst := vc_column 2.
End READ.
