(** parse.Cp2kSCFOutputFile, Cp2kMDOutputFile and Cp2kRelaxOutputFile,
    /repo/src/pwtools/parse.py 1740-2043. A file is the list of its lines, None when it does not
    exist. [parse] is the reading of one number; real arithmetic stands for floats. The outer
    None is an exception; a getter that returns None gives Some None. Not modelled: timestep,
    volume; natoms of an MD run is the argument [natoms] where it comes from another file. *)
From Coq Require Import Ascii String List Arith Bool Reals ZArith.
From Verif Require Import Comb Template ArrayIO Grep Regex Lammps PwOut.
Import ListNotations.
Local Open Scope list_scope.
Local Open Scope nat_scope.
Local Notation length := List.length.

Section READ.
Variable parse : pstr -> option R.
(** ** Trajectory files *)
(** 1868: grep 'i = .*E =' *)
Definition is_header : pstr -> bool := in_order [text "i = "; text "E ="].
(** 1871: /i =.*E =|^[ ]+[0-9]+/ *)
Definition numbered (l : pstr) : bool :=
  match l with c :: _ => Ascii.eqb c " " && (match eat_blanks l with d :: _ => digit d | [] => false end) | [] => false end.
Definition skipped (l : pstr) : bool := in_order [text "i ="; text "E ="] l || numbered l.
(** _cp2k_xyz2arr 1865-1874; reshape(nstep, None, 3) raises *)
Definition xyz2arr (lines : list pstr) : option arr3 :=
  let nstep := length (List.filter is_header lines) in
  match int_from_txt (firstn 1 lines) with
  | Some (Some natoms) =>
    match fromstring parse (map (awk [2; 3; 4]) (List.filter (fun l => negb (skipped l)) lines)) with
    | Some l => match reshape nstep (natoms * 3) l with Some rows => Some (map (chunk 3 natoms) rows) | None => None end
    | None => None
    end
  | _ => None
  end.
(** get_coords 1937-1942, get_velocity 1951-1956 *)
Definition from_xyz (file : option (list pstr)) : option (option arr3) :=
  match file with Some lines => match xyz2arr lines with Some a => Some (Some a) | None => None end | None => Some None end.
(** get_symbols 1907-1914: the first of the files that exists, [natoms] set *)
Definition xyz_symbols (natoms : nat) (lines : list pstr) : list pstr :=
  concat (map (fun l => split_ws [] (field 1 l)) (egrep_v [text "i ="] (grep_m1_after natoms (text "i =") lines))).
Definition get_symbols (natoms : option nat) (pos frc vel : option (list pstr)) : option (list pstr) :=
  match natoms with
  | None => None
  | Some n => match pos, frc, vel with
              | Some f, _, _ | None, Some f, _ | None, None, Some f => Some (xyz_symbols n f)
              | None, None, None => None
              end
  end.
(** ** Tables: PROJECT-1.ener, .cell, .stress *)
(** np.loadtxt drops what follows a #: ArrayIO.uncomment *)
(** 1876-1892; a table with one row (or none) is a 1d array, and taking a column of it raises *)
Definition table (lines : list pstr) : option (list (list R)) :=
  match loadtxt parse (map uncomment lines) with
  | Some rows => if length rows <=? 1 then None else Some rows
  | None => None
  end.
Definition column_of (k : nat) (lines : list pstr) : option (list R) :=
  match table lines with Some rows => opt_map (fun r => nth_error r k) rows | None => None end.
Definition of_table {A} (f : list pstr -> option A) (file : option (list pstr)) : option (option A) :=
  match file with Some lines => match f lines with Some a => Some (Some a) | None => None end | None => Some None end.
(** 1965-1991 *)
Definition get_ekin := of_table (column_of 2).
Definition get_temperature := of_table (column_of 3).
Definition get_etot := of_table (column_of 4).
Definition get_econst := of_table (column_of 5).
(** _cp2k_repack_arr 1850-1863 *)
Definition repack_row (r : list R) : option (list (list R)) :=
  match nth_error r 2, nth_error r 3, nth_error r 4, nth_error r 5, nth_error r 6, nth_error r 7, nth_error r 8, nth_error r 9, nth_error r 10 with
  | Some a, Some b, Some c, Some d, Some e, Some f, Some g, Some h, Some i => Some [[a; b; c]; [d; e; f]; [g; h; i]]
  | _, _, _, _, _, _, _, _, _ => None
  end.
Definition repack (lines : list pstr) : option arr3 := match table lines with Some rows => opt_map repack_row rows | None => None end.
(** 1958-1963, 1993-1998 *)
Definition get_stress := of_table repack.
Definition get_cell := of_table repack.
(** ** Forces in the output file: _get_forces_from_outfile 1921-1935 *)
(** tr -s ' ' *)
Fixpoint squeeze (prev : bool) (s : pstr) : pstr :=
  match s with
  | [] => []
  | c :: t => if Ascii.eqb c " " then (if prev then squeeze true t else c :: squeeze true t) else c :: squeeze false t
  end.
(** cut -d ' ' -f5- ; a line without the delimiter is printed *)
Fixpoint after_blanks (k : nat) (s : pstr) : pstr :=
  match s with [] => [] | c :: t => if Ascii.eqb c " " then match k with S (S k) => after_blanks (S k) t | _ => t end else after_blanks k t end.
Definition cut_f5 (l : pstr) : pstr := if existsb (fun c => Ascii.eqb c " ") l then after_blanks 4 l else l.
Definition s_forces := text "ATOMIC FORCES in".
Definition outfile_forces (natoms : nat) (lines : list pstr) : option (option arr3) :=
  let nstep := grep_c s_forces lines in
  traj_from_txt parse nstep natoms
    (map (fun l => cut_f5 (squeeze false l))
       (egrep_v [text "ATOM"; s_dd; text "Kind"]
          (grep_after (natoms + 1) s_forces (List.filter (fun l => negb (blank_line l)) lines)))).
(** get_forces 1944-1949 *)
Definition get_forces (natoms : option nat) (out : list pstr) (frc : option (list pstr)) : option (option arr3) :=
  match frc with
  | Some _ => from_xyz frc
  | None => match natoms with Some n => outfile_forces n out | None => Some None end
  end.
(** ** Cell and structure optimisations: 2000-2043 *)
Definition relax_natoms (pos : option (list pstr)) : option (option nat) :=
  match pos with Some lines => int_from_txt (firstn 1 lines) | None => Some None end.
Definition relax_etot (pos : option (list pstr)) : option (option (list R)) :=
  match pos with Some lines => arr1d_from_txt parse (map (awk [6]) (List.filter (in_order [text "i ="; text "E"]) lines)) | None => Some None end.
(** _get_run_type 1773-1776 *)
Definition type_re : re := Seq dots (Seq (Lit (text "type")) (Seq (Plus (Chr is_space)) (Seq (Group 1 dots) (Star (Chr is_space))))).
Definition run_type (out : list pstr) : pstr :=
  match find (in_order [text "GLOBAL"; text "Run type"]) out with Some l => strip (sed_1 type_re l) | None => [] end.
Definition relax_cell (out : list pstr) (cellfile pos : option (list pstr)) : option (option arr3) :=
  match get_cell cellfile with
  | None => None
  | Some None => Some None
  | Some (Some cell) =>
    if pstr_eqb (run_type out) (text "CELL_OPT") then
      match from_xyz pos with
      | None => None
      | Some None => Some None
      | Some (Some coords) => if (length coords =? length cell + 1)%nat then Some (Some (cell ++ [last cell []])) else None
      end
    else Some (Some cell)
  end.
(** ** Single point calculations: 1778-1817 *)
(** sed -n '1,/A/d; 1,/B/d; /C/q; p': a range that begins with a line number begins with the
    first line its command sees from there on, and this line is not compared with the end. *)
Fixpoint through (f : pstr -> bool) (lines : list pstr) : list pstr := match lines with [] => [] | l :: t => if f l then t else through f t end.
Fixpoint until (f : pstr -> bool) (lines : list pstr) : list pstr := match lines with [] => [] | l :: t => if f l then [] else l :: until f t end.
(** Atom\s+Kind\s+Element; blanks are the only white space considered *)
Definition is_title : pstr -> bool := spaced_in [text "Atom"; text "Kind"; text "Element"].
Definition force_lines (lines : list pstr) : list pstr :=
  until (contains (text "SUM OF ATOMIC FORCES")) (through is_title (tl (through (contains (text "ATOMIC FORCES")) (tl lines)))).
Fixpoint drop_blank (lines : list pstr) : list pstr := match lines with l :: t => if blank_line l then drop_blank t else lines | [] => [] end.
Definition trim (lines : list pstr) : list pstr := rev (drop_blank (rev (drop_blank lines))).
(** np.array of the words of all lines, which must be as many on each *)
Definition word_rows (lines : list pstr) : option (list (list pstr)) :=
  let rows := map (split_ws []) lines in
  if forallb (fun r => (length r =? length (hd [] rows))%nat) rows then Some rows else None.
Record scf := Scf { s_natoms : nat; s_symbols : list pstr; s_forces_ : list (list R) }.
Definition natoms_symbols_forces (lines : list pstr) : option (option scf) :=
  match trim (force_lines lines) with
  | [] => Some None
  | ls => match word_rows ls with
          | Some rows =>
            match opt_map (fun r => nth_error r 2) rows, opt_map (fun r => opt_map parse (skipn 3 r)) rows with
            | Some syms, Some f => Some (Some (Scf (length rows) syms f))
            | _, _ => None
            end
          | None => None
          end
  end.
(** get_etot 1804-1807: sed prints what follows the last colon (the patterns are greedy) of the
    lines that match .*ENERGY.*Total.*energy.*: ; float() of more than one line raises *)
Definition scf_etot (lines : list pstr) : option (option R) :=
  match trim (map (sed_drop (text ":")) (List.filter (in_order [text "ENERGY"; text "Total"; text "energy"; text ":"]) lines)) with
  | [] => Some None
  | [l] => match parse (strip l) with Some x => Some (Some x) | None => None end
  | _ => None
  end.
(** get_stress 1810-1817; grep -A n with a pattern that is not a plain string, as Grep.grep_A *)
Fixpoint grep_Af (n : nat) (f : pstr -> bool) (k : nat) (old gap : bool) (lines : list pstr) : list pstr :=
  match lines with
  | [] => []
  | l :: rest =>
    if f l then (if old && gap then [["-"; "-"]%char] else []) ++ l :: grep_Af n f n true false rest
    else match k with S k' => l :: grep_Af n f k' old gap rest | O => grep_Af n f O old true rest end
  end.
Definition is_stress : pstr -> bool := in_order [text "STRESS TENSOR"; text "GPa"].
Definition is_axes : pstr -> bool := spaced_in [text "X"; text "Y"; text "Z"].
(** ^[ ]+(X|Y|Z) *)
Definition is_row (l : pstr) : bool :=
  match l with
  | c :: _ => Ascii.eqb c " " && (match eat_blanks l with d :: _ => Ascii.eqb d "X" || Ascii.eqb d "Y" || Ascii.eqb d "Z" | [] => false end)
  | [] => false
  end.
Definition scf_stress (lines : list pstr) : option (list (list R)) :=
  match List.filter is_row (List.filter (fun l => negb (is_axes l)) (grep_Af 5 is_stress 0 false false lines)) with
  | [] => None
  | ls => match word_rows ls with Some rows => opt_map (fun r => opt_map parse (skipn 1 r)) rows | None => None end
  end.
End READ.
