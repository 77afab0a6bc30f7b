(** parse.PwSCFOutputFile and parse.PwMDOutputFile, /repo/src/pwtools/parse.py 540-1133: the
    getters of energies, stresses, forces, positions and cells from the text a pw.x run prints.
    A file is the list of its lines. [parse] is the reading of one number (np.fromstring,
    np.loadtxt, float); real arithmetic stands for floats. The outer None is an exception; a
    getter that returns None gives Some None. The other getters are in
    PwStart.v; verbose() is left out. *)
From Coq Require Import Ascii String List Arith Bool Reals ZArith.
From Verif Require Import Comb Template ArrayIO Grep Regex Lammps.
Import ListNotations.
Local Open Scope list_scope.
Local Open Scope nat_scope.
Local Notation length := List.length.

(** ** awk, sed, grep with the patterns of these getters *)
(** awk '{print $a"  "$b"  "$c}': a field that is not there is empty; 686, 693 and 716 print other
    blanks between them *)
Definition field (k : nat) (l : pstr) : pstr := nth (k - 1) (split_ws [] l) [].
Definition awk (ks : list nat) (l : pstr) : pstr := join (text "  ") (map (fun k => field k l) ks).
Definition any (c : ascii) : bool := true.
Definition dots : re := Star (Chr any).
(** sed -re 's/RE/\1/' for a pattern that begins with .* : it matches at the beginning of the
    line or nowhere. Simplified: POSIX wants the longest match, here it is the one found by
    trying the longest text for each part from left to right. *)
Definition sed_1 (r : re) (l : pstr) : pstr :=
  match re_match r l with Some (rest, c) => match group 1 c with Some t => t ++ rest | None => rest end | None => l end.
(** grep 'a.*b.*c': the words in this order *)
Fixpoint after_first (w s : pstr) : option pstr :=
  if is_prefix w s then Some (skipn (length w) s) else match s with [] => None | _ :: t => after_first w t end.
Fixpoint in_order (ws : list pstr) (s : pstr) : bool :=
  match ws with [] => true | w :: ws => match after_first w s with Some t => in_order ws t | None => false end end.
(** egrep 'a[ ]+b[ ]+c' *)
Fixpoint eat_blanks (s : pstr) : pstr := match s with c :: t => if Ascii.eqb c " " then eat_blanks t else s | [] => [] end.
Fixpoint spaced_here (ws : list pstr) (s : pstr) : bool :=
  match ws with
  | [] => true
  | [w] => is_prefix w s
  | w :: ws => is_prefix w s && (match skipn (length w) s with c :: t => Ascii.eqb c " " && spaced_here ws (eat_blanks t) | [] => false end)
  end.
Fixpoint spaced_in (ws : list pstr) (s : pstr) : bool := spaced_here ws s || match s with [] => false | _ :: t => spaced_in ws t end.

Definition s_pos := text "ATOMIC_POSITIONS".
Definition s_cell := text "CELL_PARAMETERS".
Definition s_p := text "P=".
Definition s_dd := text "--".
(** 680-681 *)
Definition is_forces : pstr -> bool := spaced_in [text "Forces"; text "acting"; text "on"; text "atoms"].
(** 688 *)
Definition is_force : pstr -> bool := in_order [text "atom"; text "type"; text "force"].

Section READ.
Variable parse : pstr -> option R.
(** units.Angstrom, units.Bohr *)
Variables Angstrom Bohr : R.
Definition blank_line (l : pstr) : bool := match split_ws [] l with [] => true | _ => false end.
(** int_from_txt 154-158, float_from_txt 160-164 *)
Definition int_from_txt (lines : list pstr) : option (option nat) :=
  if forallb blank_line lines then Some None
  else match read_int (strip (concat lines)) with Some z => if (z <? 0)%Z then None else Some (Some (Z.to_nat z)) | None => None end.
Definition float_from_txt (lines : list pstr) : option (option R) :=
  if forallb blank_line lines then Some None
  else match parse (strip (concat lines)) with Some x => Some (Some x) | None => None end.
(** traj_from_txt 172-205, shape (n, b, 3) *)
Definition arr3 := list (list (list R)).
Definition traj_from_txt (n b : nat) (lines : list pstr) : option (option arr3) :=
  if forallb blank_line lines then Some None
  else match fromstring parse lines with
       | Some l => match reshape n (b * 3) l with Some rows => Some (Some (map (chunk 3 b) rows)) | None => None end
       | None => None
       end.
(** np.loadtxt of lines without comments: empty lines are skipped, all others have as many words *)
Definition loadtxt (lines : list pstr) : option (list (list R)) :=
  let rows := List.filter (fun r => match r with [] => false | _ => true end) (map (split_ws []) lines) in
  match opt_map (opt_map parse) rows with
  | Some l => if forallb (fun r => (length r =? length (hd [] l))%nat) l then Some l else None
  | None => None
  end.
(** arr1d_from_txt 207-212, for one word per line; arr2d_from_txt 214-219, for three *)
Definition arr1d_from_txt (lines : list pstr) : option (option (list R)) :=
  if forallb blank_line lines then Some None
  else match loadtxt lines with
       | Some rows => if forallb (fun r => (length r =? 1)%nat) rows then Some (Some (concat rows)) else None
       | None => None
       end.
Definition arr2d_from_txt (lines : list pstr) : option (option (list (list R))) :=
  if forallb blank_line lines then Some None
  else match loadtxt lines with Some rows => Some (Some rows) | None => None end.

(** ** What both parsers read *)
(** get_natoms 820-824 *)
Definition natoms_re : re := Seq dots (Seq (Lit (text "=")) (Seq (Plus (Chr is_space)) (Seq (Group 1 (Plus (Chr digit))) dots))).
Definition get_natoms (lines : list pstr) : option (option nat) :=
  int_from_txt (match find (in_order [text "number"; text "atoms/cell"]) lines with Some l => [sed_1 natoms_re l] | None => [] end).
(** get_alat 756-773 *)
Definition alat_re : re := Seq dots (Seq (Lit (text "=")) (Seq (Group 1 dots) (Seq (Plus (Chr is_space)) (Lit (text "a.u."))))).
Definition get_alat (use_alat : bool) (lines : list pstr) : option (option R) :=
  if use_alat then float_from_txt (map (sed_1 alat_re) (grep_m1 (text "lattice parameter") lines)) else Some (Some 1%R).
(** _get_stress_raw 653-667 *)
Definition stress_raw (lines : list pstr) : option (option arr3) :=
  let nstep := grep_c s_p lines in
  if 0 <? nstep then traj_from_txt nstep 3 (map (awk [4; 5; 6]) (egrep_v [s_p; s_dd] (grep_after 3 s_p lines)))
  else Some None.
(** _get_etot_raw 669-672 *)
Definition etot_raw (lines : list pstr) : option (option (list R)) :=
  arr1d_from_txt (map (awk [5]) (List.filter (is_prefix (text "!")) lines)).
(** _get_forces_raw 674-704; arr2d None has no shape; arr2d_to_3d checks the shape *)
Definition forces_raw (lines : list pstr) : option (option arr3) :=
  match get_natoms lines with
  | None => None
  | Some None => Some None
  | Some (Some natoms) =>
    let nstep := length (List.filter is_forces lines) in
    if 0 <? nstep then
      match arr2d_from_txt (map (awk [7; 8; 9]) (List.filter is_force lines)) with
      | Some (Some arr) =>
        let block := length arr / nstep in
        if (natoms =? 0)%nat then None
        else if (block mod natoms =? 0)%nat then
          if (length arr =? nstep * block)%nat && forallb (fun r => (length r =? 3)%nat) arr then Some (Some (chunk block nstep arr)) else None
        else None
      | _ => None
      end
    else Some None
  end.
(** PwSCFOutputFile.get_stress 793-795, get_etot 797-799, get_forces 801-812; raw_slice_get
    (base.py 284-304) along axis 0 with index 0 *)
Definition first_of {A} (x : option (option (list A))) : option (option A) :=
  match x with
  | Some (Some (a :: _)) => Some (Some a)
  | Some (Some []) => None
  | Some None => Some None
  | None => None
  end.
Definition scf_stress (lines : list pstr) := first_of (stress_raw lines).
Definition scf_etot (lines : list pstr) := first_of (etot_raw lines).
Definition scf_forces (lines : list pstr) : option (option (list (list R))) :=
  match get_natoms lines with
  | None => None
  | Some None => Some None
  | Some (Some natoms) => match first_of (forces_raw lines) with Some (Some f) => Some (Some (firstn natoms f)) | x => x end
  end.

(** ** PwMDOutputFile *)
(** _get_block_header_unit 898-925 *)
Definition bracket (c : ascii) : bool := Ascii.eqb c "(" || Ascii.eqb c ")" || Ascii.eqb c "{" || Ascii.eqb c "}".
Fixpoint before_eq (s : pstr) : pstr := match s with c :: t => if Ascii.eqb c "=" then [] else c :: before_eq t | [] => [] end.
Definition header_unit (key : pstr) (lines : list pstr) : option pstr :=
  match split_ws [] (List.filter (fun c => negb (bracket c)) (concat (grep_m1 key lines))) with
  | _ :: w :: _ => Some (before_eq w)
  | _ => None
  end.
(** _get_coords 927-947 *)
Definition coords_raw (lines : list pstr) : option (option arr3) :=
  match get_natoms lines with
  | None => None
  | Some None => Some None
  | Some (Some natoms) => traj_from_txt (grep_c s_pos lines) natoms (map (awk [2; 3; 4]) (egrep_v [s_pos; s_dd] (grep_after natoms s_pos lines)))
  end.
(** _get_cell_3d 949-965 *)
Definition cell_raw (lines : list pstr) : option (option arr3) :=
  traj_from_txt (grep_c s_cell lines) 3 (egrep_v [s_cell; s_dd] (grep_after 3 s_cell lines)).
(** _get_cell_3d_factors 967-999 *)
Definition factor_re : re :=
  Seq dots (Seq (Lit (text "alat")) (Seq dots (Seq (Lit (text "=")) (Seq (Star (Chr is_space)) (Seq (Group 1 float_re) (Seq (Star (Chr (Ascii.eqb ")"))) dots)))))).
Definition cell_factors (use_alat : bool) (lines : list pstr) : option (option (list R)) :=
  match find (in_order [s_cell; text "alat"; text "="]) lines with
  | None => Some None
  | Some _ => if use_alat then arr1d_from_txt (map (sed_1 factor_re) (List.filter (contains s_cell) lines)) else Some None
  end.
(** _match_nstep 1001-1020: slice(-0, None) is the whole array *)
Definition match_nstep {A} (lines : list pstr) (arr : option (list A)) : option (option (list A)) :=
  match arr with
  | None => Some None
  | Some arr =>
    match coords_raw lines with
    | None => None
    | Some None => Some None
    | Some (Some c) =>
      let nstep := length c in
      Some (Some (if (nstep <? length arr)%nat then (if (nstep =? 0)%nat then arr else skipn (length arr - nstep) arr) else arr))
    end
  end.
Definition scale3 (f : R) (a : arr3) : arr3 := map (map (map (fun x => (x * f)%R))) a.
(** get_coords 1030-1044: check_set_attr_lst wants _coords, coords_unit and alat to be set, so
    the unit None never gets to the first branch *)
Definition get_coords (use_alat : bool) (lines : list pstr) : option (option arr3) :=
  match coords_raw lines, get_alat use_alat lines with
  | Some c, Some a =>
    match c, header_unit s_pos lines, a with
    | Some c, Some u, Some a =>
      if pstr_eqb u (text "bohr") then Some (Some c)
      else if pstr_eqb u (text "alat") then Some (Some (scale3 a c))
      else if pstr_eqb u (text "angstrom") then Some (Some (map (map (map (fun x => (x * Angstrom / Bohr)%R))) c))
      else Some None
    | _, _, _ => Some None
    end
  | _, _ => None
  end.
(** get_coords_frac 1088-1096 *)
Definition get_coords_frac (lines : list pstr) : option (option arr3) :=
  match coords_raw lines with
  | None => None
  | Some None => Some None
  | Some (Some c) => match header_unit s_pos lines with Some u => if pstr_eqb u (text "crystal") then Some (Some c) else Some None | None => Some None end
  end.
(** get_cell 1046-1086, the part for files with CELL_PARAMETERS; _cell_3d * factors[:,None,None]
    broadcasts when there is one factor, or as many as cells, or one cell *)
Fixpoint zip_scale (fs : list R) (a : arr3) : arr3 :=
  match fs, a with f :: fs, c :: a => map (map (fun x => (x * f)%R)) c :: zip_scale fs a | _, _ => [] end.
Definition broadcast (fs : list R) (a : arr3) : option arr3 :=
  if (length fs =? length a)%nat then Some (zip_scale fs a)
  else if (length fs =? 1)%nat then Some (scale3 (hd 0%R fs) a)
  else if (length a =? 1)%nat then Some (map (fun f => map (map (fun x => (x * f)%R)) (hd [] a)) fs)
  else None.
Definition with_alat (use_alat : bool) (lines : list pstr) (c : arr3) : option (option arr3) :=
  match get_alat use_alat lines with None => None | Some None => Some None | Some (Some a) => Some (Some (scale3 a c)) end.
Definition get_cell_md (use_alat : bool) (lines : list pstr) (else_ : option (option arr3)) : option (option arr3) :=
  match cell_raw lines with
  | None => None
  | Some None => else_
  | Some (Some c) =>
    match header_unit s_cell lines with
    | Some u =>
      if pstr_eqb u (text "bohr") then Some (Some c)
      else if pstr_eqb u (text "alat") then
        match cell_factors use_alat lines with
        | None => None
        | Some (Some fs) => match broadcast fs c with Some r => Some (Some r) | None => None end
        | Some None => with_alat use_alat lines c
        end
      else if pstr_eqb u (text "angstrom") then Some (Some (map (map (map (fun x => (x * Angstrom / Bohr)%R))) c))
      else Some None
    | None => with_alat use_alat lines c
    end
  end.
(** get_stress 1118-1120, get_etot 1122-1124, get_forces 1126-1132: None has no items *)
Definition bind {A B} (x : option (option A)) (f : option A -> option (option B)) : option (option B) := match x with Some a => f a | None => None end.
Definition md_stress (lines : list pstr) := bind (stress_raw lines) (match_nstep lines).
Definition md_etot (lines : list pstr) := bind (etot_raw lines) (match_nstep lines).
Definition md_forces (lines : list pstr) : option (option arr3) :=
  match get_natoms lines with
  | None => None
  | Some None => Some None
  | Some (Some natoms) =>
    match bind (forces_raw lines) (match_nstep lines) with
    | Some (Some f) => Some (Some (map (firstn natoms) f))
    | _ => None
    end
  end.
End READ.
