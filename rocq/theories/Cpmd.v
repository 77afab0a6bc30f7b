(** parse.CpmdSCFOutputFile and CpmdMDOutputFile, /repo/src/pwtools/parse.py 1175-1738. A file is
    the list of its lines, None when it does not exist. [parse] is the reading of one number; real
    arithmetic stands for floats. The outer None is an exception; a getter that returns None gives
    Some None. Not modelled: nkpoints, nstep_scf, timestep. *)
From Coq Require Import Ascii String List Arith Bool Reals.
From Verif Require Import Comb Template ArrayIO Grep Regex Lammps PwOut Cp2k.
Import ListNotations.
Local Open Scope list_scope.
Local Open Scope nat_scope.
Local Notation length := List.length.

(** tail -n N *)
Definition tail_n {A} (n : nat) (l : list A) : list A := skipn (length l - n) l.
(** ** GEOMETRY: get_natoms 1316-1328. egrep '([0-9][ ]+.<any>){5,}': at least five digits are
    followed by a blank. *)
Fixpoint digit_gaps (l : pstr) : nat :=
  match l with
  | c :: t => (match t with b :: _ => if digit c && Ascii.eqb b " " then 1 else 0 | [] => 0 end) + digit_gaps t
  | [] => 0
  end.
Definition get_natoms (geometry : option (list pstr)) : option nat :=
  match geometry with Some lines => Some (length (List.filter (fun l => 5 <=? digit_gaps l) lines)) | None => None end.

Section READ.
Variable parse : pstr -> option R.
(** ** Single calculations *)
(** _get_scale_file 1247-1264 *)
Record scale := Scale { sc_cell : option (list (list R)); sc_frac : list (list R); sc_symbols : list pstr }.
Definition scale_file (natoms : option nat) (file : option (list pstr)) : option (option scale) :=
  match file with
  | None => Some None
  | Some lines =>
    match arr2d_from_txt parse (tail_n 3 (grep_Af 3 (contains (text "CELL MATRIX (BOHR)")) 0 false false lines)), natoms with
    | Some cell, Some n =>                                                    (* assert_set_attr *)
      match word_rows (List.filter (fun l => negb (blank_line l)) (tail_n n (grep_Af n (contains (text "SCALED ATOMIC COORDINATES")) 0 false false lines))) with
      | Some (r :: rows) =>
        match opt_map (fun r => opt_map parse (firstn 3 r)) (r :: rows), opt_map (fun r => nth_error r 3) (r :: rows) with
        | Some x, Some s => Some (Some (Scale cell x s))
        | _, _ => None
        end
      | _ => None                                                             (* None[:,:3] *)
      end
    | _, _ => None
    end
  end.
Definition from_scale {A} (f : scale -> option A) (natoms : option nat) (file : option (list pstr)) : option (option A) :=
  match scale_file natoms file with Some (Some s) => Some (f s) | Some None => Some None | None => None end.
(** 1266-1279, 1294-1306 *)
Definition scf_cell := from_scale sc_cell.
Definition get_coords_frac := from_scale (fun s => Some (sc_frac s)).
Definition get_symbols := from_scale (fun s => Some (sc_symbols s)).
(** get_stress 1281-1285, get_etot 1287-1292 *)
Definition scf_stress (out : list pstr) : option (option (list (list R))) :=
  arr2d_from_txt parse (tail_n 3 (grep_Af 3 (contains (text "TOTAL STRESS TENSOR")) 0 false false out)).
Definition scf_etot (out : list pstr) : option (option R) :=
  float_from_txt parse (map (awk [5]) (tail_n 1 (List.filter (contains (text "TOTAL ENERGY =")) out))).
(** _get_coords_forces 1226-1245, get_forces 1308-1314 *)
Definition is_grad : pstr -> bool := spaced_in [text "ATOM"; text "COORDINATES"; text "GRADIENTS"].
Definition scf_forces (natoms : option nat) (out : list pstr) : option (option (list (list R))) :=
  match natoms with
  | None => Some None
  | Some n =>
    match arr2d_from_txt parse (map (awk [3; 4; 5; 6; 7; 8]) (tail_n n (grep_Af n is_grad 0 false false out))) with
    | Some (Some rows) => Some (Some (map (skipn 3) rows))
    | r => r
    end
  end.
(** get_scf_converged 1342-1348 *)
Definition scf_converged (out : list pstr) : bool := negb (existsb (contains (text "BUT NO CONVERGENCE")) out).

(** ** Molecular dynamics *)
(** _energies_order 1492-1520, in the order of the columns *)
Inductive ekey := Nfi | Ekinc | Ekinh | Tempp | Eks | Eclassic | Eham | Dis | Tcpu.
Definition ekey_dec (a b : ekey) : {a = b} + {a <> b}. Proof. decide equality. Defined.
Definition order (ncols : nat) : option (list ekey) :=
  match ncols with
  | 9 => Some [Nfi; Ekinc; Ekinh; Tempp; Eks; Eclassic; Eham; Dis; Tcpu]
  | 8 => Some [Nfi; Ekinc; Tempp; Eks; Eclassic; Eham; Dis; Tcpu]
  | 6 => Some [Nfi; Tempp; Eks; Eclassic; Dis; Tcpu]
  | _ => None
  end.
Fixpoint index (k : ekey) (l : list ekey) : option nat :=
  match l with [] => None | x :: l => if ekey_dec x k then Some 0 else match index k l with Some i => Some (S i) | None => None end end.
(** _get_energies_file 1522-1540; the array is rectangular and has a column for each key, so the
    default of nth is not used *)
Definition energies (file : option (list pstr)) : option (option (ekey -> option (list R))) :=
  match file with
  | None => Some None
  | Some lines =>
    match table parse lines with
    | None => None
    | Some rows =>
      match order (length (hd [] rows)) with
      | None => None
      | Some ks => Some (Some (fun k => match index k ks with Some i => Some (map (fun r => nth i r 0%R) rows) | None => None end))
      end
    end
  end.
Definition energy (k : ekey) (file : option (list pstr)) : option (option (list R)) :=
  match energies file with Some (Some d) => Some (d k) | Some None => Some None | None => None end.
(** 1585-1589, 1621-1630, 1632-1639, 1641-1647, 1649-1663, 1665-1673, 1710-1716 *)
Definition get_ekin := energy Eclassic.
Definition get_ekin_elec := energy Ekinc.
Definition get_etot := energy Eks.
Definition get_ekin_cell := energy Ekinh.
Definition get_temperature := energy Tempp.
Definition get_econst (file : option (list pstr)) : option (option (list R)) :=
  match energies file with
  | Some (Some d) => match d Eham with Some e => Some (Some e) | None => get_etot file end
  | Some None => Some None
  | None => None
  end.
(** get_temperature_cell 1675-1682 *)
Definition get_temperature_cell (kb Ha : R) (file : option (list pstr)) : option (option (list R)) :=
  match get_ekin_cell file with
  | Some (Some e) => Some (Some (map (fun x => x * 2 / 9 / kb * Ha)%R e))
  | r => r
  end.
(** _get_coords_vel_forces 1542-1583. arrayio.readtxt with comments='<<<<', shape=(nstep, natoms,
    ncols), axis=0: np.loadtxt drops what follows <<<< and gives a 2d array if there are two rows
    or more; arr2d_to_3d cuts it in blocks of natoms rows (its loop is modelled in ArrayIO.v). *)
Definition s_new := text "<<<<".
Fixpoint cut_new (l : pstr) : pstr := if is_prefix s_new l then [] else match l with [] => [] | c :: t => c :: cut_new t end.
Definition read3 (nstep natoms ncols : nat) (lines : list pstr) : option arr3 :=
  match loadtxt parse (map cut_new lines) with
  | Some rows =>
    if (1 <? length rows) && (length rows =? natoms * nstep)%nat && (length (hd [] rows) =? ncols)%nat
    then Some (chunk natoms nstep rows) else None
  | None => None
  end.
Record traj := Traj { t_coords : arr3; t_velocity : arr3; t_forces : option arr3 }.
Definition trajectory (natoms : option nat) (ftr tr : option (list pstr)) : option (option traj) :=
  match natoms with
  | None => None                                                              (* assert_set_attr *)
  | Some n =>
    match (match ftr, tr with Some f, _ => Some (10, f) | None, Some f => Some (7, f) | None, None => None end) with
    | None => Some None
    | Some (ncols, lines) =>
      let nlines := length (List.filter (fun l => negb (contains s_new l)) lines) in
      if (n =? 0)%nat then None                                               (* division by zero *)
      else if negb (nlines mod n =? 0)%nat then None                          (* assert *)
      else match read3 (nlines / n) n ncols lines with
           | Some a => Some (Some (Traj (map (map (fun r => firstn 3 (skipn 1 r))) a) (map (map (fun r => firstn 3 (skipn 4 r))) a)
                                        (match ftr with Some _ => Some (map (map (skipn 7)) a) | None => None end)))
           | None => None
           end
    end
  end.
(** 1610-1616, 1718-1724, 1684-1690 *)
Definition get_coords natoms ftr tr := match trajectory natoms ftr tr with Some (Some t) => Some (Some (t_coords t)) | Some None => Some None | None => None end.
Definition get_velocity natoms ftr tr := match trajectory natoms ftr tr with Some (Some t) => Some (Some (t_velocity t)) | Some None => Some None | None => None end.
Definition get_forces natoms ftr tr := match trajectory natoms ftr tr with Some (Some t) => Some (t_forces t) | Some None => Some None | None => None end.
(** traj_from_txt 172-205, shape (n, b, c) *)
Definition traj_cols (n b c : nat) (lines : list pstr) : option (option arr3) :=
  if forallb blank_line lines then Some None
  else match fromstring parse lines with
       | Some l => match reshape n (b * c) l with Some rows => Some (Some (map (chunk c b) rows)) | None => None end
       | None => None
       end.
(** get_cell 1591-1614; without the file CELL the result is the 2d array [scf_cell], here Some None.
    wc counts the words of the second line (of the first, if there is only one). *)
Definition get_cell (file : option (list pstr)) : option (option arr3) :=
  match file with
  | None => Some None
  | Some lines =>
    let ncols := length (split_ws [] (hd [] (tail_n 1 (firstn 2 lines)))) in
    let nstep := grep_c (text "CELL PARAMETERS") lines in
    match traj_cols nstep 3 ncols (egrep_v [text "CELL"] (grep_Af 3 (contains (text "CELL PARAMETERS")) 0 false false lines)) with
    | Some (Some a) => Some (Some (map (map (firstn 3)) a))
    | _ => None                                                               (* None[...,:3] *)
    end
  end.
(** get_stress 1692-1708 *)
Definition get_stress (file : option (list pstr)) : option (option arr3) :=
  match file with
  | None => Some None
  | Some lines =>
    traj_cols (grep_c (text "TOTAL STRESS") lines) 3 3 (egrep_v [text "TOTAL"] (grep_Af 3 (contains (text "TOTAL STRESS TENSOR")) 0 false false lines))
  end.
End READ.
