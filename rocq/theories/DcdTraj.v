(** Model of DcdOutputFile, Cp2kDcdMDOutputFile and LammpsDcdMDOutputFile (src/pwtools/parse.py 2046-2120 and
    2469-2510): what a trajectory read from a dcd file contains.  Numbers in the file are bytes, [val] is
    the number they stand for; over the real numbers. *)
From Coq Require Import Reals List ZArith.
From Verif Require Import Vec3 Cells Dcd.
Import ListNotations.

Section Dcd.
Variable deg : word -> word.
Variable val : word -> R.
(** a row of cryst_const, a row of coords *)
Definition row_cc (r : list word) : cc := CC (val (nth 0 r [])) (val (nth 1 r [])) (val (nth 2 r [])) (val (nth 3 r [])) (val (nth 4 r [])) (val (nth 5 r [])).
Definition row_vec (r : list word) : vec := Vec (val (nth 0 r [])) (val (nth 1 r [])) (val (nth 2 r [])).
Record dcd_data := DcdData { dd_cc : list cc; dd_coords : list (list vec); dd_nstep : nat; dd_natoms : nat }.
(** 2051-2060; [file = None]: no such file (the attribute is None); outer None: exception *)
Definition get_dcd_data (convang : bool) (file : option bytes) : option (option dcd_data) :=
  match file with
  | None => Some None
  | Some l =>
    match read_dcd_data deg l convang with
    | None => None
    | Some (c, x) => Some (Some (DcdData (map row_cc c) (map (map row_vec) x) (length c) (length (hd [] x))))
    end
  end.
(** 2062-2094: coords, cryst_const, natoms, nstep from the dcd file; cell and volume are None, so that the
    trajectory gets them from cryst_const (crys.py get_cell, get_volume) *)
Record dtraj := DTraj { t_cell : list mat; t_cc : list cc; t_coords : list (list vec); t_volume : list R; t_nstep : nat; t_natoms : nat }.
Definition dcd_traj (convang : bool) (file : option bytes) : option (option dtraj) :=
  option_map (option_map (fun d => let cells := map cc2cell (dd_cc d) in DTraj cells (dd_cc d) (dd_coords d) (map volume_cell cells) (dd_nstep d) (dd_natoms d))) (get_dcd_data convang file).
(** 2108: cp2k; 2499: lammps *)
Definition cp2k_dcd : option bytes -> option (option dtraj) := dcd_traj false.
Definition lammps_dcd : option bytes -> option (option dtraj) := dcd_traj true.
End Dcd.
