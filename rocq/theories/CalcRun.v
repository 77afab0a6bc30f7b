(** The calculators for ASE: find_exe, stress_pwtools2ase, Pwscf and Lammps write_input and
    read_results, /repo/src/pwtools/calculators.py 61-87, 270-320, 385-425. Real numbers. The files of a
    calculation are in one directory, a map from file names to contents; a content is what the
    program reads from or writes to the file (the texts are the matter of C82, C84, C85 and C58).
    The program (pw.x, lmp) is a parameter. backup=True only adds copies under other names (C05). *)
From Coq Require Import Ascii String List Bool Arith Reals.
From Verif Require Import Comb ArrayIO Decimal TextOut Vec3 Cells LammpsOut.
Import ListNotations.
Local Open Scope list_scope.
Local Open Scope R_scope.

(** find_exe 61-69; [which] is shutil.which *)
Fixpoint find_exe (which : pstr -> option pstr) (names : list pstr) : option pstr :=
  match names with [] => None | n :: r => match which n with Some p => Some p | None => find_exe which r end end.
(** crys.tensor2voigt, crys.py 3356-3376 *)
Definition voigt6 (t : mat) : list R := [vx (ra t); vy (rb t); vz (rc t); vz (rb t); vz (ra t); vy (ra t)].
(** constants.py 124, 189: e0 * 1e21 *)
Definition ev_ang3_gpa : R := 1602176487 / 10000000.
(** stress_pwtools2ase 72-87 *)
Definition stress_ase (t : mat) : list R := map (fun x => - x / ev_ang3_gpa) (voigt6 t).

(** what a program gets: symbols, cell, positions; and gives: energy (eV), forces (eV/Ang), pressure tensor *)
Definition program := list pstr -> mat -> list vec -> R * list vec * mat.
Inductive content :=
| Input (symbols : list pstr) (cell : mat) (coords : list vec)
| Output (e : R) (f : list vec) (p : mat)                  (* pw.out *)
| Log (rows : list (R * mat))                              (* LAMMPS thermo output: PotEng, pressures in bar *)
| Dump (frames : list (list vec)).                         (* LAMMPS dump: forces by time step *)
Definition dir := pstr -> option content.
Definition put (n : pstr) (c : content) (d : dir) : dir := fun k => if list_eq_dec ascii_dec k n then Some c else d k.
Definition name (prefix : pstr) (suffix : string) : pstr := prefix ++ text suffix.
(** positions of a Structure made from the scaled positions of the atoms, crys.py 3020-3024 *)
Definition positions (frac : list vec) (cell : mat) : list vec := map (fun f => vecmat f cell) frac.
Definition scale_mat (c : R) (t : mat) : mat := Mat (scale c (ra t)) (scale c (rb t)) (scale c (rc t)).

(** Pwscf.write_input 281-311, infile 261: cell and scaled positions as given *)
Definition pw_write (prefix : pstr) (sy : list pstr) (cell : mat) (frac : list vec) (d : dir) : dir :=
  put (name prefix ".in") (Input sy cell (positions frac cell)) d.
(** pw.x; command 170 for the prefix *)
Definition pw_run (prog : program) (prefix : pstr) (d : dir) : dir :=
  match d (name prefix ".in") with Some (Input sy c x) => let '(e, f, p) := prog sy c x in put (name prefix ".out") (Output e f p) d | _ => d end.
(** Pwscf.read_results 313-319 *)
Definition pw_read (prefix : pstr) (d : dir) : option (R * list vec * list R) :=
  match d (name prefix ".out") with Some (Output e f p) => Some (e, f, stress_ase p) | _ => None end.
Definition pw_calc prog prefix sy cell frac d := let d' := pw_run prog prefix (pw_write prefix sy cell frac d) in (d', pw_read prefix d').

(** Lammps.write_input 402-416: the file for read_data is made with lammps.struct_str (aligned cell) *)
Definition lmp_write (prefix : pstr) (sy : list pstr) (cell : mat) (frac : list vec) (d : dir) : dir :=
  put (name prefix ".struct") (Input sy (aligned_cell cell) (aligned_coords frac cell)) d.
(** lmp < prefix.in > prefix.out, template 349-371: run 0, dump sorted by id *)
Definition lmp_run (prog : program) (prefix : pstr) (d : dir) : dir :=
  match d (name prefix ".struct") with
  | Some (Input sy c x) => let '(e, f, p) := prog sy c x in put (name prefix ".out.dump") (Dump [f]) (put (name prefix ".out") (Log [(e, p)]) d)
  | _ => d
  end.
(** Lammps.read_results 418-425 with LammpsTextMDOutputFile (parse.py 2122-2467): the log is
    prefix.out, the dump is always lmp.out.dump (2225); frame 0 has energy and stress only if log
    and dump have the same number of steps (crys.py 2947-2964), else stress_pwtools2ase(None) raises;
    bar to GPa (2211) *)
Definition lmp_read (prefix : pstr) (d : dir) : option (R * list vec * list R) :=
  match d (name prefix ".out"), d (text "lmp.out.dump") with
  | Some (Log rows), Some (Dump frames) =>
      if Nat.eqb (List.length rows) (List.length frames) then
        match rows, frames with (e, p) :: _, f :: _ => Some (e, f, stress_ase (scale_mat (1 / 10000) p)) | _, _ => None end
      else None
  | _, _ => None
  end.
Definition lmp_calc prog prefix sy cell frac d := let d' := lmp_run prog prefix (lmp_write prefix sy cell frac d) in (d', lmp_read prefix d').
