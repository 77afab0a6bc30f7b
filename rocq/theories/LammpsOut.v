(** LAMMPS data files: lammps.struct_str (/repo/src/pwtools/lammps.py 6-52), io.write_lammps
    (/repo/src/pwtools/io.py 228-249) and the reader of the file of symbols (/repo/src/pwtools/parse.py
    2414-2416). The texts of "%.14g" and "%g", and the first line with the date, are parameters. *)
From Coq Require Import Ascii String List Bool Arith ZArith QArith Reals.
From Flocq Require Import BinarySingleNaN.
From Verif Require Import Comb ArrayIO Decimal TextOut Species Vec3 Cells.
Import ListNotations.
Local Open Scope list_scope.
Local Open Scope nat_scope.
Local Notation length := List.length.

(** 25-30: without cell and coords, set_all makes the cell from cryst_const (crys.py get_cell) and the
    coords from coords_frac and the new cell (crys.py 2588-2595); real numbers *)
Definition aligned_cell (cell : mat) : mat := cc2cell (cell2cc cell).
Definition aligned_coords (coords_frac : list vec) (cell : mat) : list vec := map (fun f => vecmat f (aligned_cell cell)) coords_frac.

(** "%23.16e" *)
Definition fmt23 (v : float64) : pstr := let t := fmt_e 16 v in repeat " "%char (23 - length t) ++ t.
(** 1e-13 *)
Definition eps13 : float64 := @B754_finite 53 1024 false 7922816251426434 (-96) eq_refl.
(** 31-52; the cell is [[x,0,0],[xy,y,0],[xz,yz,z]] *)
Definition struct_str (head : pstr) (g14 : float64 -> pstr) (g : Q -> pstr) (symbols : list pstr) (x xy y xz yz z : float64) (coords : list (list float64)) : option pstr :=
  let u := symbols_unique symbols in
  let info := show_nat (length symbols) ++ text " atoms" ++ nl ++ show_nat (length u) ++ text " atom types" in
  let tilts := join (text " ") (map (fun v => g14 (fixed eps13 v)) [xy; xz; yz]) in
  let cell := text "0.0 " ++ g14 x ++ text " xlo xhi" ++ nl ++ text "0.0 " ++ g14 y ++ text " ylo yhi" ++ nl ++ text "0.0 " ++ g14 z ++ text " zlo zhi" ++ nl ++ tilts ++ text " xy xz yz" ++ nl in
  let atom '(i, (s, row)) := option_map (fun t => show_nat (i + 1) ++ text " " ++ show_nat t ++ text " " ++ join four (map (fun v => fmt23 (fixed eps13 v)) row) ++ nl) (lookup (order symbols) s) in
  let one '(i, s) := option_map (fun m => show_nat (i + 1) ++ text " " ++ g m ++ nl) (mass_of s) in
  if length coords =? length symbols then
    match opt_map atom (combine (seq 0 (length symbols)) (combine symbols coords)), opt_map one (combine (seq 0 (length u)) u) with
    | Some a, Some m => Some (head ++ nl ++ nl ++ info ++ nl ++ nl ++ cell ++ nl ++ (text "Atoms" ++ nl ++ nl ++ concat a) ++ nl ++ (text "Masses" ++ nl ++ nl ++ concat m))
    | _, _ => None
    end
  else None.
(** io.py 247-248: the file of symbols *)
Definition symbols_file (symbols : list pstr) : pstr := join nl symbols.
(** parse.py 2416 *)
Definition read_symbols (t : pstr) : list pstr := split_ws [] t.
