(** Input files for pw.x: atspec_str, kpoints_str, kpoints_str_pwin, kpoints_str_pwin_full, bool2str
    (/repo/src/pwtools/pwscf.py 88-159) and Pwscf.write_input (/repo/src/pwtools/calculators.py 184-313)
    with fill_infile_templ (108-113). Exceptions are None. *)
From Coq Require Import Ascii String List Bool Arith ZArith QArith.
From Flocq Require Import BinarySingleNaN.
From Verif Require Import Comb ArrayIO Decimal TextOut Species.
Import ListNotations.
Local Open Scope list_scope.
Local Open Scope nat_scope.
Local Notation length := List.length.

(** A Python list, tuple or numpy array (rank 1) of integers, and what "+" does with two of them. *)
Inductive pyseq := PList (l : list Z) | PTuple (l : list Z) | PArr (l : list Z).
Definition elems (s : pyseq) : list Z := match s with PList l | PTuple l | PArr l => l end.
Definition broadcast (a b : list Z) : option (list Z) :=
  if length a =? length b then Some (map (fun p => (fst p + snd p)%Z) (combine a b))
  else match a, b with [x], _ => Some (map (Z.add x) b) | _, [y] => Some (map (fun x => x + y)%Z a) | _, _ => None end.
Definition seq_add (a b : pyseq) : option pyseq :=
  match a, b with
  | PList x, PList y => Some (PList (x ++ y))
  | PTuple x, PTuple y => Some (PTuple (x ++ y))
  | PList _, PTuple _ | PTuple _, PList _ => None
  | _, _ => option_map PArr (broadcast (elems a) (elems b))
  end.
(** pwscf.py 115-120 *)
Definition kpoints_str (base : pstr) (l : list Z) : pstr :=
  join (text ",") (map (fun ix => base ++ show_nat (fst ix + 1) ++ text "=" ++ show_int (snd ix)) (combine (seq 0 (length l)) l)).
(** 124-133 *)
Definition kpoints_str_pwin (lst shift : pyseq) : option pstr := option_map (fun s => join (text " ") (map show_int (elems s))) (seq_add lst shift).
(** 137-153; the argument is a string or a sequence, a string other than "gamma" plus a list raises *)
Definition kpoints_str_pwin_full (lst : pstr + pyseq) (shift : pyseq) (gamma : bool) : option pstr :=
  match lst with
  | inl s => if pstr_eqb s (text "gamma") then Some (text "K_POINTS gamma") else None
  | inr l => if list_eq_dec Z.eq_dec (elems l) [1; 1; 1]%Z then
               if gamma then Some (text "K_POINTS gamma")
               else option_map (fun t => text "K_POINTS automatic" ++ nl ++ t) (kpoints_str_pwin (PList (elems l)) shift)
             else option_map (fun t => text "K_POINTS automatic" ++ nl ++ t) (kpoints_str_pwin (PList (elems l)) shift)
  end.
(** 157-159 *)
Definition bool2str (b : bool) : pstr := text (if b then ".true." else ".false.")%string.
(** 88-112; [mass] are the texts of the masses *)
Definition tab : pstr := ["009"%char].
Definition atspec_str (symbols mass pseudos : list pstr) : option pstr :=
  if (length symbols =? length mass) && (length mass =? length pseudos) then
    Some (join nl (map (fun smp => fst smp ++ tab ++ fst (snd smp) ++ tab ++ snd (snd smp)) (combine symbols (combine mass pseudos))))
  else None.

(** calculators.py 290-301: one name for all types, or a list *)
Inductive pp_arg := One (s : pstr) | Many (l : list pstr).
Definition pick (pp : list pstr) (sym : pstr) : list pstr := match find (fun p => is_prefix sym p) pp with Some p => [p] | None => [] end.
Definition pseudos (pp : pp_arg) (u : list pstr) : option (list pstr) :=
  match pp with
  | One s => Some (map (fun sym => sym ++ text "." ++ s) u)
  | Many l => if length l =? length u then let r := concat (map (pick l) u) in if length r =? length u then Some r else None else None
  end.
(** 289: ASE's kpts2mp makes an array from a density and returns anything else as it is; [grid] is the
    grid for a density *)
Inductive kpts_arg := Density (d : float64) | Given (s : pyseq).
Definition kpts2mp (grid : float64 -> list Z) (k : kpts_arg) : pyseq := match k with Density d => PArr (grid d) | Given s => s end.

(** Templates for str.format: text and fields. A field which is missing is a KeyError. *)
Inductive seg := T (s : string) | F (key : string).
Fixpoint fill (env : string -> option pstr) (l : list seg) : option pstr :=
  match l with
  | [] => Some []
  | T s :: l => option_map (app (text s)) (fill env l)
  | F k :: l => match env k, fill env l with Some v, Some t => Some (v ++ t) | _, _ => None end
  end.
Fixpoint fill_lines (env : string -> option pstr) (ls : list (list seg)) : option pstr :=
  match ls with
  | [] => Some []
  | [l] => fill env l
  | l :: ls => match fill env l, fill_lines env ls with Some a, Some b => Some (a ++ nl ++ b) | _, _ => None end
  end.
(** 184-223, line by line *)
Definition infile_templ : list (list seg) :=
  [ [];
    [T "&control"];
    [T "    calculation = 'scf'"];
    [T "    restart_mode = 'from_scratch',"];
    [T "    prefix = '"; F "calc_name"; T "'"];
    [T "    tstress = .true."];
    [T "    tprnfor = .true."];
    [T "    pseudo_dir = '"; F "pseudo_dir"; T "',"];
    [T "    outdir = '"; F "outdir"; T "'"];
    [T "    wf_collect = .false."];
    [T "/"];
    [T "&system"];
    [T "    ibrav = 0,"];
    [T "    nat = "; F "natoms"; T ","];
    [T "    ntyp = "; F "ntyp"; T ","];
    [T "    ecutwfc = "; F "ecutwfc"; T ","];
    [T "    ecutrho = "; F "ecutrho"; T ","];
    [T "    nosym = .false."];
    [T "/"];
    [T "    occupations = 'smearing'"];
    [T "    smearing = 'mv',"];
    [T "    degauss = 0.005"];
    [];
    [T "&electrons"];
    [T "    electron_maxstep = "; F "electron_maxstep"];
    [T "    diagonalization = '"; F "diagonalization"; T "'"];
    [T "    mixing_mode = '"; F "mixing_mode"; T "'"];
    [T "    mixing_beta = "; F "mixing_beta"];
    [T "    conv_thr = "; F "conv_thr"];
    [T "/"];
    [T "ATOMIC_SPECIES"];
    [F "atspec"];
    [T "CELL_PARAMETERS angstrom"];
    [F "cell"];
    [T "ATOMIC_POSITIONS crystal"];
    [F "atpos"];
    [T "K_POINTS automatic"];
    [F "kpoints"; T " 0 0 0"];
    [T "    "] ]%string.
(** The parameters of the calculator that the template uses (default_parameters, 155-180). *)
Record params := { calc_name : pstr; pseudo_dir : pstr; outdir : pstr; ecutwfc : float64; ecutrho : option float64; electron_maxstep : Z;
  diagonalization : pstr; mixing_mode : pstr; mixing_beta : float64; conv_thr : float64; pp : pp_arg; kpts : kpts_arg }.
(** 263: four times ecutwfc by default *)
Definition four64 : float64 := @B754_finite 53 1024 false 4503599627370496 (-50) eq_refl.
Definition ecutrho_of (p : params) : float64 := match ecutrho p with None => Bmult mode_NE four64 (ecutwfc p) | Some r => r end.
(** 284-313 without the backup. [str] is str() of a number, [strm] of a mass; the structure is given by
    symbols, cell (Angstrom) and fractional coordinates; str_arr and atpos_str with their defaults
    (common.py 263, pwscf.py 11). *)
Definition write_input (str : float64 -> pstr) (strm : Q -> pstr) (grid : float64 -> list Z) (p : params) (symbols : list pstr) (cell coords_frac : list (list float64)) : option pstr :=
  let u := symbols_unique symbols in
  match str_arr (fmt_e 16) four eps64 (Rank2 cell), kpoints_str_pwin (kpts2mp grid (kpts p)) (PList [0; 0; 0]%Z), pseudos (pp p) u, mass_unique symbols with
  | Some cell_t, Some kpoints_t, Some ps, Some ms =>
    match atspec_str u (map strm ms) ps, atpos_str (fmt_e 16) four eps64 symbols coords_frac with
    | Some atspec_t, Some atpos_t =>
      let env k :=
        (if k =? "calc_name" then Some (calc_name p) else if k =? "pseudo_dir" then Some (pseudo_dir p) else if k =? "outdir" then Some (outdir p)
         else if k =? "natoms" then Some (show_nat (length symbols)) else if k =? "ntyp" then Some (show_nat (length u))
         else if k =? "ecutwfc" then Some (str (ecutwfc p)) else if k =? "ecutrho" then Some (str (ecutrho_of p))
         else if k =? "electron_maxstep" then Some (show_int (electron_maxstep p)) else if k =? "diagonalization" then Some (diagonalization p)
         else if k =? "mixing_mode" then Some (mixing_mode p) else if k =? "mixing_beta" then Some (str (mixing_beta p)) else if k =? "conv_thr" then Some (str (conv_thr p))
         else if k =? "atspec" then Some atspec_t else if k =? "cell" then Some cell_t else if k =? "atpos" then Some atpos_t else if k =? "kpoints" then Some kpoints_t else None)%string in
      fill_lines env infile_templ
    | _, _ => None
    end
  | _, _, _, _ => None
  end.
