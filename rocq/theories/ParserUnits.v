(** The unit factors of the parser classes (/repo/src/pwtools/parse.py): class attributes
    [default_units] are dictionaries that __init__ of some classes changes in place, so they are
    part of the state of the process.  One state, any sequence of constructions. *)
From Coq Require Import List String Bool.
Import ListNotations.
Local Open Scope string_scope.
Section WORLD.
Variable num : Type.
(** Factors as the source computes them from constants.py; only their values matter. *)
Record consts := Consts {
  one : num;         (* 1.0 *)
  ry_ev : num;       (* Ry / eV *)
  ha_ev : num;       (* Ha / eV *)
  bohr_ang : num;    (* Bohr / Angstrom *)
  ry_bohr : num;     (* Ry / eV * Angstrom / Bohr *)
  ha_bohr : num;     (* Ha / eV * Angstrom / Bohr *)
  kbar_gpa : num;    (* 0.1 *)
  bar_gpa : num;     (* 1e-4 *)
  tryd_fs : num;     (* tryd / fs *)
  thart_fs : num;    (* thart / fs *)
  vel_au : num;      (* Bohr / Ang * fs / thart *)
  fs_ps : num;       (* fs / ps *)
  ps_fs : num }.     (* ps / fs *)
Variable K : consts.
Inductive cls := Base | Traj | Cif | PDB | PwSCF | PwMD | PwVCMD | CpmdSCF | CpmdMD | Cp2kSCF | Cp2kMD | Cp2kRelax | Cp2kDcd | LmpTxt | LmpDcd.
Definition cls_eq_dec : forall a b : cls, {a = b} + {a <> b}. Proof. decide equality. Defined.
(** Method resolution order, from the class statements 249, 311, 325, 431, 538, 843, 1135, 1170,
    1350, 1740, 1820, 1998, 2097, 2122, 2469 (DcdOutputFile has no default_units and is left
    out). *)
Definition mro (c : cls) : list cls :=
  match c with
  | Base => [Base] | Traj => [Traj; Base] | Cif => [Cif; Base] | PDB => [PDB; Base]
  | PwSCF => [PwSCF; Base] | PwMD => [PwMD; Traj; PwSCF; Base] | PwVCMD => [PwVCMD; PwMD; Traj; PwSCF; Base]
  | CpmdSCF => [CpmdSCF; Base] | CpmdMD => [CpmdMD; Traj; CpmdSCF; Base]
  | Cp2kSCF => [Cp2kSCF; Base] | Cp2kMD => [Cp2kMD; Traj; Cp2kSCF; Base]
  | Cp2kRelax => [Cp2kRelax; Cp2kMD; Traj; Cp2kSCF; Base] | Cp2kDcd => [Cp2kDcd; Cp2kMD; Traj; Cp2kSCF; Base]
  | LmpTxt => [LmpTxt; Traj; Base] | LmpDcd => [LmpDcd; LmpTxt; Traj; Base]
  end.
Definition dict := list (string * num).
Definition lookup (k : string) (d : dict) : option num := option_map snd (find (fun kv => String.eqb (fst kv) k) d).
(** d[k] = v for each item in order: a new item is put in front, where lookup finds it first *)
Definition put (kvs d : dict) : dict := fold_left (fun d kv => kv :: d) kvs d.
(** The class dictionaries after import: 253, 647-652, 1206-1211, 1752-1755 *)
Definition world := cls -> option dict.
Definition fresh : world := fun c =>
  match c with
  | Base => Some []
  | PwSCF => Some [("energy", ry_ev K); ("length", bohr_ang K); ("forces", ry_bohr K); ("stress", kbar_gpa K)]
  | CpmdSCF => Some [("energy", ha_ev K); ("length", bohr_ang K); ("forces", ha_bohr K); ("stress", kbar_gpa K)]
  | Cp2kSCF => Some [("energy", ha_ev K); ("forces", ha_bohr K)]
  | _ => None
  end.
(** The changes of self.default_units in __init__: 879, 1470-1473, 1825-1826, 2213-2215; the
    other classes call these or make none. *)
Definition changes (c : cls) : dict :=
  match c with
  | PwMD | PwVCMD => [("time", tryd_fs K)]
  | CpmdMD => [("time", thart_fs K); ("velocity", vel_au K)]
  | Cp2kMD | Cp2kRelax | Cp2kDcd => [("stress", bar_gpa K); ("velocity", vel_au K)]
  | LmpTxt | LmpDcd => [("stress", bar_gpa K); ("velocity", fs_ps K); ("time", ps_fs K)]
  | _ => []
  end.
(** The class whose dictionary the attribute self.default_units is *)
Definition owner (w : world) (c : cls) : option cls := find (fun k => match w k with Some _ => true | None => false end) (mro c).
Definition default_units (w : world) (c : cls) : dict :=
  match owner w c with Some o => match w o with Some d => d | None => [] end | None => [] end.
Definition change (w : world) (c : cls) : world :=
  match owner w c with
  | Some o => fun k => if cls_eq_dec k o then match w o with Some d => Some (put (changes c) d) | None => None end else w k
  | None => w
  end.
(** UnitsHandler: crys.py 2127-2145, update_units 2177-2191 *)
Definition all_units := ["length"; "energy"; "stress"; "forces"; "temperature"; "velocity"; "time"].
Definition known (d : dict) : bool := forallb (fun kv => existsb (String.eqb (fst kv)) all_units) d.
Definition factor (d user : dict) (q : string) : num :=
  match lookup q (put user []) with Some v => v | None => match lookup q d with Some v => v | None => one K end end.
(** SomeParser(..., units=user), 254-275: the class state afterwards, and self.units, or None
    when an unknown unit raises; the class dictionary is changed before that *)
Definition construct (w : world) (cu : cls * dict) : world * option (string -> num) :=
  let w' := change w (fst cu) in
  (w', if known (default_units w' (fst cu)) && known (snd cu) then Some (factor (default_units w' (fst cu)) (snd cu)) else None).
Definition after (hist : list (cls * dict)) : world := fold_left (fun w cu => fst (construct w cu)) hist fresh.
End WORLD.
(** The factors, from the constants in constants.py (SI values, all positive). *)
From Coq Require Import Reals.
Record si := SI { Ry : R; Ha : R; eV : R; Bohr : R; Ang : R; fs : R; ps : R; tryd : R; thart : R }.
Local Open Scope R_scope.
Definition factors (c : si) : consts R :=
  Consts R 1 (Ry c / eV c) (Ha c / eV c) (Bohr c / Ang c) (Ry c / eV c * Ang c / Bohr c) (Ha c / eV c * Ang c / Bohr c) (1 / 10) (1 / 10000)
    (tryd c / fs c) (thart c / fs c) (Bohr c / Ang c * fs c / thart c) (fs c / ps c) (ps c / fs c).
