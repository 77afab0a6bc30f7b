(** Model of dictionaries stored in classes: default_units of the parsers
    (/repo/src/pwtools/parse.py) and default_parameters of the calculators
    (/repo/src/pwtools/calculators.py:91-108). *)
From Coq Require Import List String Arith Bool.
From Verif Require Import Units.
Import ListNotations.
Open Scope string_scope.

(** A dictionary as its items, latest first. *)
Definition dict (V : Type) := list (string * V).
Definition dget {V} (d : dict V) (k : string) : option V := option_map snd (find (fun kv => String.eqb (fst kv) k) d).
Definition dset {V} (d : dict V) (kv : string * V) : dict V := kv :: d.
Definition dupdate {V} (d e : dict V) : dict V := fold_left dset e d.

(** *** parsers *)
Inductive parser_class :=
| CifFile | PDBFile | PwSCF | PwMD | PwVCMD | CpmdSCF | CpmdMD | Cp2kSCF | Cp2kMD | Cp2kRelax | Cp2kDcdMD | LammpsText | LammpsDcd.

(** Which dictionary object self.default_units is, by the classes' bases:
    StructureFileParser's own (parse.py:253), PwSCFOutputFile's (647),
    CpmdSCFOutputFile's (1206) or Cp2kSCFOutputFile's (1752). *)
Inductive owner := OBase | OPw | OCpmd | OCp2k.
Definition owner_eqb (a b : owner) : bool :=
  match a, b with OBase, OBase | OPw, OPw | OCpmd, OCpmd | OCp2k, OCp2k => true | _, _ => false end.
Definition owner_of (c : parser_class) : owner :=
  match c with
  | CifFile | PDBFile | LammpsText | LammpsDcd => OBase
  | PwSCF | PwMD | PwVCMD => OPw
  | CpmdSCF | CpmdMD => OCpmd
  | Cp2kSCF | Cp2kMD | Cp2kRelax | Cp2kDcdMD => OCp2k
  end.

(** Factors are written as the expressions of the code; only which expression is
    used matters here. *)
Definition factor := string.
(** The dictionaries when the module is imported: 253, 647-652, 1206-1211,
    1752-1755. *)
Definition dicts0 (o : owner) : dict factor :=
  match o with
  | OBase => []
  | OPw => [("energy", "Ry/eV"); ("length", "Bohr/Ang"); ("forces", "Ry/eV*Ang/Bohr"); ("stress", "0.1")]
  | OCpmd => [("energy", "Ha/eV"); ("length", "Bohr/Ang"); ("forces", "Ha/eV*Ang/Bohr"); ("stress", "0.1")]
  | OCp2k => [("energy", "Ha/eV"); ("forces", "Ha/eV*Ang/Bohr")]
  end.
(** What __init__ writes into self.default_units: 879, 1470-1473, 1825-1826,
    2213-2215. *)
Definition writes (c : parser_class) : dict factor :=
  match c with
  | PwMD | PwVCMD => [("time", "tryd/fs")]
  | CpmdMD => [("time", "thart/fs"); ("velocity", "Bohr/Ang*fs/thart")]
  | Cp2kMD | Cp2kRelax | Cp2kDcdMD => [("stress", "1e-4"); ("velocity", "Bohr/thart/Ang*fs")]
  | LammpsText | LammpsDcd => [("stress", "1e-4"); ("velocity", "fs/ps"); ("time", "ps/fs")]
  | _ => []
  end.
(** attr_lst of each class, as far as units_map and cryst_const matter: the units
    of the quantities it reads.  353-360, 492-500, 656-667, 881-895, 1214-1225,
    1475-1491, 1759-1765, 1828-1841, 2103-2117, 2217-2232, 2486-2497. *)
Definition reads (c : parser_class) : list string :=
  match c with
  | CifFile | PDBFile => ["length"]
  | PwSCF => ["length"; "stress"; "energy"; "forces"]
  | PwMD | PwVCMD => ["length"; "stress"; "energy"; "temperature"; "forces"; "time"]
  | CpmdSCF => ["length"; "stress"; "energy"; "forces"]
  | CpmdMD => ["length"; "energy"; "forces"; "stress"; "temperature"; "time"; "velocity"]
  | Cp2kSCF => ["energy"; "forces"; "stress"]
  | Cp2kMD | Cp2kRelax | Cp2kDcdMD => ["length"; "energy"; "forces"; "stress"; "temperature"; "time"; "velocity"]
  | LammpsText => ["length"; "energy"; "forces"; "stress"; "temperature"; "time"; "velocity"]
  | LammpsDcd => ["length"; "energy"; "stress"; "temperature"; "time"]
  end.

Definition dicts := owner -> dict factor.
(** Creating a parser: __init__ of the class writes, then
    StructureFileParser.__init__ (254-273) takes the units: 1.0, default_units,
    and the user's. *)
Definition create (c : parser_class) (user : dict factor) (ds : dicts) : dicts * (string -> factor) :=
  let d := dupdate (ds (owner_of c)) (writes c) in
  (fun o => if owner_eqb o (owner_of c) then d else ds o,
   fun u => match dget (rev user) u with Some f => f | None => match dget d u with Some f => f | None => "1.0" end end).
Fixpoint create_all (l : list (parser_class * dict factor)) (ds : dicts) : dicts :=
  match l with
  | [] => ds
  | (c, user) :: l => create_all l (fst (create c user ds))
  end.

(** *** calculators *)
Section Calc.
Variable V : Type.
(** init_params_from_input, calculators.py:96-108, for one class: [d] is
    default_parameters of the class.  Returns the new default_parameters, which is
    also self.parameters, and the attributes of the instance; None if a key is not
    allowed. *)
Definition init_params (kwds : dict V) (d : dict V) : option (dict V * (string -> option V)) :=
  if forallb (fun kv => match dget d (fst kv) with Some _ => true | None => false end) kwds
  then let d' := dupdate d kwds in Some (d', dget d')
  else None.
Fixpoint init_all (l : list (dict V)) (d : dict V) : dict V :=
  match l with
  | [] => d
  | kwds :: l => match init_params kwds d with Some (d', _) => init_all l d' | None => init_all l d end
  end.
End Calc.
