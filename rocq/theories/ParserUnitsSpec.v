(** What the programs print, and the factors to eV, Angstrom, fs, GPa, K. *)
From Coq Require Import List String Bool.
From Verif Require Import ParserUnits.
Import ListNotations.
Local Open Scope string_scope.
Inductive unit_ := URy | UHa | UeV | UBohr | UAng | URyBohr | UHaBohr | UeVAng | Ukbar | Ubar | UGPa | UTryd | UThart | Ufs | Ups | UBohrThart | UAngps | UAngfs | UK.
Definition to_pwtools {num} (K : consts num) (u : unit_) : num :=
  match u with
  | URy => ry_ev _ K | UHa => ha_ev _ K | UBohr => bohr_ang _ K | URyBohr => ry_bohr _ K | UHaBohr => ha_bohr _ K
  | Ukbar => kbar_gpa _ K | Ubar => bar_gpa _ K | UTryd => tryd_fs _ K | UThart => thart_fs _ K | UBohrThart => vel_au _ K
  | UAngps => fs_ps _ K | Ups => ps_fs _ K
  | UeV | UAng | UeVAng | UGPa | Ufs | UAngfs | UK => one _ K
  end.
(** The unit in which a file of this kind holds the quantity; None if the parser does not read
    it.  From the docstrings of the getters and the class comments. *)
Definition printed (c : cls) (q : string) : option unit_ :=
  let table :=
    match c with
    | Base | Traj => []
    | Cif | PDB => [("length", UAng)]
    | PwSCF => [("length", UBohr); ("energy", URy); ("forces", URyBohr); ("stress", Ukbar)]
    | PwMD | PwVCMD => [("length", UBohr); ("energy", URy); ("forces", URyBohr); ("stress", Ukbar); ("time", UTryd); ("temperature", UK)]
    | CpmdSCF => [("length", UBohr); ("energy", UHa); ("forces", UHaBohr); ("stress", Ukbar)]
    | CpmdMD => [("length", UBohr); ("energy", UHa); ("forces", UHaBohr); ("stress", Ukbar); ("time", UThart); ("velocity", UBohrThart); ("temperature", UK)]
    | Cp2kSCF => [("energy", UHa); ("forces", UHaBohr); ("stress", UGPa)]
    | Cp2kMD | Cp2kRelax | Cp2kDcd => [("length", UAng); ("energy", UHa); ("forces", UHaBohr); ("stress", Ubar); ("velocity", UBohrThart); ("time", Ufs); ("temperature", UK)]
    | LmpTxt | LmpDcd => [("length", UAng); ("energy", UeV); ("forces", UeVAng); ("stress", Ubar); ("velocity", UAngps); ("time", Ups); ("temperature", UK)]
    end in
  option_map snd (find (fun kv => String.eqb (fst kv) q) table).
Definition cp2k_md (c : cls) : bool := match c with Cp2kMD | Cp2kRelax | Cp2kDcd => true | _ => false end.
(** The size of a unit in SI units, and the unit of the quantity in pwtools. *)
From Coq Require Import Reals.
Local Open Scope R_scope.
Definition size (c : si) (u : unit_) : R :=
  match u with
  | URy => Ry c | UHa => Ha c | UeV => eV c | UBohr => Bohr c | UAng => Ang c
  | URyBohr => Ry c / Bohr c | UHaBohr => Ha c / Bohr c | UeVAng => eV c / Ang c
  | Ukbar => 100000000 | Ubar => 100000 | UGPa => 1000000000
  | UTryd => tryd c | UThart => thart c | Ufs => fs c | Ups => ps c
  | UBohrThart => Bohr c / thart c | UAngps => Ang c / ps c | UAngfs => Ang c / fs c | UK => 1
  end.
Definition target (q : string) : option unit_ :=
  option_map snd (find (fun kv => String.eqb (fst kv) q)
    [("length", UAng); ("energy", UeV); ("forces", UeVAng); ("stress", UGPa); ("time", Ufs); ("velocity", UAngfs); ("temperature", UK)]).
