(** Species of a structure, for C81. *)
From Coq Require Import Ascii String List Arith.
From Verif Require Import Comb.
Import ListNotations.
Local Open Scope list_scope.

(** Alphabetical order by code points: a proper beginning, or smaller in the first place that differs. *)
Definition before (a b : pstr) : Prop :=
  (exists c t, b = a ++ c :: t) \/
  (exists p x y a' b', a = p ++ x :: a' /\ b = p ++ y :: b' /\ nat_of_ascii x < nat_of_ascii y).
(** Sorted without repetition. *)
Fixpoint ascending (l : list pstr) : Prop := match l with [] => True | a :: l => (forall b, In b l -> before a b) /\ ascending l end.
(** How often a symbol occurs. *)
Definition occurrences (symbols : list pstr) (s : pstr) : nat := count_occ (list_eq_dec ascii_dec) symbols s.
(** Systematic names of elements, such as Uuo for one-one-eight. *)
Definition latin (c : ascii) : option nat :=
  match index 0 (String.String c EmptyString) "nubtqphsoe" with Some n => Some n | None => None end.
Definition systematic (s : pstr) (n : nat) : Prop :=
  exists a b c i j k, s = [a; b; c] /\ (if Ascii.eqb a "U" then Some 1 else latin a) = Some i /\ latin b = Some j /\ latin c = Some k /\ n = 100 * i + 10 * j + k.
From Coq Require Import QArith Qabs.
Local Close Scope Q_scope.
(** The periodic table, row by row, to element 111 *)
Definition periods : list (list string) :=
  [["H"; "He"];
   ["Li"; "Be"; "B"; "C"; "N"; "O"; "F"; "Ne"];
   ["Na"; "Mg"; "Al"; "Si"; "P"; "S"; "Cl"; "Ar"];
   ["K"; "Ca"; "Sc"; "Ti"; "V"; "Cr"; "Mn"; "Fe"; "Co"; "Ni"; "Cu"; "Zn"; "Ga"; "Ge"; "As"; "Se"; "Br"; "Kr"];
   ["Rb"; "Sr"; "Y"; "Zr"; "Nb"; "Mo"; "Tc"; "Ru"; "Rh"; "Pd"; "Ag"; "Cd"; "In"; "Sn"; "Sb"; "Te"; "I"; "Xe"];
   ["Cs"; "Ba"; "La"; "Ce"; "Pr"; "Nd"; "Pm"; "Sm"; "Eu"; "Gd"; "Tb"; "Dy"; "Ho"; "Er"; "Tm"; "Yb"; "Lu"; "Hf"; "Ta"; "W"; "Re"; "Os"; "Ir"; "Pt"; "Au"; "Hg"; "Tl"; "Pb"; "Bi"; "Po"; "At"; "Rn"];
   ["Fr"; "Ra"; "Ac"; "Th"; "Pa"; "U"; "Np"; "Pu"; "Am"; "Cm"; "Bk"; "Cf"; "Es"; "Fm"; "Md"; "No"; "Lr"; "Rf"; "Db"; "Sg"; "Bh"; "Hs"; "Mt"; "Ds"; "Rg"]]%string.
(** Abridged standard atomic weights (IUPAC 2013), in thousandths; elements without one are left out *)
Definition weights : list (string * Z) :=
  [("H", 1008); ("He", 4003); ("Li", 6940); ("Be", 9012); ("B", 10810); ("C", 12011); ("N", 14007); ("O", 15999); ("F", 18998); ("Ne", 20180);
   ("Na", 22990); ("Mg", 24305); ("Al", 26982); ("Si", 28085); ("P", 30974); ("S", 32060); ("Cl", 35450); ("Ar", 39948); ("K", 39098); ("Ca", 40078);
   ("Sc", 44956); ("Ti", 47867); ("V", 50942); ("Cr", 51996); ("Mn", 54938); ("Fe", 55845); ("Co", 58933); ("Ni", 58693); ("Cu", 63546); ("Zn", 65380);
   ("Ga", 69723); ("Ge", 72630); ("As", 74922); ("Se", 78971); ("Br", 79904); ("Kr", 83798); ("Rb", 85468); ("Sr", 87620); ("Y", 88906); ("Zr", 91224);
   ("Nb", 92906); ("Mo", 95950); ("Ru", 101070); ("Rh", 102906); ("Pd", 106420); ("Ag", 107868); ("Cd", 112414); ("In", 114818); ("Sn", 118710);
   ("Sb", 121760); ("Te", 127600); ("I", 126904); ("Xe", 131293); ("Cs", 132905); ("Ba", 137327); ("La", 138905); ("Ce", 140116); ("Pr", 140908);
   ("Nd", 144242); ("Sm", 150360); ("Eu", 151964); ("Gd", 157250); ("Tb", 158925); ("Dy", 162500); ("Ho", 164930); ("Er", 167259); ("Tm", 168934);
   ("Yb", 173045); ("Lu", 174967); ("Hf", 178490); ("Ta", 180948); ("W", 183840); ("Re", 186207); ("Os", 190230); ("Ir", 192217); ("Pt", 195084);
   ("Au", 196967); ("Hg", 200592); ("Tl", 204380); ("Pb", 207200); ("Bi", 208980); ("Th", 232038); ("Pa", 231036); ("U", 238029)]%string%Z.
(** equal up to changes of recommended values, 0.02 *)
Definition close_to (w : Q) (thousandths : Z) : Prop := (Qabs (w - (thousandths # 1000)) <= 2 # 100)%Q.
