(** Species of a structure: get_symbols_unique, get_order, get_typat, get_znucl_unique, get_znucl,
    get_ntypat, get_nspecies, get_mass, get_mass_unique (/repo/src/pwtools/crys.py 2732-2816) and the
    periodic table (/repo/src/pwtools/atomic_data.py). Symbols are strings of 8-bit characters, masses
    the decimal numbers of the source, not rounded to binary64. KeyError is None. *)
From Coq Require Import Ascii String List Bool Arith ZArith QArith.
From Verif Require Import Comb ArrayIO.
Import ListNotations.
Local Open Scope list_scope.
Local Open Scope nat_scope.
Local Notation length := List.length.

(** np.unique on strings: sorted by code points, neighbours that are equal removed *)
Fixpoint str_leb (a b : pstr) : bool :=
  match a, b with
  | [], _ => true
  | _ :: _, [] => false
  | x :: a, y :: b => if nat_of_ascii x <? nat_of_ascii y then true else if nat_of_ascii y <? nat_of_ascii x then false else str_leb a b
  end.
Fixpoint insert (s : pstr) (l : list pstr) : list pstr :=
  match l with [] => [s] | t :: l' => if str_leb s t then s :: l else t :: insert s l' end.
Definition sort (l : list pstr) : list pstr := fold_right insert [] l.
Fixpoint drop_equal (l : list pstr) : list pstr :=
  match l with
  | [] => []
  | s :: l' => match drop_equal l' with t :: r => if pstr_eqb s t then t :: r else s :: t :: r | [] => [s] end
  end.
(** 2732-2738 *)
Definition symbols_unique (symbols : list pstr) : list pstr := drop_equal (sort symbols).
(** a dictionary made from a list of pairs: the last one counts *)
Definition lookup {A} (d : list (pstr * A)) (s : pstr) : option A :=
  fold_left (fun o kv => if pstr_eqb (fst kv) s then Some (snd kv) else o) d None.
(** 2740-2751 *)
Definition order (symbols : list pstr) : list (pstr * nat) :=
  let u := symbols_unique symbols in map (fun ns => (snd ns, fst ns + 1)) (combine (seq 0 (length u)) u).
(** 2753-2762 *)
Definition typat (symbols : list pstr) : option (list nat) := opt_map (lookup (order symbols)) symbols.
(** 2784-2792 *)
Definition ntypat (symbols : list pstr) : nat := length (symbols_unique symbols).
(** 2794-2800; list.count *)
Definition nspecies (symbols : list pstr) : option (list (pstr * nat)) :=
  option_map (fun t => map (fun so => (fst so, count_occ Nat.eq_dec t (snd so))) (order symbols)) (typat symbols).

(** atomic_data.py 40-159 *)
Definition table : list pstr := map text
  ["Xx"; "H"; "He"; "Li"; "Be"; "B"; "C"; "N"; "O"; "F"; "Ne"; "Na"; "Mg"; "Al"; "Si"; "P"; "S"; "Cl";
   "Ar"; "K"; "Ca"; "Sc"; "Ti"; "V"; "Cr"; "Mn"; "Fe"; "Co"; "Ni"; "Cu"; "Zn"; "Ga"; "Ge"; "As"; "Se";
   "Br"; "Kr"; "Rb"; "Sr"; "Y"; "Zr"; "Nb"; "Mo"; "Tc"; "Ru"; "Rh"; "Pd"; "Ag"; "Cd"; "In"; "Sn"; "Sb";
   "Te"; "I"; "Xe"; "Cs"; "Ba"; "La"; "Ce"; "Pr"; "Nd"; "Pm"; "Sm"; "Eu"; "Gd"; "Tb"; "Dy"; "Ho"; "Er";
   "Tm"; "Yb"; "Lu"; "Hf"; "Ta"; "W"; "Re"; "Os"; "Ir"; "Pt"; "Au"; "Hg"; "Tl"; "Pb"; "Bi"; "Po"; "At";
   "Rn"; "Fr"; "Ra"; "Ac"; "Th"; "Pa"; "U"; "Np"; "Pu"; "Am"; "Cm"; "Bk"; "Cf"; "Es"; "Fm"; "Md"; "No";
   "Lr"; "Rf"; "Db"; "Sg"; "Bh"; "Hs"; "Mt"; "Ds"; "Rg"; "Uub"; "Uut"; "Uuq"; "Uup"; "Uuh"; "Uuo"]%string.
(** 161-283; index 0 is "missing" *)
Definition masses : list Q :=
  [(-1 # 1); (100794 # 100000); (4002602 # 1000000); (6941 # 1000); (9012182 # 1000000); (10811 # 1000);
   (120107 # 10000); (140067 # 10000); (159994 # 10000); (189984032 # 10000000); (201797 # 10000);
   (2298976928 # 100000000); (243050 # 10000); (269815386 # 10000000); (280855 # 10000);
   (30973762 # 1000000); (32065 # 1000); (35453 # 1000); (39948 # 1000); (390983 # 10000);
   (40078 # 1000); (44955912 # 1000000); (47867 # 1000); (509415 # 10000); (519961 # 10000);
   (54938045 # 1000000); (55845 # 1000); (58933195 # 1000000); (586934 # 10000); (63546 # 1000);
   (6538 # 100); (69723 # 1000); (7264 # 100); (7492160 # 100000); (7896 # 100); (79904 # 1000);
   (83798 # 1000); (854678 # 10000); (8762 # 100); (8890585 # 100000); (91224 # 1000);
   (9290638 # 100000); (9596 # 100); (98 # 1); (10107 # 100); (10290550 # 100000); (10642 # 100);
   (1078682 # 10000); (112411 # 1000); (114818 # 1000); (118710 # 1000); (121760 # 1000); (12760 # 100);
   (12690447 # 100000); (131293 # 1000); (1329054519 # 10000000); (137327 # 1000); (13890547 # 100000);
   (140116 # 1000); (14090765 # 100000); (144242 # 1000); (145 # 1); (15036 # 100); (151964 # 1000);
   (15725 # 100); (15892535 # 100000); (162500 # 1000); (16493032 # 100000); (167259 # 1000);
   (16893421 # 100000); (173054 # 1000); (1749668 # 10000); (17849 # 100); (18094788 # 100000);
   (18384 # 100); (186207 # 1000); (19023 # 100); (192217 # 1000); (195084 # 1000);
   (196966569 # 1000000); (20059 # 100); (2043833 # 10000); (2072 # 10); (20898040 # 100000); (209 # 1);
   (210 # 1); (222 # 1); (223 # 1); (226 # 1); (227 # 1); (23203806 # 100000); (23103588 # 100000);
   (23802891 # 100000); (237 # 1); (244 # 1); (243 # 1); (247 # 1); (247 # 1); (251 # 1); (252 # 1);
   (257 # 1); (258 # 1); (259 # 1); (262 # 1); (267 # 1); (268 # 1); (271 # 1); (272 # 1); (270 # 1);
   (276 # 1); (281 # 1); (280 # 1); (285 # 1); (284 # 1); (289 # 1); (288 # 1); (293 # 1); (294 # 1)]%Q.
(** 408-416 *)
Definition numbers : list (pstr * nat) := combine table (seq 0 (length table)).
Definition number_of (s : pstr) : option nat := lookup numbers s.
Definition mass_of (s : pstr) : option Q := match number_of s with Some n => nth_error masses n | None => None end.
(** 2764-2782 *)
Definition znucl_unique (symbols : list pstr) : option (list nat) := opt_map number_of (symbols_unique symbols).
Definition znucl (symbols : list pstr) : option (list nat) := opt_map number_of symbols.
(** 2802-2816 *)
Definition mass (symbols : list pstr) : option (list Q) := opt_map mass_of symbols.
Definition mass_unique (symbols : list pstr) : option (list Q) :=
  match znucl_unique symbols with Some z => opt_map (nth_error masses) z | None => None end.
