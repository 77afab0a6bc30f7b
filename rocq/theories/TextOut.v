(** Structures as text: str_arr and fix_eps (/repo/src/pwtools/common.py 243-314), atpos_str and
    atpos_str_fast (/repo/src/pwtools/pwscf.py 11-85), write_xyz and write_axsf
    (/repo/src/pwtools/io.py 156-225), lammps.struct_str (/repo/src/pwtools/lammps.py 6-52). Numbers
    are binary64; the functions return the text that is written to the file. *)
From Coq Require Import Ascii String List Bool Arith ZArith.
From Flocq Require Import BinarySingleNaN.
From Verif Require Import Comb ArrayIO Decimal.
Import ListNotations.
Local Open Scope list_scope.
Local Notation length := List.length.

Definition nl : pstr := ["010"%char].
Definition four : pstr := text "    ".
Definition zero : float64 := B754_zero false.
(** common.py 243-260: the assert, then values with abs <= eps to zero (NaN compares false) *)
Definition fix_val (eps v : float64) : float64 := if Bleb (Babs v) eps then zero else v.
Definition fix_eps {A} (m : (float64 -> float64) -> A -> A) (eps : float64) (arr : A) : option A :=
  if Bltb zero eps then Some (m (fix_val eps) arr) else None.
(** 303: fix_eps only if eps > 0 *)
Definition fixed (eps v : float64) : float64 := if Bltb zero eps then fix_val eps v else v.
(** 304-314: arrays of rank 1 and 2; others raise ValueError *)
Inductive ndarr := Rank1 (l : list float64) | Rank2 (rows : list (list float64)) | Other.
Definition str_arr (fmt : float64 -> pstr) (delim : pstr) (eps : float64) (arr : ndarr) : option pstr :=
  match arr with
  | Rank1 l => Some (join delim (map (fun v => fmt (fixed eps v)) l))
  | Rank2 rows => Some (join nl (map (fun row => join delim (map (fun v => fmt (fixed eps v)) row)) rows))
  | Other => None
  end.
(** pwscf.py 11-47; the assert on the lengths *)
Definition atpos_str (fmt : float64 -> pstr) (delim : pstr) (eps : float64) (symbols : list pstr) (coords : list (list float64)) : option pstr :=
  if length symbols =? length coords then
    option_map (join nl) (opt_map (fun sr => option_map (fun r => fst sr ++ delim ++ r) (str_arr fmt delim eps (Rank1 (snd sr)))) (combine symbols coords))
  else None.
(** pwscf.py 50-85. [str] is numpy's conversion of a number to a string; an array of dtype U32 keeps
    the first 32 characters. An array of symbols that does not fit the rows is a ValueError (one
    symbol would be broadcast, which is left out). *)
Definition u32 (s : pstr) : pstr := firstn 32 s.
Definition atpos_str_fast (str : float64 -> pstr) (symbols : list pstr) (coords : list (list float64)) : option pstr :=
  if length symbols =? length coords then
    Some (concat (map (fun sr => join (text "  ") (u32 (fst sr) :: map (fun v => u32 (str v)) (snd sr)) ++ nl) (combine symbols coords)))
  else None.
Definition show_nat (n : nat) : pstr := show_int (Z.of_nat n).
(** io.py 156-180 *)
Definition write_xyz (str : float64 -> pstr) (name : pstr) (symbols : list pstr) (steps : list (list (list float64))) : option pstr :=
  option_map (@concat ascii) (opt_map (fun ic => option_map (fun body => show_nat (length symbols) ++ nl ++ (name ++ text "." ++ show_nat (fst ic + 1)) ++ nl ++ body) (atpos_str_fast str symbols (snd ic)))
    (combine (seq 0 (length steps)) steps)).
(** io.py 183-225. [conv] is x * eV / Ha; a step is the cell, the coordinates and, if set, the forces.
    np.concatenate raises if the numbers of rows differ. *)
Definition beside (a b : list (list float64)) : option (list (list float64)) :=
  if length a =? length b then Some (map (fun ab => fst ab ++ snd ab) (combine a b)) else None.
Definition bind {A B} (x : option A) (f : A -> option B) : option B := match x with Some a => f a | None => None end.
Definition eps64 : float64 := @B754_finite 53 1024 false 4503599627370496 (-104) eq_refl.
Definition write_axsf (str : float64 -> pstr) (conv : float64 -> float64) (symbols : list pstr) (steps : list (list (list float64) * list (list float64) * option (list (list float64)))) : option pstr :=
  option_map (fun parts => text "ANIMSTEPS " ++ show_nat (length steps) ++ nl ++ text "CRYSTAL" ++ concat parts)
    (opt_map (fun ist => let '(istep, (cell, coords, forces)) := ist in
       let ccf := match forces with Some f => beside coords (map (map conv) f) | None => Some coords end in
       match str_arr (fmt_e 16) four eps64 (Rank2 cell), bind ccf (atpos_str_fast str symbols) with
       | Some c, Some a => Some (nl ++ text "PRIMVEC " ++ show_nat (istep + 1) ++ nl ++ c ++
                                 nl ++ text "PRIMCOORD " ++ show_nat (istep + 1) ++ nl ++ show_nat (length symbols) ++ text " 1" ++ nl ++ a)
       | _, _ => None
       end) (combine (seq 0 (length steps)) steps)).
