(** Floating-point numbers as text: "%.{p}e" % x, used with p = 16 by frepr (common.py 193-222),
    str_arr (263-314), write_cif (io.py 116, 141) and wien_sgroup_input (io.py 72-79), with p = 18 by
    numpy.savetxt in arrayio.py, and float(), used by all parsers. Both are those of CPython: the text
    is the decimal number of p + 1 digits nearest to x, ties to even, and float() gives the binary64
    number nearest to the decimal number, ties to even. NaNs are one value. *)
From Coq Require Import Ascii String List Bool ZArith Reals.
From Flocq Require Import Core BinarySingleNaN.
From Verif Require Import Comb ArrayIO Regex.
Import ListNotations.
Local Open Scope list_scope.
Local Notation length := List.length.

Definition radix10 : radix := Build_radix 10 eq_refl.
Definition float64 := binary_float 53 1024.
Definition exp64 := SpecFloat.fexp 53 1024.
#[global] Instance prec53 : Prec_gt_0 53 := eq_refl.
#[global] Instance emax1024 : Prec_lt_emax 53 1024 := eq_refl.

(** [n] digits of a number below 10^n *)
Definition digit_char (d : Z) : ascii := ascii_of_nat (48 + Z.to_nat d).
Fixpoint fixdigits (n : nat) (M : Z) : pstr := match n with O => [] | S n => fixdigits n (M / 10) ++ [digit_char (M mod 10)] end.
(** v > 0 is about M * 10^(k-p), with 10^p <= M <= 10^(p+1) *)
Definition expo (v : R) : Z := (mag radix10 v - 1)%Z.
Definition mant (p : nat) (v : R) : Z := ZnearestE (v * bpow radix10 (Z.of_nat p - expo v)).
(** 9.9996 is rounded to 10.00 and written as 1.000e+01 *)
Definition mant_expo (p : nat) (v : R) : Z * Z :=
  if (mant p v =? 10 ^ (Z.of_nat p + 1))%Z then (10 ^ Z.of_nat p, expo v + 1)%Z else (mant p v, expo v).
(** p >= 1; the exponent has at least two digits *)
Definition sci (p : nat) (M k : Z) : pstr :=
  match fixdigits (S p) M with
  | a :: b => a :: "."%char :: b ++ "e"%char :: (if (k <? 0)%Z then "-"%char else "+"%char) :: fixdigits (if (Z.abs k <? 100)%Z then 2 else 3) (Z.abs k)
  | [] => []
  end.
Definition minus (s : bool) : pstr := if s then ["-"%char] else [].
Definition fmt_e (p : nat) (x : float64) : pstr :=
  match x with
  | B754_nan => text "nan"
  | B754_infinity s => minus s ++ text "inf"
  | B754_zero s => minus s ++ sci p 0 0
  | B754_finite s _ _ _ => minus s ++ (let '(M, k) := mant_expo p (Rabs (B2R x)) in sci p M k)
  end.

(** float(): without surrounding blanks, underscores, capitals and the long form of inf. The
    decimal number is rounded once. *)
Definition of_real (s : bool) (v : R) : float64 :=
  let r := round radix2 exp64 ZnearestE (if s then - v else v)%R in
  binary_normalize 53 1024 _ _ mode_NE (Ztrunc (scaled_mantissa radix2 exp64 r)) (cexp radix2 exp64 r) s.
Fixpoint span (p : ascii -> bool) (s : pstr) : pstr * pstr :=
  match s with c :: s' => if p c then let '(u, t) := span p s' in (c :: u, t) else ([], s) | [] => ([], []) end.
Definition value (ds : pstr) : Z := fold_left (fun a c => 10 * a + Z.of_nat (nat_of_ascii c - 48))%Z ds 0%Z.
Definition take_sign (t : pstr) : bool * pstr :=
  match t with c :: t' => if Ascii.eqb c "-" then (true, t') else if Ascii.eqb c "+" then (false, t') else (false, t) | [] => (false, t) end.
Definition read_float (t : pstr) : option float64 :=
  let '(s, t) := take_sign t in
  if pstr_eqb t (text "nan") then Some B754_nan else
  if pstr_eqb t (text "inf") then Some (B754_infinity s) else
  let '(a, t1) := span digit t in
  let '(b, t2) := match t1 with c :: t' => if Ascii.eqb c "." then span digit t' else ([], t1) | [] => ([], t1) end in
  if length (a ++ b) =? 0 then None else
  let num k := Some (of_real s (IZR (value (a ++ b)) * bpow radix10 (k - Z.of_nat (length b)))) in
  match t2 with
  | [] => num 0%Z
  | c :: t3 => if Ascii.eqb c "e" || Ascii.eqb c "E" then
      let '(es, t4) := take_sign t3 in
      let '(e, t5) := span digit t4 in
      match e, t5 with [], _ => None | _, _ :: _ => None | _, [] => num (if es then - value e else value e)%Z end
      else None
  end.
