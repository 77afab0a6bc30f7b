(** Decimal texts, for C79. *)
From Coq Require Import Ascii String List ZArith Reals.
From Verif Require Import Comb Regex.
Import ListNotations.
Local Open Scope list_scope.

(** The number of a sequence of digits: the first digit counts 10^(number of the others). *)
Fixpoint number (ds : pstr) : Z :=
  match ds with [] => 0 | c :: ds => (Z.of_nat (nat_of_ascii c) - 48) * 10 ^ Z.of_nat (length ds) + number ds end%Z.
(** [t] is d.ddd…e±dd with [p] digits after the point, M all its digits as one number, k its
    exponent. *)
Definition scientific (t : pstr) (negative : bool) (p : nat) (M k : Z) : Prop :=
  exists d ds sg ee, t = (if negative then ["-"%char] else []) ++ d :: "."%char :: ds ++ "e"%char :: sg :: ee /\
    (forall c, In c (d :: ds ++ ee) -> digit c = true) /\ length ds = p /\ 2 <= length ee <= 3 /\
    number (d :: ds) = M /\ ((sg = "+"%char /\ k = number ee) \/ (sg = "-"%char /\ k = - number ee))%Z.
