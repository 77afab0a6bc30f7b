(** Regular expressions as matched by the re module of Python: the first match found by
    backtracking, from left to right. Modelled from its documentation, for the operators used
    in /repo/src/pwtools/parse.py; text is ASCII. *)
From Coq Require Import Ascii String List Arith Bool.
From Verif Require Import Comb.
Import ListNotations.
Local Open Scope list_scope.
Local Notation length := List.length.

(** A character class; xy; x|y; x* ; the group (x) with its number *)
Inductive re := Chr (p : ascii -> bool) | Eps | Seq (x y : re) | Alt (x y : re) | Star (x : re) | Group (n : nat) (x : re).
(** The texts of the groups, the latest first *)
Definition caps := list (nat * pstr).
Definition orelse {A} (x y : option A) : option A := match x with Some _ => x | None => y end.

(** [m r s c k]: match [r] at the beginning of [s], then go on with [k] on the rest. A
    repetition tries one more round first; a round that consumes nothing ends it. *)
Fixpoint m {A} (r : re) (s : pstr) (c : caps) (k : pstr -> caps -> option A) {struct r} : option A :=
  match r with
  | Chr p => match s with a :: t => if p a then k t c else None | [] => None end
  | Eps => k s c
  | Seq x y => m x s c (fun s c => m y s c k)
  | Alt x y => orelse (m x s c k) (m y s c k)
  | Star x =>
    (fix loop (fuel : nat) (s : pstr) (c : caps) : option A :=
       orelse (match fuel with O => None | S f => m x s c (fun s' c' => if length s' <? length s then loop f s' c' else None) end) (k s c))
    (length s) s c
  | Group n x => m x s c (fun s' c' => k s' ((n, firstn (length s - length s') s) :: c'))
  end.
(** x+, x{n}, a fixed text *)
Definition Plus (x : re) : re := Seq x (Star x).
Fixpoint Times (n : nat) (x : re) : re := match n with O => Eps | S O => x | S n => Seq x (Times n x) end.
Fixpoint Lit (w : pstr) : re := match w with [] => Eps | [a] => Chr (Ascii.eqb a) | a :: w => Seq (Chr (Ascii.eqb a)) (Lit w) end.

(** match.group(n) *)
Definition group (n : nat) (c : caps) : option pstr := option_map snd (find (fun e => fst e =? n) c).
(** re.match: the rest of the text and the groups *)
Definition re_match (r : re) (s : pstr) : option (pstr * caps) := m r s [] (fun s c => Some (s, c)).
(** re.search *)
Fixpoint re_search (r : re) (s : pstr) : option (pstr * caps) :=
  orelse (re_match r s) (match s with [] => None | _ :: t => re_search r t end).
(** re.finditer for a pattern that does not match the empty text *)
Fixpoint re_finditer (fuel : nat) (r : re) (s : pstr) : list caps :=
  match fuel with
  | O => []
  | S f => match re_match r s with
           | Some (rest, c) => c :: re_finditer f r rest
           | None => match s with [] => [] | _ :: t => re_finditer f r t end
           end
  end.

Definition between (lo hi : ascii) (c : ascii) : bool := (nat_of_ascii lo <=? nat_of_ascii c) && (nat_of_ascii c <=? nat_of_ascii hi).
Definition digit : ascii -> bool := between "0" "9".
Definition letter (c : ascii) : bool := between "a" "z" c || between "A" "Z" c.
Definition sign (c : ascii) : bool := Ascii.eqb c "+" || Ascii.eqb c "-".
(** [\.0-9eEdD+-] *)
Definition float_char (c : ascii) : bool :=
  Ascii.eqb c "." || digit c || Ascii.eqb c "e" || Ascii.eqb c "E" || Ascii.eqb c "d" || Ascii.eqb c "D" || sign c.
(** regex.float_re, /repo/src/pwtools/regex.py 13: [+-]*[\.0-9eEdD+-]+ *)
Definition float_re : re := Seq (Star (Chr sign)) (Plus (Chr float_char)).
