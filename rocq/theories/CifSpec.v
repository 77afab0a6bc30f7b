(** What the entries of a CIF block mean, for C78. *)
From Coq Require Import Ascii String List Bool.
From Verif Require Import Comb Regex Cif.
Import ListNotations.
Local Open Scope list_scope.

Definition made_of (p : ascii -> bool) (s : pstr) : Prop := forall c, In c s -> p c = true.
(** 7.3782(7) and 7.3782 denote 7.3782: [n] is the number without its uncertainty. *)
Definition denotes (t n : pstr) : Prop :=
  (t = n /\ ~ In "("%char t) \/ (n <> [] /\ made_of float_char n /\ exists rest, t = n ++ "("%char :: rest).
(** Al1, Al3+ and Al denote Al. *)
Definition element (t e : pstr) : Prop :=
  e <> [] /\ made_of letter e /\ exists rest, t = e ++ rest /\ (forall c r, rest = c :: r -> letter c = false).
(** The entry of a loop column. *)
Definition column (b : block) (key : pstr) (l : list pstr) : Prop := get b key = Some (Column l).
(** Numbers that survive being written. *)
Definition survives {A} (fmt : A -> pstr) (parse : pstr -> option A) (v : A) : Prop := parse (fmt v) = Some v /\ ~ In "("%char (fmt v).
