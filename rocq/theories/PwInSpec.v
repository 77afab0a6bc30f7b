(** What an input file for pw.x says, for C84. *)
From Coq Require Import Ascii String List Bool Arith ZArith.
From Verif Require Import Comb ArrayIO Decimal TextOutSpec.
Import ListNotations.
Local Open Scope list_scope.
Local Open Scope nat_scope.

(** Lines up to a given one, and after it. *)
Fixpoint upto (stop : pstr) (ls : list pstr) : list pstr :=
  match ls with [] => [] | l :: ls => if list_eq_dec ascii_dec l stop then [] else l :: upto stop ls end.
Fixpoint after (start : pstr) (ls : list pstr) : list pstr :=
  match ls with [] => [] | l :: ls => if list_eq_dec ascii_dec l start then ls else after start ls end.
(** A Fortran namelist: the lines between "&name" and "/". Nothing else is read before the cards. *)
Definition namelist (name : string) (ls : list pstr) : list pstr := upto (text "/") (after (text ("&" ++ name)) ls).
(** A card: the [n] lines after its title. *)
Definition card (title : string) (n : nat) (ls : list pstr) : list pstr := firstn n (after (text title) ls).
(** Symbol, mass, file of the pseudopotential. *)
Definition species_line (l : pstr) (smp : pstr * (pstr * pstr)) : Prop := split_ws [] l = [fst smp; fst (snd smp); snd (snd smp)].
(** Integers on a line. *)
Definition integers (l : pstr) (z : list Z) : Prop := Forall2 (fun w n => read_int w = Some n) (split_ws [] l) z.
(** Chemical symbols: a capital, then small letters. *)
Definition capital (c : ascii) : bool := (65 <=? nat_of_ascii c) && (nat_of_ascii c <=? 90).
Definition small (c : ascii) : bool := (97 <=? nat_of_ascii c) && (nat_of_ascii c <=? 122).
Definition symbol (s : pstr) : Prop := exists c t, s = c :: t /\ capital c = true /\ forall d, In d t -> small d = true.
(** The file belongs to the symbol: the symbol, then something which is no small letter. *)
Definition file_of (sym f : pstr) : Prop := exists d t, f = sym ++ d :: t /\ small d = false.
(** The first file in the list which starts with the symbol. *)
Definition first_with (s p : pstr) (l : list pstr) : Prop := exists a b, l = a ++ p :: b /\ (exists t, p = s ++ t) /\ forall q t, In q a -> q <> s ++ t.
