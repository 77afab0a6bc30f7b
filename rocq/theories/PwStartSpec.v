(** The header of a pw.x output file and the lines of an MD run as the program prints them *)
From Coq Require Import Ascii String List Arith Reals ZArith.
From Verif Require Import Comb ArrayIO PwOutSpec.
Import ListNotations.
Local Open Scope list_scope.
Local Notation length := List.length.

(** the texts, one behind the other *)
Fixpoint texts_in_order (ws : list pstr) (l : pstr) : Prop :=
  match ws with [] => True | w :: ws => exists p q, l = p ++ w ++ q /\ texts_in_order ws q end.
(** "site n.     atom                  positions (alat units)" *)
Definition site_title (l : pstr) : Prop := texts_in_order [text "site"; text "atom"; text "positions"; text "units"; text ")"] l.
(** "crystal axes: (cart. coord. in units of alat)" *)
Definition axes_title (l : pstr) : Prop :=
  texts_in_order [text "crystal"; text "axes"; text "units"; text "a_0"] l \/ texts_in_order [text "crystal"; text "axes"; text "units"; text "alat"] l.
(** "1           Si  tau(  1) = (   0.0000000   0.0000000   0.0000000  )": symbol and numbers *)
Definition no_bracket (s : pstr) : Prop := forall c, In c s -> c <> "("%char /\ c <> ")"%char.
Definition site_row (l : pstr) (x : pstr * list pstr) : Prop :=
  (exists p inner t, l = p ++ text "(" ++ inner ++ text ")" ++ t /\ no_bracket inner /\ (forall c, In c t -> c = " "%char) /\ words inner = snd x /\ length (snd x) = 3) /\
  exists i rest, words l = i :: fst x :: rest.
(** "a(1) = ( -0.500000  0.000000  0.500000 )" *)
Definition axis_row (l : pstr) (x : list pstr) : Prop := length x = 3 /\ exists a rest, words l = [a; text "="; text "("] ++ x ++ rest.
(** behind the first title stand the rows *)
Definition table {A} (title : pstr -> Prop) (row : pstr -> A -> Prop) (rows : list A) (lines : list pstr) : Prop :=
  exists before t body behind, lines = before ++ t :: body ++ behind /\ title t /\ (forall l, In l before -> ~ title l) /\ Forall2 row body rows.
(** the file ends in the table, some rows are missing *)
Definition broken_table {A} (title : pstr -> Prop) (row : pstr -> A -> Prop) (rows : list A) (t : pstr) (lines : list pstr) : Prop :=
  exists before body, lines = before ++ t :: body /\ title t /\ (forall l, In l before -> ~ title l) /\ Forall2 row body rows.
Definition says_nkpoints (lines : list pstr) (n : nat) : Prop :=
  exists a l b, lines = a ++ l :: b /\ (forall x, In x a -> ~ with_text (text "number of k points=") x) /\
    exists p g t, l = p ++ text "number of k points=" ++ g ++ show_int (Z.of_nat n) ++ t /\ (forall c, In c g -> c = " "%char) /\
      match t with [] => True | c :: _ => c = " "%char end /\ ~ with_text (text "points=") t.
(** "Time step             =   150.00 a.u.,  7.2567 femto-seconds" *)
Definition says_timestep (lines : list pstr) (x : pstr) : Prop :=
  exists a l b, lines = a ++ l :: b /\ (forall y, In y a -> ~ texts_in_order [text "Time"; text "step"] y) /\
    exists p q g1 g2 g3 t, l = p ++ text "Time" ++ q ++ text "step" ++ g1 ++ text "=" ++ g2 ++ x ++ g3 ++ text "a.u." ++ t /\
      blanks g1 /\ blanks g2 /\ blanks g3 /\ x <> [] /\ (forall c, In c x -> In c (text "0123456789.")) /\ (forall c, In c t -> ~ In c (text "apu")).

(** Lines of a run: the end of a self-consistent cycle, kinetic energy, temperature *)
Inductive line := Plain | Converged (n : nat) | Ekin (e : pstr) | Temp (start : bool) (t : pstr) | VcMd (e t c : pstr).
Inductive sign := SConv | SEkin | STemp | SVc.
Definition carries (s : sign) (l : pstr) : Prop :=
  match s with
  | SConv => with_text (text "convergence has been achieved in") l
  | SEkin => with_text (text "kinetic energy") l
  | STemp => exists p g q, (forall c, In c g -> c = " "%char) /\ l = p ++ text "temperature" ++ g ++ text "=" ++ q
  | SVc => texts_in_order [text "Ekin"; text "T"; text "Etot"] l
  end.
Definition just (s : sign) (l : pstr) : Prop := carries s l /\ forall s', carries s' l -> s' = s.
Definition shows (x : line) (l : pstr) : Prop :=
  match x with
  | Plain => forall s, ~ carries s l
  | Converged n => just SConv l /\ texts_in_order [text "convergence has been achieved in"; text "iterations"] l /\ words l = [text "convergence"; text "has"; text "been"; text "achieved"; text "in"; show_int (Z.of_nat n); text "iterations"]
  | Ekin e => just SEkin l /\ words l = [text "kinetic"; text "energy"; text "(Ekin)"; text "="; e; text "Ry"]
  | Temp start t => just STemp l /\ t <> [] /\ (forall c, In c t -> In c (text "0123456789.")) /\
      exists p g1 g2 g3 q, l = p ++ (if start then text "Starting " else []) ++ text "temperature" ++ g1 ++ text "=" ++ g2 ++ t ++ g3 ++ text "K" ++ q /\
        (forall c, In c (p ++ g1 ++ g2 ++ g3 ++ q) -> c = " "%char)
  | VcMd e t c => just SVc l /\ exists rest, words l = [text "Ekin"; text "="; e; text "Ry"; text "T"; text "="; t; text "K"; text "Etot"; text "="; c] ++ rest
  end.
Definition run_file (xs : list line) (lines : list pstr) : Prop := Forall2 shows xs lines.
Definition cycles := flat_map (fun x => match x with Converged n => [n] | _ => [] end).
Definition kinetic := flat_map (fun x => match x with Ekin e => [e] | _ => [] end).
Definition temperatures := flat_map (fun x => match x with Temp _ t => [t] | _ => [] end).
Definition vc_lines := flat_map (fun x => match x with VcMd e t c => [(e, t, c)] | _ => [] end).
Definition of_interest := List.filter (fun x => match x with Ekin _ => true | Temp _ _ => true | _ => false end).
(** An MD run with a starting temperature t0: it is printed once before the first step; each step
    prints its kinetic energy and its temperature. *)
Definition md_lines (t0 : pstr) (steps : list (pstr * pstr)) (xs : list line) : Prop :=
  of_interest xs = Temp true t0 :: flat_map (fun s => [Ekin (fst s); Temp false (snd s)]) steps.
Definition md_lines_free (steps : list (pstr * pstr)) (xs : list line) : Prop :=
  of_interest xs = flat_map (fun s => [Ekin (fst s); Temp false (snd s)]) steps.
