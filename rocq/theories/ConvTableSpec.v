(** Words for C92 *)
From Coq Require Import Ascii List Reals.
From Verif Require Import Comb ConvTable.
Import ListNotations.
Local Open Scope list_scope.
Local Open Scope R_scope.
Local Notation length := List.length.

Definition params (yy : data) : list (list R) := match yy with One l => [l] | Many rows => rows end.
(** what is printed in line i for a parameter with values l: the distance to the next or last value *)
Definition step (m : mode) (l : list R) (i : nat) : R :=
  match m with Last => nth (length l - 1) l 0 - nth i l 0 | _ => if Nat.ltb (S i) (length l) then nth (S i) l 0 - nth i l 0 else 0 end.
Definition shown (m : mode) (absdiff : bool) (l : list R) (i : nat) : R := if absdiff then Rabs (step m l i) else step m l i.
(** line i: x, then for each parameter the difference, followed by the value if orig *)
Definition row {X} (sfmt : X -> pstr) (ffmt : R -> pstr) (m : mode) (orig absdiff : bool) (ps : list (list R)) (x : X) (i : nat) : pstr :=
  sfmt x ++ concat (map (fun l => if orig then ffmt (shown m absdiff l i) ++ ffmt (nth i l 0) else ffmt (shown m absdiff l i)) ps) ++ ["010"%char].
(** n values of every parameter *)
Definition values (yy : data) (n : nat) : Prop := (0 < n)%nat /\ params yy <> [] /\ forall l, In l (params yy) -> length l = n.
(** number of lines of a text *)
Definition newlines (s : pstr) : nat := count_occ ascii_dec s "010"%char.
Fixpoint rsum (f : nat -> R) (n : nat) : R := match n with O => 0 | S k => rsum f k + f k end.
