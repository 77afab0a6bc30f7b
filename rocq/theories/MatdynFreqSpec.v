(** Frequency files of matdyn.x, for C83. *)
From Coq Require Import Ascii String List Arith ZArith.
From Verif Require Import Comb ArrayIO.
Import ListNotations.
Local Open Scope list_scope.

Definition blank (g : pstr) : Prop := forall c, In c g -> is_space c = true.
Definition inline_blank (g : pstr) : Prop := forall c, In c g -> is_space c = true /\ c <> "010"%char.
(** "&plot nbnd= 6, nks= 101 /" with any blanks *)
Definition header_line (h : pstr) (nbnd nks : nat) : Prop :=
  exists pre b g1 g2 g3 g4 g5 g6 g7 post,
    h = pre ++ b :: text "nbnd" ++ g1 ++ text "=" ++ g2 ++ show_int (Z.of_nat nbnd) ++ g3 ++ text "," ++ g4 ++ text "nks" ++ g5 ++ text "=" ++ g6 ++ show_int (Z.of_nat nks) ++ g7 ++ text "/" ++ post /\
    ~ In "010"%char pre /\ inline_blank [b] /\ inline_blank g1 /\ inline_blank g2 /\ inline_blank g3 /\ inline_blank g4 /\ inline_blank g5 /\ inline_blank g6 /\ inline_blank g7 /\ blank post.
(** The words of the lines after the header, whatever the number of words per line. *)
Definition words_of (lines : list pstr) : list pstr := concat (map (split_ws []) lines).
(** [n] points of three coordinates and [nbnd] frequencies, one after the other. *)
Definition points {A} (nbnd : nat) (pts : list (list A * list A)) (items : list A) : Prop :=
  Forall (fun kf => length (fst kf) = 3 /\ length (snd kf) = nbnd) pts /\ items = concat (map (fun kf => fst kf ++ snd kf) pts).
