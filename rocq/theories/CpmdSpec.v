(** What CPMD writes, for C87. *)
From Coq Require Import Ascii String List Arith Reals.
From Verif Require Import Comb Template ArrayIO PwOutSpec Cp2kSpec.
Import ListNotations.
Local Open Scope list_scope.
Local Notation length := List.length.

(** ** GEOMETRY: lines of words with blanks around them *)
Definition bare (w : pstr) : Prop := w <> [] /\ forall c, In c w -> is_space c = false.
Inductive spaced : list pstr -> pstr -> Prop :=
| sp_nil g : spaces g -> spaced [] g
| sp_one g w : spaces g -> bare w -> spaced [w] (g ++ w)
| sp_cons g w ws t : spaces g -> bare w -> spaced ws t -> spaced (w :: ws) (g ++ w ++ " "%char :: t).
Definition ends_in_digit (w : pstr) : Prop := exists p d, w = p ++ [d] /\ In d (text "0123456789").
(** a position and a velocity; lines of the cell, or text, which have four words at most *)
Definition geo_atom (l : pstr) : Prop := exists ws, spaced ws l /\ length ws = 6 /\ Forall ends_in_digit ws.
Definition geo_other (l : pstr) : Prop := exists ws, spaced ws l /\ length ws <= 4.
Inductive geometry : nat -> list pstr -> Prop :=
| geo_nil : geometry 0 []
| geo_a n l ls : geo_atom l -> geometry n ls -> geometry (S n) (l :: ls)
| geo_o n l ls : geo_other l -> geometry n ls -> geometry n (l :: ls).

(** ** The last block: a heading that does not come again, and the [n] lines behind it *)
Definition last_block (head : pstr -> Prop) (n : nat) (lines rows : list pstr) : Prop :=
  exists pre h post, lines = pre ++ h :: rows ++ post /\ head h /\ length rows = n /\ forall l, In l (rows ++ post) -> ~ head l.
(** rows of GEOMETRY.scale: "0.3 0.6 -0.1 Al 1" *)
Definition scale_row (l : pstr) (a : pstr * list pstr) : Prop := length (snd a) = 3 /\ exists i, words l = snd a ++ [fst a; i].
(** "   ATOM          COORDINATES            GRADIENTS (-FORCES)" and rows "1 Al x y z fx fy fz" *)
Definition grad_head (l : pstr) : Prop :=
  exists p g1 g2 q, blanks g1 /\ blanks g2 /\ l = p ++ text "ATOM" ++ g1 ++ text "COORDINATES" ++ g2 ++ text "GRADIENTS" ++ q.
Definition grad_row (l : pstr) (xg : list pstr * list pstr) : Prop :=
  length (fst xg) = 3 /\ length (snd xg) = 3 /\ exists i s, words l = i :: s :: fst xg ++ snd xg.

(** ** ENERGIES: the columns depend on the kind of run *)
Record step := Step { nfi : R; ekinc : R; ekinh : R; tempp : R; eks : R; eclassic : R; eham : R; dis : R; tcpu : R }.
Inductive kind := VariableCell | FixedCell | Lanczos.
Definition columns (k : kind) (s : step) : list R :=
  match k with
  | VariableCell => [nfi s; ekinc s; ekinh s; tempp s; eks s; eclassic s; eham s; dis s; tcpu s]
  | FixedCell => [nfi s; ekinc s; tempp s; eks s; eclassic s; eham s; dis s; tcpu s]
  | Lanczos => [nfi s; tempp s; eks s; eclassic s; dis s; tcpu s]
  end.

(** ** TRAJECTORY, FTRAJECTORY: rows of numbers, and lines from restarts *)
Inductive traj_file : list (list pstr) -> list pstr -> Prop :=
| tf_nil : traj_file [] []
| tf_row l r rows ls : words l = r -> r <> [] -> ~ with_text (text "<<<<") l -> traj_file rows ls -> traj_file (r :: rows) (l :: ls)
| tf_new g t rows ls : spaces g -> traj_file rows ls -> traj_file rows ((g ++ text "<<<<" ++ t) :: ls).
(** an atom at one step *)
Record arow := ARow { a_step : R; a_x : list R; a_v : list R; a_f : list R }.
Definition arow_numbers (r : arow) : list R := a_step r :: a_x r ++ a_v r ++ a_f r.
Definition arow_ok (nf : nat) (r : arow) : Prop := length (a_x r) = 3 /\ length (a_v r) = 3 /\ length (a_f r) = nf.

(** ** CELL, STRESS: blocks of a heading and three rows, of at least three numbers *)
Definition block_lines (key word_ : pstr) (ncols : nat) (rows : list (list pstr)) (ls : list pstr) : Prop :=
  exists h rest, ls = h :: rest /\ with_text key h /\ length rows = 3 /\
    Forall2 (fun l r => words l = r /\ length r = ncols /\ ~ with_text word_ l) rest rows.
Definition block_file (key word_ : pstr) (ncols : nat) (steps : list (list (list pstr))) (lines : list pstr) : Prop :=
  exists lss, Forall2 (block_lines key word_ ncols) steps lss /\ lines = concat lss.
