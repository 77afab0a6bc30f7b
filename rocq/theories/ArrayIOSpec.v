(** Numbers as text, and comparing arrays. *)
From Coq Require Import Ascii String List Bool Arith ZArith.
From Verif Require Import Comb Nd NdSpec.
Import ListNotations.
Local Open Scope nat_scope.
Local Open Scope list_scope.

(** The text of a number is one word and can be read back.  For binary64, "%.18e" and float()
    are such a pair: 19 significant digits determine the number. *)
Definition readable {A} (fmt : A -> pstr) (parse : pstr -> option A) : Prop :=
  forall x, parse (fmt x) = Some x /\ fmt x <> [] /\ forall c, In c (fmt x) -> is_space c = false /\ c <> "#"%char.

Definition same {A} (a b : arr A) : Prop := shape a = shape b /\ forall i, index_of (shape a) i -> at_ a i = at_ b i.
(** without the axes of length 1 *)
Definition squeezed (sh : list nat) : list nat := List.filter (fun n => negb (n =? 1)) sh.
Definition squeezed_index (sh i : list nat) : list nat := map snd (List.filter (fun p => negb (fst p =? 1)) (combine sh i)).
Definition same_squeezed {A} (a r : arr A) : Prop :=
  shape r = squeezed (shape a) /\ forall i, index_of (shape a) i -> at_ r (squeezed_index (shape a) i) = at_ a i.
(** rows and columns of the text of a 3d array cut along axis [k] *)
Definition text_rows (sh : list nat) (k : nat) : nat := nth 0 (remove k sh) 0 * nth k sh 0.
Definition text_cols (sh : list nat) (k : nat) : nat := nth 1 (remove k sh) 0.
(** The reader gets shape and axis from the header, from its arguments, or one from each. *)
Definition source_info (sh : list nat) (axis : Z) (header : bool) (ax : option Z) (s : option (list Z)) : Prop :=
  (header = true /\ (ax = None \/ ax = Some axis) /\ (s = None \/ s = Some (map Z.of_nat sh))) \/ (ax = Some axis /\ s = Some (map Z.of_nat sh)).
