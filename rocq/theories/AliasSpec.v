(** What a user sees of an object, and what it means that objects are independent *)
From Coq Require Import List String Reals.
From Verif Require Import Traj Alias.
Import ListNotations.
Local Notation length := List.length.

(** numbers (or texts) in an attribute, with the shape *)
Definition seen (h : heap) (o : object) (n : string) : option (list item * list nat) :=
  match get o n with None => None | Some (Imm x) => Some ([x], []) | Some (Mut v) => Some (contents h v, dims v) end.
(** all arrays of an object are in memory *)
Definition in_memory (h : heap) (o : object) : Prop := forall n v, In (n, Mut v) (attrs o) -> buf v < length h.
(** no attribute twice *)
Definition regular (o : object) : Prop := NoDup (map fst (attrs o)).
(** an array as numpy makes it: in memory, no element twice, as many elements as the shape says *)
Definition proper (h : heap) (v : view) : Prop :=
  buf v < length h /\ (forall p, In p (offs v) -> p < length (buffer h (buf v))) /\ NoDup (offs v) /\ length (offs v) = fold_right Nat.mul 1 (dims v).
(** nothing that was in memory has changed *)
Definition untouched (h h' : heap) : Prop := forall o, in_memory h o -> in_memory h' o /\ forall n, seen h' o n = seen h o n.
(** at any point of any history of changes of both objects, a change of one is not seen in the other *)
Definition independent (wrap : R -> R) (cart : list item -> list item -> list item) (cast : R -> R) (h : heap) (a b : object) : Prop :=
  forall history h1 a1 b1 c, run2 wrap cart cast history (h, a, b) = (h1, a1, b1) ->
    (forall n, seen (fst (perform wrap cart cast c (h1, b1))) a1 n = seen h1 a1 n) /\
    (forall n, seen (fst (perform wrap cart cast c (h1, a1))) b1 n = seen h1 b1 n).
(** the unit of an attribute *)
Definition unit_of (u : string -> R) (n : string) : R :=
  (if mem n ["cell"; "coords"; "abc"] then u "length" else if mem n ["etot"; "ekin"] then u "energy" else if String.eqb n "stress" then u "stress"
   else if String.eqb n "forces" then u "forces" else if String.eqb n "temperature" then u "temperature" else if String.eqb n "velocity" then u "velocity"
   else if String.eqb n "timestep" then u "time" else 1%R)%string.

(** a number times f; texts stay *)
Definition scaled_by (f : R) (i : item) : item := match i with Num x => Num (x * f)%R | Txt s => Txt s end.
(** rows of a, b, c, alpha, beta, gamma: the lengths times f, the angles as they were *)
Definition lengths_times (f : R) (l l' : list item) : Prop :=
  forall row col, col < 6 -> nth_error l' (6 * row + col) = match nth_error l (6 * row + col) with Some x => Some (if Nat.ltb col 3 then scaled_by f x else x) | None => None end.
