(** Model of mix, /repo/src/pwtools/crys.py:3230-3269, over the real numbers.
    Arrays are lists of lists; empty arrays need no care as no axis is reduced. *)
From Coq Require Import List String Reals Bool.
Import ListNotations.
Open Scope R_scope.

Record struct := Struct { coords : list (list R); cell : list (list R); symbols : list string; forces : option (list (list R)) }.
Record traj := Traj { tcoords : list (list (list R)); tcell : list (list (list R)); tsymbols : list string;
                      tforces : option (list (list (list R))) }.
(** Elementwise operation of two arrays of the same shape; numpy raises (or
    broadcasts) when the shapes differ: None. *)
Fixpoint map2 {A B C} (f : A -> B -> option C) (l : list A) (l' : list B) : option (list C) :=
  match l, l' with
  | [], [] => Some []
  | x :: l, y :: l' => match f x y, map2 f l l' with Some z, Some r => Some (z :: r) | _, _ => None end
  | _, _ => None
  end.
Definition elementwise (f : R -> R -> R) : list (list R) -> list (list R) -> option (list (list R)) :=
  map2 (map2 (fun x y => Some (f x y))).
Fixpoint all {A B} (f : A -> option B) (l : list A) : option (list B) :=
  match l with
  | [] => Some []
  | x :: l => match f x, all f l with Some z, Some r => Some (z :: r) | _, _ => None end
  end.
(** rr * x2[None,:,:] + (1.0 - rr) * x1[None,:,:] with rr = alpha[:,None,None] *)
Definition blend (alpha : list R) (x1 x2 : list (list R)) : option (list (list (list R))) :=
  all (fun rr => elementwise (fun u v => rr * v + (1 - rr) * u) x1 x2) alpha.
(** coords.shape == coords.shape, 3257: every row of coords has three entries *)
Definition same_shape (x y : list (list R)) : bool := Nat.eqb (List.length x) (List.length y).
Definition mix (st1 st2 : struct) (alpha : list R) : option traj :=
  if negb (same_shape (coords st1) (coords st2)) then None else                       (* 3257 *)
  if negb (if list_eq_dec string_dec (symbols st1) (symbols st2) then true else false) then None else   (* 3258 *)
  match blend alpha (coords st1) (coords st2), blend alpha (cell st1) (cell st2) with  (* 3259-3263 *)
  | Some c, Some h =>
    match forces st1, forces st2 with                                                  (* 3264-3269 *)
    | Some f1, Some f2 => match blend alpha f1 f2 with
                          | Some f => Some (Traj c h (symbols st1) (Some f))
                          | None => None
                          end
    | _, _ => Some (Traj c h (symbols st1) None)
    end
  | _, _ => None
  end.
(** tr.nstep of the new trajectory *)
Definition nstep (tr : traj) : nat := List.length (tcoords tr).
