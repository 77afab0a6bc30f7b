(** Model of pad_zeros, /repo/src/pwtools/signal.py:208-297, on arrays of any dimension. *)
From Coq Require Import List ZArith Bool Arith String.
From Verif Require Import Traj Nd.
Import ListNotations.
Local Open Scope Z_scope.

Section Pad.
Context {A : Type}.
Variable zero : A.

(** np.zeros(shape); negative dimensions raise *)
Definition zeros (sh : list Z) : option (arr A) :=
  if forallb (fun n => 0 <=? n) sh then Some (Array (map Z.to_nat sh) (fun _ => zero)) else None.
(** np.concatenate((a, b), axis): the shapes must agree on all other axes *)
Definition concatenate (a b : arr A) (axis : Z) : option (arr A) :=
  match norm_axis axis (List.length (shape a)) with
  | None => None
  | Some k =>
    if list_eq_dec Nat.eq_dec (remove k (shape a)) (remove k (shape b)) then
      let n := nth k (shape a) 0%nat in
      Some (Array (replace k (n + nth k (shape b) 0)%nat (shape a))
                  (fun i => if (nth k i 0 <? n)%nat then at_ a i else at_ b (replace k (nth k i 0 - n)%nat i)))
    else None
  end.
(** arr.shape[axis]; None is IndexError *)
Definition shape_at (a : arr A) (axis : Z) : option Z :=
  match norm_axis axis (List.length (shape a)) with Some k => Some (Z.of_nat (nth k (shape a) 0%nat)) | None => None end.

(** 270: 2**np.arange(30) *)
Definition two_powers : list Z := map (fun e => 2 ^ Z.of_nat e) (seq 0 30).
(** np.searchsorted(l, x) of an ascending list: the number of smaller elements *)
Definition searchsorted (l : list Z) (x : Z) : nat := List.length (List.filter (fun y => y <? x) l).

Definition is_none {B} (o : option B) : bool := match o with None => true | Some _ => false end.
(** 259-278: the number of zeros to add *)
Definition pad_count (a : arr A) (axis : Z) (nadd upto : option Z) (tonext : option bool) (tonext_min : option Z) : option Z :=
  let tonext := match tonext with Some false => None | _ => tonext end in
  let nones := (Nat.b2n (is_none nadd) + Nat.b2n (is_none upto) + Nat.b2n (is_none tonext))%nat in
  if negb ((nones =? 2) || (nones =? 3))%nat then None else                         (* assert *)
  match nadd with
  | Some z => Some z
  | None =>
    match upto with
    | Some u => match shape_at a axis with Some n => Some (u - n) | None => None end
    | None =>
      match tonext with
      | None | Some false => shape_at a axis
      | Some true =>
        match (match tonext_min with None => shape_at a axis | Some m => Some m end) with
        | None => None
        | Some m =>
          if negb (m <=? 2 ^ 29) then None else                                     (* assert *)
          match nth_error two_powers (searchsorted two_powers m), shape_at a axis with
          | Some power, Some n => Some (power - n)
          | _, _ => None
          end
        end
      end
    end
  end.

(** 279-290 *)
Definition pad_zeros (a : arr A) (axis : Z) (where_ : string) (nadd upto : option Z) (tonext : option bool)
    (tonext_min : option Z) : option (arr A) :=
  match pad_count a axis nadd upto tonext tonext_min with
  | None => None
  | Some nadd =>
    if nadd =? 0 then Some a else
    match set_item (map Z.of_nat (shape a)) axis nadd with
    | None => None
    | Some add_shape =>
      if (where_ =? "end")%string then
        match zeros add_shape with Some z => concatenate a z axis | None => None end
      else if (where_ =? "start")%string then
        match zeros add_shape with Some z => concatenate z a axis | None => None end
      else None
    end
  end.
End Pad.
