(** Model of slicetake, sliceput, extend_array and sum, /repo/src/pwtools/num.py:419-725, on
    arrays of any dimension.  numpy's basic indexing, repeat and sum along one axis are modelled
    from their documentation.  Views and copies are not distinguished. *)
From Coq Require Import List ZArith Bool Arith.
From Verif Require Import Traj.
Import ListNotations.

(** An array: its shape and its elements by index; indices outside the shape do not matter *)
Record arr A := Array { shape : list nat; at_ : list nat -> A }.
Arguments Array {A}. Arguments shape {A}. Arguments at_ {A}.
(** all indices of a shape, last axis fastest *)
Fixpoint indices (sh : list nat) : list (list nat) :=
  match sh with [] => [[]] | n :: sh => flat_map (fun i => map (cons i) (indices sh)) (seq 0 n) end.

(** Items of an index: slice object, integer, numpy.newaxis *)
Inductive item := ISlice (s : slice) | IInt (z : Z) | INew.
Definition full : item := ISlice (Slice None None None).          (* slice(None) *)
(** a[(item, item, ...)]: the shape of the result and where its elements come from *)
Fixpoint view (items : list item) (sh : list nat) : option (list nat * (list nat -> list nat)) :=
  match items, sh with
  | [], _ => Some (sh, fun i => i)
  | INew :: items, _ =>
    match view items sh with Some (sh', f) => Some (1 :: sh', fun i => f (tl i)) | None => None end
  | ISlice s :: items, n :: sh =>
    match slice_indices s (Z.of_nat n), view items sh with
    | Some (a, b, d), Some (sh', f) =>
      Some (range_len a b d :: sh', fun i => Z.to_nat (a + Z.of_nat (hd 0 i) * d) :: f (tl i))
    | _, _ => None
    end
  | IInt z :: items, n :: sh =>
    if ((- Z.of_nat n <=? z) && (z <? Z.of_nat n))%Z then
      match view items sh with
      | Some (sh', f) => Some (sh', fun i => Z.to_nat (if (z <? 0)%Z then z + Z.of_nat n else z) :: f i)
      | None => None
      end
    else None
  | _ :: _, [] => None
  end.
Definition getitem {A} (a : arr A) (items : list item) : option (arr A) :=
  match view items (shape a) with Some (sh, f) => Some (Array sh (fun i => at_ a (f i))) | None => None end.
(** Python: lst[i] = x; None is IndexError *)
Fixpoint replace {B} (k : nat) (x : B) (l : list B) : list B :=
  match l, k with [], _ => [] | _ :: l, 0 => x :: l | y :: l, S k => y :: replace k x l end.
Definition norm_axis (axis : Z) (n : nat) : option nat :=
  if ((- Z.of_nat n <=? axis) && (axis <? Z.of_nat n))%Z
  then Some (Z.to_nat (if (axis <? 0)%Z then axis + Z.of_nat n else axis)) else None.
Definition set_item {B} (l : list B) (i : Z) (x : B) : option (list B) :=
  match norm_axis i (List.length l) with Some k => Some (replace k x l) | None => None end.
(** 516-532; with axis=None [sl] is the tuple itself *)
Definition slicetake {A} (a : arr A) (sl : item) (axis : Z) : option (arr A) :=
  match set_item (repeat full (List.length (shape a))) axis sl with
  | Some items => getitem a items
  | None => None
  end.
Definition slicetake_all {A} (a : arr A) (sls : list item) : option (arr A) := getitem a sls.

(** a[tuple] = b, one element after the other; [b] has been broadcast by numpy to the shape of
    the selection *)
Definition idx_eqb (i j : list nat) : bool := if list_eq_dec Nat.eq_dec i j then true else false.
Definition setitem {A} (a : arr A) (items : list item) (b : list nat -> A) : option (arr A) :=
  match view items (shape a) with
  | None => None
  | Some (sh, f) =>
    Some (fold_left (fun a p => Array (shape a) (fun i => if idx_eqb (f p) i then b p else at_ a i)) (indices sh) a)
  end.
(** 566-577.  With axis the index is a list: numpy before 1.23 took it as a tuple, later versions
    raise IndexError. *)
Definition sliceput_all {A} (a : arr A) (b : list nat -> A) (sls : list item) : option (arr A) := setitem a sls b.
Definition sliceput {A} (list_is_tuple : bool) (a : arr A) (b : list nat -> A) (sl : item) (axis : Z) : option (arr A) :=
  match set_item (repeat full (List.length (shape a))) axis sl with
  | Some items => if list_is_tuple then setitem a items b else None
  | None => None
  end.

(** np.repeat(a, n, axis) *)
Definition np_repeat {A} (a : arr A) (n : nat) (axis : Z) : option (arr A) :=
  match norm_axis axis (List.length (shape a)) with
  | Some k => Some (Array (replace k (nth k (shape a) 0 * n) (shape a)) (fun i => at_ a (replace k (nth k i 0 / n) i)))
  | None => None
  end.
(** 633-641 *)
Definition extend_array {A} (a : arr A) (nstep : nat) (axis : Z) : option (arr A) :=
  let max_axis := List.length (shape a) in
  if ((-1 <=? axis) && (axis <=? Z.of_nat max_axis))%Z then
    match set_item (repeat full (S max_axis)) axis INew with
    | Some sl => match getitem a sl with Some a' => np_repeat a' nstep axis | None => None end
    | None => None
    end
  else None.

Section Sum.
Context {A : Type}.
Variables (zero : A) (add : A -> A -> A).
Definition total (l : list A) : A := fold_right add zero l.
Fixpoint insert {B} (k : nat) (x : B) (l : list B) : list B :=
  match k, l with 0, _ => x :: l | S k, y :: l => y :: insert k x l | S _, [] => [x] end.
Fixpoint remove {B} (k : nat) (l : list B) : list B :=
  match l, k with [], _ => [] | _ :: l, 0 => l | y :: l, S k => y :: remove k l end.
(** arr.sum(axis=axis) for an integer *)
Definition sum_axis (a : arr A) (axis : Z) : option (arr A) :=
  match norm_axis axis (List.length (shape a)) with
  | Some k => Some (Array (remove k (shape a)) (fun i => total (map (fun x => at_ a (insert k x i)) (seq 0 (nth k (shape a) 0)))))
  | None => None
  end.
(** _sum, 695-704; [fuel] is the number of axes, one is used up in every call *)
Fixpoint sum_rec (fuel : nat) (a : arr A) (tosum : list Z) : option (arr A) :=
  match tosum with
  | [] => Some a
  | axis :: tosum =>
    match fuel with
    | 0 => None
    | S fuel => match sum_axis a axis with
                | Some a' => sum_rec fuel a' (map (fun xx => if (axis <? xx)%Z then (xx - 1)%Z else xx) tosum)
                | None => None
                end
    end
  end.
Definition alldims (a : arr A) : list Z := map Z.of_nat (seq 0 (List.length (shape a))).
Inductive axes := ANone | AInt (z : Z) | ATuple (l : list Z).
(** 706-725; axis of another type raises *)
Definition sum (a : arr A) (axis : axes) (keepdims : bool) : option (arr A) :=
  match axis, keepdims with
  | ANone, true => None
  | ANone, false => Some (Array [] (fun _ => total (map (at_ a) (indices (shape a)))))
  | AInt z, false => sum_axis a z
  | _, _ =>
    let tosum := match axis with AInt z => [z] | ATuple l => l | ANone => [] end in
    let tosum := if keepdims then List.filter (fun xx => negb (existsb (Z.eqb xx) tosum)) (alldims a) else tosum in
    sum_rec (List.length tosum) a tosum
  end.
End Sum.
