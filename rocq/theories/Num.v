(** Models of small functions of /repo/src/pwtools/num.py: vlinspace 48-74, norm_int 77-111,
    DataND 1032-1106, match_mask 1600-1662, order_similar 1665-1753,
    round_up_next_multiple 1756-1762, euler_matrix 1790-1839.  Real arithmetic instead of
    floating point. *)
From Coq Require Import List ZArith Reals Bool Arith.
From Verif Require Import Vec3 Nd.
Close Scope R_scope.
Import ListNotations.

(** ** match_mask; [m a v] is arr[i] - values[j] == 0, or |arr[i] - values[j]| < eps *)
Section Match.
Context {A B : Type}.
Variable m : A -> B -> bool.
(** np.unique of a list of integers: insertion into a strictly increasing list *)
Fixpoint insert_u (k : nat) (l : list nat) : list nat :=
  match l with [] => [k] | x :: l' => if k <? x then k :: l else if k =? x then l else x :: insert_u k l' end.
Definition unique (l : list nat) : list nat := fold_right insert_u [] l.
(** (matrix values x arr).nonzero()[1]: row by row the columns that match *)
Definition nonzero1 (arr : list A) (values : list B) : list nat :=
  flat_map (fun v => map fst (List.filter (fun p => m (snd p) v) (combine (seq 0 (List.length arr)) arr))) values.
Definition idx_lst (arr : list A) (values : list B) : list nat := unique (nonzero1 arr values).
(** ret = zeros; ret.put(idx_lst, True) *)
Definition put_true (n : nat) (l : list nat) : list bool := fold_left (fun ret k => replace k true ret) l (repeat false n).
Definition match_mask (arr : list A) (values : list B) : list bool * list nat :=
  let idx := idx_lst arr values in (put_true (List.length arr) idx, idx).
End Match.
(** arr[mask] *)
Definition take_mask {A} (arr : list A) (mask : list bool) : list A := map fst (List.filter snd (combine arr mask)).

(** ** round_up_next_multiple; None is ZeroDivisionError *)
Definition round_up_next_multiple (x mult : Z) : option Z :=
  if (mult =? 0)%Z then None else
  let rem := (x mod mult)%Z in
  Some (if (0 <? rem)%Z then (x - rem + mult)%Z else x).

(** ** DataND: a2 is the list of its rows, columns of integers (any ordered numbers) and value *)
Section Data.
Context {A : Type}.
Fixpoint insert_z (k : Z) (l : list Z) : list Z :=
  match l with [] => [k] | x :: l' => if (k <? x)%Z then k :: l else if (k =? x)%Z then l else x :: insert_z k l' end.
Definition unique_z (l : list Z) : list Z := fold_right insert_z [] l.
Definition col (a2 : list (list Z * A)) (j : nat) : list Z := map (fun r => nth j (fst r) 0%Z) a2.
(** [ncol] columns; [e] is what np.empty returned.  None: AssertionError *)
Definition a2_to_an (ncol : nat) (e : list nat -> A) (a2 : list (list Z * A)) : option (arr A * list (list Z)) :=
  let axes := map (fun j => unique_z (col a2 j)) (seq 0 ncol) in
  let dims := map (@List.length Z) axes in
  if fold_right Nat.mul 1 dims =? List.length a2 then
    let an := fold_left (fun an p => fun i => if idx_eqb (fst p) i then snd p else an i)
                        (combine (indices dims) (map snd a2)) e in
    Some (Array dims an, axes)
  else None.
End Data.

Local Open Scope R_scope.
(** ** vlinspace; rows of the result.  None: AssertionError *)
Definition map2 {A B C} (f : A -> B -> C) (l : list A) (l' : list B) : list C := map (fun p => f (fst p) (snd p)) (combine l l').
Fixpoint cumsum (acc : list R) (rows : list (list R)) : list (list R) :=
  match rows with [] => [] | r :: rows => let s := map2 Rplus acc r in s :: cumsum s rows end.
Definition vlinspace (a b : list R) (num : nat) (endpoint : bool) : option (list (list R)) :=
  if negb (Nat.eqb (List.length a) (List.length b)) then None else
  match num with
  | O => None
  | S n =>
    let dv := map2 Rminus b a in
    let ddv := if endpoint then (if Nat.eqb num 1 then map (fun _ => 0) dv else map (fun d => d / INR n) dv)
               else map (fun d => d / INR num) dv in
    Some (cumsum (map (fun _ => 0) a) (a :: repeat ddv n))
  end.

(** ** norm_int; [func y x] integrates *)
Definition maxabs (l : list R) : R := fold_right (fun x m => Rmax (Rabs x) m) 0 l.
Definition norm_int (func : list R -> list R -> R) (y x : list R) (area : R) (scale : bool) : list R :=
  let fx := if scale then maxabs x else 1 in let fy := if scale then maxabs y else 1 in
  let sx := if scale then map (fun v => v / fx) x else x in let sy := if scale then map (fun v => v / fy) y else y in
  let _area := func sy sx * fx * fy in
  map (fun v => v * area / _area) y.
(** scipy's trapz *)
Fixpoint trapz (y x : list R) : R :=
  match y, x with
  | y0 :: ((y1 :: _) as y'), x0 :: ((x1 :: _) as x') => (x1 - x0) * (y0 + y1) / 2 + trapz y' x'
  | _, _ => 0
  end.

(** ** order_similar *)
Fixpoint argmin_from (best : R) (bi i : nat) (l : list R) : nat :=
  match l with [] => bi | x :: l => if Rlt_dec x best then argmin_from x i (S i) l else argmin_from best bi (S i) l end.
(** index of the first smallest element *)
Definition argmin (l : list R) : nat := match l with [] => O | x :: l => argmin_from x 0 1 l end.
(** [done]: rows of arr2 already filled, last one first (row ii is its head); [ref] is the variable
    ref, which keeps its value when no branch applies *)
Definition new_ref (order : nat) (ii : nat) (done : list (list R)) (jj : nat) (ref : R) : R :=
  let at_ k := nth jj (nth k done []) 0 in
  if Nat.eqb ii 0 then at_ 0%nat
  else if Nat.eqb ii 1 && (1 <=? order)%nat then 2 * at_ 0%nat - at_ 1%nat
  else if (2 <=? ii)%nat && Nat.eqb order 2 then at_ 2%nat - 3 * at_ 1%nat + 3 * at_ 0%nat (* parabola through the last 3 points, at the next *)
  else ref.
Fixpoint row_loop (order ii : nat) (done : list (list R)) (next : list R) (jjs : list nat) (ref : R) (acc : list R) : list R * R :=
  match jjs with
  | [] => (acc, ref)
  | jj :: jjs => let ref := new_ref order ii done jj ref in
                 row_loop order ii done next jjs ref (acc ++ [nth (argmin (map (fun x => Rabs (x - ref)) next)) next 0])
  end.
Fixpoint rows_loop (order nj ii : nat) (done : list (list R)) (rest : list (list R)) (ref : R) : list (list R) :=
  match rest with
  | [] => rev done
  | next :: rest => let (row, ref) := row_loop order ii done next (seq 0 nj) ref [] in
                    rows_loop order nj (S ii) (row :: done) rest ref
  end.
(** before the first assignment [ref] is undefined; row 0 always assigns it *)
Fixpoint order_similar (arr : list (list R)) (repeat order : nat) : option (list (list R)) :=
  if (2 <? order)%nat then None else
  match repeat with
  | O => None
  | S O => match arr with [] => None | r0 :: rest => Some (rows_loop order (List.length r0) 0 [r0] rest 0) end
  | S repeat' => order_similar arr repeat' 2
  end.

(** ** euler_matrix; None: AssertionError *)
Definition matmul (m n : mat) : mat := Mat (vecmat (ra m) n) (vecmat (rb m) n) (vecmat (rc m) n).
Definition euler_matrix (phi theta psi : R) (deg : bool) : option mat :=
  let phi := if deg then phi * PI / 180 else phi in let theta := if deg then theta * PI / 180 else theta in
  let psi := if deg then psi * PI / 180 else psi in
  if Rle_dec (Rabs phi) (2 * PI) then if Rle_dec (Rabs theta) PI then if Rle_dec (Rabs psi) (2 * PI) then
    let D := Mat (Vec (cos phi) (sin phi) 0) (Vec (- sin phi) (cos phi) 0) (Vec 0 0 1) in
    let C := Mat (Vec 1 0 0) (Vec 0 (cos theta) (sin theta)) (Vec 0 (- sin theta) (cos theta)) in
    let B := Mat (Vec (cos psi) (sin psi) 0) (Vec (- sin psi) (cos psi) 0) (Vec 0 0 1) in
    Some (matmul B (matmul C D))
  else None else None else None.
