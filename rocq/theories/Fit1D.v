(** Fit1D and Spline, /repo/src/pwtools/num.py 160-416. Real arithmetic stands for floats. None is
    an exception. The root finders and splrep of scipy are parameters. Simplified: derivatives of
    any order can be asked for (splev refuses orders above the degree). *)
From Coq Require Import List Reals ZArith Bool Arith.
Import ListNotations.
Local Open Scope list_scope.
Local Open Scope R_scope.
Local Notation length := List.length.

(** an object: its data and its __call__(x, der=n) *)
Record fit := Fit { fx : list R; fy : list R; at_ : nat -> R -> R }.
Section FIT.
(** scipy.optimize.brentq(func, a, b), newton(func, x0); splrep(x, y) followed by splev(x, der=n) *)
Variable brentq : (R -> R) -> R -> R -> option R.
Variable newton : (R -> R) -> R -> option R.
Variable splrep : list R -> list R -> option (nat -> R -> R).
(** _findroot 220-249 *)
Definition findroot_ (s : fit) (func : R -> R) (x0 : option R) (xab : option (R * R)) : option R :=
  match x0 with
  | Some x => newton func x
  | None =>
    match xab with
    | Some ab => brentq func (fst ab) (snd ab)
    | None => match fx s with a :: _ => brentq func a (last (fx s) 0) | [] => None end
    end
  end.
(** np.sign, np.diff, is_mono 251-255 *)
Definition sign (x : R) : Z := if Rlt_dec 0 x then 1%Z else if Rlt_dec x 0 then (-1)%Z else 0%Z.
Definition diff {A} (sub : A -> A -> A) (l : list A) : list A := map (fun ab => sub (snd ab) (fst ab)) (combine l (tl l)).
Definition is_mono (s : fit) : bool := forallb (fun d => Z.eqb d 0) (diff Z.sub (map sign (diff Rminus (map (at_ s 0) (fx s))))).
(** get_min 257-273, get_max 275-280, get_root 282-296 *)
Definition get_min (s : fit) (x0 : option R) (xab : option (R * R)) : option R := findroot_ s (at_ s 1) x0 xab.
Definition get_max (s : fit) (x0 : option R) (xab : option (R * R)) : option R := findroot_ s (fun x => - at_ s 1 x) x0 xab.
Definition get_root (s : fit) (x0 : option R) (xab : option (R * R)) : option R := findroot_ s (at_ s 0) x0 xab.
(** Spline.__init__ 332-360; splrep refuses arrays of different length *)
Definition spline (x y : list R) (eps : R) (checkeps : bool) : option fit :=
  if forallb (fun d => if Rle_dec 0 d then true else false) (diff Rminus x) then
    if (length x =? length y)%nat then
      match splrep x y with
      | None => None
      | Some f =>
        if checkeps && negb (forallb (fun xy => if Rlt_dec (Rabs (f 0%nat (fst xy) - snd xy)) eps then true else false) (combine x y)) then None
        else Some (Fit x y f)
      end
    else None
  else None.
(** invsplev 377-416; min() of an empty array raises *)
Definition invsplev (s : fit) (y0 : R) (x0 : option R) (xab : option (R * R)) : option R :=
  match fy s with
  | [] => None
  | y :: t =>
    if Rle_dec (fold_left Rmin t y) y0 then
      if Rle_dec y0 (fold_left Rmax t y) then findroot_ s (fun x => at_ s 0 x - y0) x0 xab else None
    else None
  end.
(** findmin 160-179, findroot 182-201 *)
Definition findmin (x y : list R) : option (R * R) :=
  match spline x y (/ 10 ^ 10) true with
  | Some s => match get_min s None None with Some x0 => Some (x0, at_ s 0 x0) | None => None end
  | None => None
  end.
Definition findroot (x y : list R) : option (R * R) :=
  match spline x y (/ 10 ^ 10) true with
  | Some s => match get_root s None None with Some x0 => Some (x0, at_ s 0 x0) | None => None end
  | None => None
  end.
End FIT.
