(** The classes PolyFit, PolyFit1D and Interpol2D (what='poly' and a generic interpolator),
    /repo/src/pwtools/num.py 728-970, 1431-1597. Real arithmetic stands for floats. None is an exception.
    Arrays are distinguished by their dimension. Not modelled: keywords, interpolators of scipy. *)
From Coq Require Import Reals List Arith Bool.
From Verif Require Import Poly.
Import ListNotations.
Local Open Scope R_scope.
Local Notation length := List.length.

(** Arrays: number, 1d, 2d with n columns, more dimensions *)
Inductive nd := A0 (x : R) | A1 (l : list R) | A2 (n : nat) (rows : list (list R)) | A3.
(** results: a number or a 1d array *)
Inductive result := Scalar (y : R) | Vector (l : list R).
Section CLASSES.
Variable lstsq : list (list R) -> list R -> list R.
(** scipy.optimize.fmin(func, x0) *)
Variable fmin : (list R -> option R) -> list R -> option (list R).

(** ret[0] if _got_single_point else ret, 1495-1498 *)
Definition finish (single : bool) (ret : option (list R)) : option result :=
  match ret with
  | None => None
  | Some l => if single then match l with y :: _ => Some (Scalar y) | [] => None end else Some (Vector l)
  end.
(** values.argmin(): the first smallest one *)
Fixpoint argmin (l : list R) : nat :=
  match l with
  | [] => 0
  | x :: t => match t with [] => 0 | _ => if Rle_dec x (nth (argmin t) t 0) then 0 else S (argmin t) end
  end.

(** *** PolyFit: __init__ 1463-1477 *)
Definition polyfit_init (points : nd) (values : list R) (deg : nat) (scale scale_vand : bool) : option fit :=
  match points with A2 n rows => polyfit lstsq n rows values deg scale scale_vand | _ => None end.
(** _fix_shape_call 1483-1493 and __call__; polyval refuses points which are not a 2d array *)
Definition polyfit_call (f : fit) (points : nd) (der : nat) : option result :=
  match points with
  | A1 l => finish true (polyval f [l] der)
  | A2 n rows => if (n =? ndim f)%nat then finish false (polyval f rows der) else None
  | _ => None
  end.
(** a function for fmin *)
Definition scalar (r : option result) : option R := match r with Some (Scalar y) => Some y | Some (Vector [y]) => Some y | _ => None end.
(** get_min 1500-1520 *)
Definition polyfit_min (points : list (list R)) (values : list R) (f : fit) (x0 : option (list R)) : option (list R) :=
  match (match x0 with Some x => Some x | None => nth_error points (argmin values) end) with
  | Some x => fmin (fun p => scalar (polyfit_call f (A1 p) 0)) x
  | None => None
  end.

(** *** PolyFit1D: _fix_shape_init 1563-1577. For 2d points self.fit is read before it is set in
    PolyFit.__init__. *)
Definition fix_init_1d (points : nd) : option (list (list R)) :=
  match points with A0 x => Some [[x]] | A1 l => Some (map (fun x => [x]) l) | A2 _ _ => None | A3 => None end.
Definition polyfit1d_init (points : nd) (values : list R) (deg : nat) (scale scale_vand : bool) : option fit :=
  match fix_init_1d points with Some rows => polyfit lstsq 1 rows values deg scale scale_vand | None => None end.
(** _fix_shape_call 1579-1597 *)
Definition fix_call_1d (f : fit) (points : nd) : option (bool * list (list R)) :=
  match points with
  | A0 x => Some (true, [[x]])
  | A1 l => if (length l =? ndim f)%nat then Some (true, [l]) else Some (false, map (fun x => [x]) l)
  | A2 n rows => if (n =? ndim f)%nat then Some (false, rows) else None
  | A3 => None
  end.
Definition polyfit1d_call (f : fit) (points : nd) (der : nat) : option result :=
  match fix_call_1d f points with Some (single, rows) => finish single (polyval f rows der) | None => None end.

(** *** Interpol2D with what='poly': __call__ 947-969 with _poly_format_return 942-945; for
    [points] a 2d array of n columns *)
Definition interpol_call (f : fit) (points : nd) : option (list R) :=
  match (match points with A1 l => Some (A2 (length l) [l]) | A2 n rows => Some (A2 n rows) | _ => None end) with
  | Some p => match polyfit_call f p 0 with Some (Vector l) => Some l | Some (Scalar y) => Some [y] | None => None end
  | None => None
  end.
(** get_min 971-994: [xx] and [yy] are the first two columns of points (843-844) *)
Definition interpol_min (points : list (list R)) (values : list R) (f : fit) (x0 : option (list R)) : option (list R) :=
  match (match x0 with Some x => Some x | None => match nth_error points (argmin values) with Some (x :: y :: _) => Some [x; y] | _ => None end end) with
  | Some x => fmin (fun p => match interpol_call f (A1 p) with Some [y] => Some y | _ => None end) x
  | None => None
  end.
End CLASSES.
