(** Model of the n-dimensional polynomial fit: poly_powers, vander, polyfit and
    polyval of /repo/src/pwtools/num.py 1213-1428, and the numpy functions polyder and
    polyval they call.

    Simplifications.
    - Floats are real numbers; arrays are lists (of rows).
    - [numpy.linalg.lstsq] is a parameter; what is assumed of it is the specification
      [least_squares] of PolySpec.v.
    - A division by zero, which gives nan or inf in numpy and an error or nan from
      lstsq, makes the model return [None]. *)
From Coq Require Import Reals List Arith Bool.
Import ListNotations.
Local Open Scope R_scope.

(** [itertools.product(range(deg + 1), repeat=ndim)] (num.py 1283): the first exponent
    varies slowest. *)
Fixpoint poly_powers (ndim deg : nat) : list (list nat) :=
  match ndim with
  | O => [[]]
  | S n => flat_map (fun k => map (cons k) (poly_powers n deg)) (seq 0 (deg + 1))
  end.

Definition sum (l : list R) : R := fold_right Rplus 0 l.
Definition prod (l : list R) : R := fold_right Rmult 1 l.

Fixpoint zip {A B C} (f : A -> B -> C) (l : list A) (m : list B) : list C :=
  match l, m with
  | x :: l, y :: m => f x y :: zip f l m
  | _, _ => []
  end.

(** [(points[..., None] ** powers.T[None, ...]).prod(axis=1)] (num.py 1306-1307):
    entry [i,k] is the product over [j] of [points[i,j] ** powers[k,j]]. *)
Definition vander_row (x : list R) (deg : nat) : list R :=
  map (fun pw => prod (zip pow x pw)) (poly_powers (length x) deg).

Definition vander (points : list (list R)) (deg : nat) : list (list R) :=
  map (fun x => vander_row x deg) points.

(** [np.dot] of a row and a vector, and of a matrix and a vector. *)
Definition dot (u v : list R) : R := sum (zip Rmult u v).
Definition matvec (m : list (list R)) (v : list R) : list R := map (fun r => dot r v) m.

(** [min]/[max] of a non-empty list. *)
Definition lmin (l : list R) : R := fold_right Rmin (hd 0 l) (tl l).
Definition lmax (l : list R) : R := fold_right Rmax (hd 0 l) (tl l).

(** Column [j] of an array and all the columns. *)
Definition column (j : nat) (m : list (list R)) : list R := map (fun r => nth j r 0) m.
Definition columns (n : nat) (m : list (list R)) : list (list R) :=
  map (fun j => column j m) (seq 0 n).

Definition Rnz (x : R) : bool := if Req_EM_T x 0 then false else true.

Record fit := Fit {
  coeffs : list R; deg_ : nat; pscale : list R; vscale : R; pmin : list R; vmin : R; ndim : nat }.

(** [(points - pmin) / pscale] for one point (num.py 1369, 1427). *)
Definition scaled (pmin pscale x : list R) : list R := zip Rdiv (zip Rminus x pmin) pscale.

Section Fit.
  (** [np.linalg.lstsq(A, y, rcond=None)[0]]. *)
  Variable lstsq : list (list R) -> list R -> list R.

  (** polyfit: num.py 1310-1388. [n] is [points.shape[1]]. The asserts on the
      dimensions are the types; the one on the lengths is kept. *)
  Definition polyfit (n : nat) (points : list (list R)) (values : list R) (deg : nat)
      (scale scale_vand : bool) : option fit :=
    if negb (length values =? length points)%nat then None else
    if (length points =? 0)%nat then None else
    let '(pmin, vmin, pscale, vscale) :=
      if scale
      then (map lmin (columns n points), lmin values,
            zip Rminus (map (fun c => lmax (map Rabs c)) (columns n points))
                       (map lmin (columns n points)),
            lmax (map Rabs values) - lmin values)
      else (repeat 0 n, 0, repeat 1 n, 1) in
    if negb (forallb Rnz pscale && Rnz vscale) then None else
    let vand := vander (map (scaled pmin pscale) points) deg in
    let rhs := map (fun v => (v - vmin) / vscale) values in
    if scale_vand
    then
      let sv := map (fun c => sqrt (sum (map (fun x => x * x) c)))
                    (columns (length (poly_powers n deg)) vand) in
      if negb (forallb Rnz sv) then None else
      Some (Fit (zip Rdiv (lstsq (map (fun r => zip Rdiv r sv) vand) rhs) sv)
                deg pscale vscale pmin vmin n)
    else Some (Fit (lstsq vand rhs) deg pscale vscale pmin vmin n).
End Fit.

(** [np.polyder(p, m)]: [y = p[:-1] * arange(len(p)-1, 0, -1)], [m] times. Highest
    power first. *)
Definition polyder1 (p : list R) : list R :=
  zip Rmult (removelast p) (rev (map INR (seq 1 (length p - 1)))).

Fixpoint polyder (p : list R) (m : nat) : list R :=
  match m with
  | O => p
  | S m => polyder (polyder1 p) m
  end.

(** [np.polyval(p, x)]: Horner's rule. *)
Definition np_polyval (p : list R) (x : R) : R := fold_left (fun y pv => y * x + pv) p 0.

(** polyval: num.py 1391-1428. *)
Definition polyval (f : fit) (points : list (list R)) (der : nat) : option (list R) :=
  if negb (forallb (fun x => length x =? ndim f)%nat points) then None else
  if (0 <? der)%nat
  then
    if negb (ndim f =? 1)%nat then None else
    let dcoeffs := polyder (rev (coeffs f)) der in
    Some (map (fun x =>
      np_polyval dcoeffs ((nth 0 x 0 - nth 0 (pmin f) 0) / nth 0 (pscale f) 0)
      / nth 0 (pscale f) 0 ^ der * vscale f) points)
  else
    Some (map (fun y => y * vscale f + vmin f)
           (matvec (vander (map (scaled (pmin f) (pscale f)) points) (deg_ f)) (coeffs f))).
