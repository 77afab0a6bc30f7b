(** Model of the Vinet equation of state and [EosFit], src/pwtools/eos.py lines 22-233, over the real
    numbers.  Volumes are positive.  [np.polyfit(.., 2)], [leastsq] and the fallback spline are arguments. *)
From Coq Require Import Reals List String.
Import ListNotations.
Local Open Scope R_scope.

(** the dict {'e0', 'b0', 'b1', 'v0'} *)
Record params := Params { e0 : R; b0 : R; b1 : R; v0 : R }.

(** lines 25, 34, 43 *)
Definition eta_of (V : R) (p : params) : R := Rpower (V / v0 p) (1 / 3).

(** lines 22-27 *)
Definition vinet (V : R) (p : params) : R :=
  let eta := eta_of V p in
  e0 p + 2 * b0 p * v0 p / (b1 p - 1) ^ 2
       * (2 - (5 + 3 * b1 p * (eta - 1) - 3 * eta) * exp (-3 * (b1 p - 1) * (eta - 1) / 2)).

(** lines 30-36 *)
Definition vinet_deriv1 (V : R) (p : params) : R :=
  let eta := eta_of V p in
  let ex := exp (3 / 2 * (- eta * b1 p + b1 p + eta - 1)) in
  (3 * eta - 3) / eta ^ 2 * b0 p * ex.

(** lines 39-46 *)
Definition vinet_deriv2 (V : R) (p : params) : R :=
  let eta := eta_of V p in
  let ex := exp (3 / 2 * (- eta * b1 p + b1 p + eta - 1)) in
  - b0 p * (3 * eta ^ 2 * b1 p - 3 * eta * b1 p - 3 * eta ^ 2 + 5 * eta - 4) /
    (2 * eta ^ 5 * v0 p) * ex.

(** lines 91-95 and 104-116, [Vinet.__call__(volume, params, der)]; [None] for MaxDerivException *)
Definition vinet_call (V : R) (p : params) (der : nat) : option R :=
  match der with
  | 0%nat => Some (vinet V p)
  | 1%nat => Some (vinet_deriv1 V p)
  | 2%nat => Some (vinet_deriv2 V p)
  | _ => None
  end.

(** lines 97-101: [param_order = ['e0', 'b0', 'b1', 'v0']]; [None] when an item is missing (IndexError) *)
Definition lst2dct (l : list R) : option params :=
  match l with
  | a :: b :: c :: d :: _ => Some (Params a b c d)
  | _ => None
  end.
Definition dct2lst (p : params) : list R := [e0 p; b0 p; b1 p; v0 p].

(** lines 174-178: the starting point from the coefficients of a parabola a*V**2 + b*V + c *)
Definition guess (a b c : R) : params :=
  let v := - b / (2 * a) in Params (a * v ^ 2 + b * v + c) (2 * a * v) 4 v.

Definition rltb (x y : R) : bool := if Rlt_dec x y then true else false.

(** line 179: [if not volume.min() < v0 and v0 < volume.max(): raise] *)
Definition guard_raises (vmin vmax v : R) : bool := andb (negb (rltb vmin v)) (rltb v vmax).

(** lines 184: target(pp, volume): energy - func(volume, lst2dct(pp)) *)
Definition target (volume energy : list R) (l : list R) : option (list R) :=
  match lst2dct l with
  | Some p => Some (map (fun ve => snd ve - vinet (fst ve) p) (combine volume energy))
  | None => None
  end.

Section Fit.
(** [np.polyfit(volume, energy, 2)] and [leastsq] with its starting point *)
Variable polyfit2 : list R -> list R -> R * R * R.
Variable leastsq : (list R -> option (list R)) -> list R -> list R.
(** [np.min], [np.max] *)
Definition vmin (l : list R) : R := fold_right Rmin (hd 0 l) l.
Definition vmax (l : list R) : R := fold_right Rmax (hd 0 l) l.

(** lines 169-188, [EosFit.fit]; [None] when it raises *)
Definition fit (volume energy : list R) : option params :=
  let '(a, b, c) := polyfit2 volume energy in
  let p0 := guess a b c in
  if guard_raises (vmin volume) (vmax volume) (v0 p0) then None
  else lst2dct (leastsq (target volume energy) (dct2lst p0)).
End Fit.

Section Use.
Variable eV_by_Ang3_to_GPa : R.
Variable spl : R -> nat -> R.
Variable p : params.
(** lines 190-202 *)
Definition call (V : R) (der : nat) : R :=
  match vinet_call V p der with Some y => y | None => spl V der end.
(** lines 205-210; 'v0' is in [params] *)
Definition get_min : R := v0 p.
(** lines 212-220 *)
Definition pressure (V : R) : R := - call V 1 * eV_by_Ang3_to_GPa.
(** lines 222-233; 'b0' is in [params] *)
Definition bulkmod (V : R) : R := b0 p * eV_by_Ang3_to_GPa.
End Use.
