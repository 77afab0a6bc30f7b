(** Choice of the parameters of radial basis functions: FitError and fit_opt (src/pwtools/rbf/hyperopt.py), with
    the model of Rbf (Rbf.v).  None is an exception or a result with nan or inf.  scikit-learn's splitters and
    scipy's optimizers are parameters; p="scipy" and the keyword fit are left out. *)
From Coq Require Import Reals List Arith Bool.
From Verif Require Import Rbf.
Import ListNotations.
Open Scope R_scope.

(** rbf_kwds: keywords of Rbf; None: not in the dict *)
Inductive pspec := PMean | PNum (x : R).
Record rkwds := RKwds { k_rbf : option rbf; k_p : option pspec; k_r : option (option R) }.
Definition dflt {A} (o : option A) (d : A) : A := match o with Some a => a | None => d end.
(** a splitter: get_n_splits and the pairs (train, test) that split gives in one call *)
Record splitter := Splitter { announced : nat; folds : list (list nat * list nat) }.
(** points[idxs, ...] : IndexError for a wrong index (indices from splitters are never negative) *)
Definition rows {A} (l : list A) (idx : list nat) : option (list A) := mapM (fun i => nth_error l i) idx.

Section H.
Variable solve : list (list R) -> list R -> option (list R).
Variable lstsq : list (list R) -> list R -> list R.
Variable garbage : nat -> R.      (* contents of np.empty *)
(** core.py 223-273: Rbf(points, values, rbf="gauss", r=0, p="mean") *)
Definition make (n : nat) (pts : list (list R)) (vals : list R) (k : rkwds) : option model :=
  match (match dflt (k_p k) PMean with PMean => mean_p n pts | PNum p => Some p end) with
  | Some p => fit solve lstsq n pts vals (dflt (k_rbf k) Gauss) p (dflt (k_r k) (Some 0))
  | None => None
  end.
(** 45-83: the object; [fe_cv = None] is cv=None *)
Record fiterror := FitError { fe_n : nat; fe_points : list (list R); fe_values : list R; fe_kwds : rkwds; fe_cv : option splitter }.
Definition absent {A} (o : option A) : bool := match o with None => true | Some _ => false end.
(** 91-107; params: p, or p and r; r may be None, p=None fails in the arithmetic of Rbf *)
Definition get_rbfi (e : fiterror) (params : list (option R)) (pts : list (list R)) (vals : list R) : option model :=
  match params with
  | [Some p] => if absent (k_p (fe_kwds e)) then make (fe_n e) pts vals (RKwds (k_rbf (fe_kwds e)) (Some (PNum p)) (k_r (fe_kwds e))) else None
  | [Some p; r] => if absent (k_p (fe_kwds e)) && absent (k_r (fe_kwds e)) then make (fe_n e) pts vals (RKwds (k_rbf (fe_kwds e)) (Some (PNum p)) (Some r)) else None
  | _ => None
  end.
(** one turn of the loop 136-145 *)
Definition fold_error (e : fiterror) (params : list (option R)) (f : list nat * list nat) : option R :=
  match rows (fe_points e) (fst f), rows (fe_values e) (fst f) with
  | Some pt, Some vt =>
    match get_rbfi e params pt vt, rows (fe_points e) (snd f), rows (fe_values e) (snd f) with
    | Some m, Some ps, Some vs => fit_error m ps vs
    | _, _, _ => None
    end
  | _, _ => None
  end.
(** cv, 109-146: an array of the announced length, filled from the front; too many folds: IndexError *)
Definition cv (e : fiterror) (s : splitter) (params : list (option R)) : option (list R) :=
  if (length (folds s) <=? announced s)%nat then
    match mapM (fold_error e params) (folds s) with
    | Some errs => Some (errs ++ map garbage (seq (length (folds s)) (announced s - length (folds s))))
    | None => None
    end
  else None.
Definition mean (l : list R) : option R := fdiv (fold_right Rplus 0 l) (INR (length l)).
(** 148-160 *)
Definition err_cv (e : fiterror) (s : splitter) (params : list (option R)) : option R := match cv e s params with Some l => mean l | None => None end.
Definition err_direct (e : fiterror) (params : list (option R)) : option R :=
  match get_rbfi e params (fe_points e) (fe_values e) with Some m => fit_error m (fe_points e) (fe_values e) | None => None end.
(** __call__, 85-89 *)
Definition call (e : fiterror) (params : list (option R)) : option R := match fe_cv e with Some s => err_cv e s params | None => err_direct e params end.

(** ** fit_opt, 162-252 *)
Inductive method := DE | Fmin | Brute | OtherMethod.
Inductive whats := WP | WPR | OtherWhat.
(** opt_kwds: the dict of the caller *)
Record okwds := OKwds { o_disp : option bool; o_x0 : option (list R); o_bounds : option (list (R * R)); o_ranges : option (list (R * R)) }.
(** optimizers: what is optimized, start or bounds, disp, the other keywords *)
Variable fmin : (list R -> option R) -> list R -> bool -> okwds -> option (list R).
Variable diff_evo : (list R -> option R) -> list (R * R) -> bool -> okwds -> option (list R).
Variable brute : (list R -> option R) -> list (R * R) -> bool -> okwds -> option (list R).
Definition pop_disp (o : okwds) : okwds := OKwds None (o_x0 o) (o_bounds o) (o_ranges o).
Definition pop_x0 (o : okwds) : okwds := OKwds (o_disp o) None (o_bounds o) (o_ranges o).
Definition pop_bounds (o : okwds) : okwds := OKwds (o_disp o) (o_x0 o) None (o_ranges o).
Definition pop_ranges (o : okwds) : okwds := OKwds (o_disp o) (o_x0 o) (o_bounds o) None.
(** 209-219: assertions *)
Definition allowed (me : method) (w : whats) (k : rkwds) : bool :=
  match w with WP => absent (k_p k) | WPR => absent (k_p k) && absent (k_r k) | OtherWhat => false end &&
  match me with OtherMethod => false | _ => true end.
(** 248-251 *)
Definition with_opt (w : whats) (x : list R) (k : rkwds) : option rkwds :=
  match w, x with
  | WP, p :: _ => Some (RKwds (k_rbf k) (Some (PNum p)) (k_r k))
  | WPR, p :: r :: _ => Some (RKwds (k_rbf k) (Some (PNum p)) (Some (Some r)))
  | _, _ => None
  end.
(** the result, and the caller's opt_kwds after the call.  _get_p0 is called although x0 is given (the default of pop). *)
Definition fit_opt (n : nat) (pts : list (list R)) (vals : list R) (me : method) (w : whats) (c : option splitter) (o : okwds) (k : rkwds) : option model * okwds :=
  if allowed me w k then
    let err := fun x => call (FitError n pts vals k c) (map Some x) in
    let disp := dflt (o_disp o) false in let o1 := pop_disp o in
    match mean_p n pts with          (* estimate_p: the mean distance *)
    | None => (None, o1)
    | Some p0 =>
      let x0 := match w with WP => [p0] | _ => [p0; 1 / 100000000] end in
      let bounds := match w with WP => [(0, 5 * p0)] | _ => [(0, 5 * p0); (1 / 1000000000000, 1 / 10)] end in
      let '(x, o2) :=
        match me with
        | Fmin => let o2 := pop_x0 o1 in (fmin err (dflt (o_x0 o) x0) disp o2, o2)
        | DE => let o2 := pop_bounds o1 in (diff_evo err (dflt (o_bounds o) bounds) disp o2, o2)
        | _ => let o2 := pop_ranges o1 in (brute err (dflt (o_ranges o) bounds) disp o2, o2)
        end in
      (match x with Some x => match with_opt w x k with Some k' => make n pts vals k' | None => None end | None => None end, o2)
    end
  else (None, o).
End H.
