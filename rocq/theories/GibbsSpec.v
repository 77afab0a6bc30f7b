(** What the arrays of Gibbs have to hold, stated on grid points. *)
From Coq Require Import String List Arith Reals.
From Verif Require Import Gibbs.
Import ListNotations.
Local Open Scope list_scope.
Local Open Scope nat_scope.
Local Notation length := List.length.

(** d[k][idx] is the number x *)
Definition cell (d : dict) (k : string) (idx : list nat) (x : R) : Prop :=
  exists s f, d k = Some (EArr s f) /\ in_range s idx = true /\ f idx = Some x.
(** the group of a grid of n axes: /ax0, /ax0-ax1, /ax0-ax1-ax2 *)
Definition grid_name (n : nat) : string := ("/" ++ String.concat "-" (firstn n ["ax0"; "ax1"; "ax2"]))%string.
(** no array holds an unset cell *)
Definition full (d : dict) : Prop := forall k s f idx, d k = Some (EArr s f) -> in_range s idx = true -> f idx <> None.
(** the Gibbs energies at all grid points for one temperature (number t) and pressure p:
    total energy + vibrational free energy + p V, with the pressure in GPa *)
Definition gibbs_energy (GPa : R) (g : gibbs) (t : nat) (p : R) (i : nat) (x : R) : Prop :=
  exists e ha f v, nth_error (g_etot g) i = Some e /\ nth_error (g_vib g) i = Some ha /\ nth_error (fvib ha) t = Some f /\ nth_error (g_V g) i = Some v /\
    (x = e + f + v * p / GPa)%R.
Definition enthalpy (GPa : R) (g : gibbs) (p : R) (i : nat) (x : R) : Prop :=
  exists e v, nth_error (g_etot g) i = Some e /\ nth_error (g_V g) i = Some v /\ (x = e + v * p / GPa)%R.
(** [l] holds the values of [Q] at all grid points *)
Definition on_grid (g : gibbs) (Q : nat -> R -> Prop) (l : list R) : Prop :=
  length l = length (g_axes g) /\ forall i x, nth_error l i = Some x -> Q i x.
(** what is stored about the minimum of a fit of [y] over the volumes *)
Record minimum := Minimum { m_V : R; m_E : R; m_B : R; m_ax : list R }.
Definition minimum_of (GPa : R) (fits : fitfuncs) (fitax : list fit1) (V y : list R) (m : minimum) : Prop :=
  exists fit, f_1dG fits V y = Some fit /\ low fit = Some (m_V m) /\ m_E m = ev fit 0 (m_V m) /\
    (m_B m = m_V m * ev fit 2 (m_V m) * GPa)%R /\ m_ax m = map (fun f => ev f 0 (m_V m)) fitax.
(** the fits of the cell axes over the volume *)
Definition axis_fits (fits : fitfuncs) (V : list R) (axes : list (list R)) (nax : nat) (l : list fit1) : Prop :=
  length l = nax /\ forall i f, nth_error l i = Some f -> exists col, Forall2 (fun r x => nth_error r i = Some x) axes col /\ f_1dax fits V col = Some f.
(** what is stored for one (T, P) or one P *)
Definition stored (d : dict) (prfx sym : string) (idx : list nat) (m : minimum) : Prop :=
  cell d ("/#opt" ++ prfx ++ "/V")%string idx (m_V m) /\ cell d ("/#opt" ++ prfx ++ "/" ++ sym)%string idx (m_E m) /\ cell d ("/#opt" ++ prfx ++ "/B")%string idx (m_B m) /\
  forall i a, nth_error (m_ax m) i = Some a -> cell d ("/#opt" ++ prfx ++ "/" ++ nth i ["ax0"; "ax1"; "ax2"] "")%string idx a.
(** objects a program can hold: made by the constructor, then fit functions set and methods called *)
Inductive reach (GPa eV kb : R) : gibbs -> Prop :=
| reach_init T P etot phdos axes nax vol case defaults g : Forall (fun r => length r = nax) axes -> init T P etot phdos axes nax vol case defaults = Some g -> reach GPa eV kb g
| reach_set w g : reach GPa eV kb g -> reach GPa eV kb (set_fitfunc w g)
| reach_call c g g' d : reach GPa eV kb g -> run GPa eV kb c g = Some (g', d) -> reach GPa eV kb g'.
(** The fit functions which a calculation uses after a history of calls: those set last, but the
    axes are fitted only once, in the first calculation. *)
Inductive event := ESet (w : what) | ECall (c : call).
Fixpoint history (GPa eV kb : R) (es : list event) (g : gibbs) : option gibbs :=
  match es with
  | [] => Some g
  | ESet w :: t => history GPa eV kb t (set_fitfunc w g)
  | ECall c :: t => match run GPa eV kb c g with Some (g', _) => history GPa eV kb t g' | None => None end
  end.
(** the value set last for one of the fits, [d] before anything is set *)
Fixpoint latest {A} (pick : what -> option A) (es : list event) (d : A) : A :=
  match es with [] => d | ESet w :: t => latest pick t (match pick w with Some x => x | None => d end) | ECall _ :: t => latest pick t d end.
Fixpoint before_calls (es : list event) : list event := match es with ESet w :: t => ESet w :: before_calls t | _ => [] end.
Definition last_fits (es : list event) (f : fitfuncs) : fitfuncs :=
  FitFuncs (latest (fun w => match w with W1dG x => Some x | _ => None end) es (f_1dG f)) (latest (fun w => match w with W2dG x => Some x | _ => None end) es (f_2dG f))
    (latest (fun w => match w with W1dax x => Some x | _ => None end) es (f_1dax f)) (latest (fun w => match w with Walpha x => Some x | _ => None end) es (f_alpha f))
    (latest (fun w => match w with WC x => Some x | _ => None end) es (f_C f)).
Definition axis_fit (es : list event) (f : fitfuncs) : list R -> list R -> option fit1 := f_1dax (last_fits (before_calls es) f).
(** Fits of functions: [fit] gives back the function [f] and its derivatives, and its minimum is a stationary point *)
Definition exact_fit (fit : fit1) (f : R -> R) : Prop :=
  (forall x, ev fit 0 x = f x) /\ (forall x, derivable_pt_lim (ev fit 0) x (ev fit 1 x)) /\ (forall x, derivable_pt_lim (ev fit 1) x (ev fit 2 x)) /\
  forall v, low fit = Some v -> derivable_pt_lim f v 0%R.
(** a linear least squares fit with a straight line among its functions: adding c*V to the data
    adds c*x to the fit; get_min() finds the minimum on D *)
Definition linear_fit (fits : list R -> list R -> option fit1) (V : list R) (D : R -> Prop) : Prop :=
  (forall y c f1 f2, length y = length V -> fits V y = Some f1 -> fits V (map (fun yv => fst yv + c * snd yv)%R (combine y V)) = Some f2 -> forall x, ev f2 0 x = (ev f1 0 x + c * x)%R) /\
  (forall y f v, fits V y = Some f -> low f = Some v -> D v /\ forall x, D x -> (ev f 0 v <= ev f 0 x)%R).
(** the same in more dimensions: a fit of a*y+b is a*fit+b *)
Definition affine_fit (fits : list (list R) -> list R -> option fit2) (axes : list (list R)) (D : list R -> Prop) : Prop :=
  (forall y a b f1, (0 < a)%R -> fits axes (map (fun x => a * x + b)%R y) = Some f1 -> exists f2, fits axes y = Some f2 /\ forall x, ev2 f1 x = (a * ev2 f2 x + b)%R) /\
  (forall y f v, fits axes y = Some f -> low2 f = Some v -> D v /\ forall x, D x -> (ev2 f v <= ev2 f x)%R).
