(** Model of [HarmonicThermo] and of the grids of [Gibbs], src/pwtools/thermo.py lines 16-250 and 605-722,
    over the real numbers.  Frequencies are positive where the formulas are used; NaNs and [fixnan] are
    not modelled.  The temperature axis is a list; the integrator is an argument, [trapz] the default. *)
From Coq Require Import Reals List.
Import ListNotations.
Local Open Scope R_scope.

(** scipy.integrate.trapezoid(y, x=x) *)
Fixpoint trapz_from (y0 x0 : R) (y x : list R) : R :=
  match y, x with
  | y1 :: y', x1 :: x' => (x1 - x0) * (y1 + y0) / 2 + trapz_from y1 x1 y' x'
  | _, _ => 0
  end.
Definition trapz (y x : list R) : R :=
  match y, x with y0 :: y', x0 :: x' => trapz_from y0 x0 y' x' | _, _ => 0 end.

(** lines 11-12 *)
Definition coth (x : R) : R := 1 / tanh x.

(** np.abs(x).max() *)
Definition absmax (l : list R) : R := fold_right (fun x m => Rmax (Rabs x) m) 0 l.

(** the instance: frequencies and dos *)
Record harmonic := Harmonic { freqs : list R; doses : list R }.

Section Thermo.
Variables hplanck c0 kb eV : R.
Variable integrator : list R -> list R -> R.

(** line 122: [self.h = hplanck * c0 * 100] *)
Definition h : R := hplanck * c0 * 100.

(** lines 156-162, [_norm_int] *)
Definition norm_int (y x : list R) (area : R) : list R :=
  let fx := absmax x in let fy := absmax y in
  let sx := map (fun v => v / fx) x in let sy := map (fun v => v / fy) y in
  let area' := integrator sy sx * fx * fy in
  map (fun v => v * area / area') y.

(** lines 133-154, [__init__]; [None] for the AssertionError *)
Definition init (freq dos : list R) (skipfreq : bool) (eps : R) (dosarea : option R) : option harmonic :=
  if Nat.eqb (length freq) (length dos) then
    let keep := filter (fun fd => if skipfreq then (if Rlt_dec eps (fst fd) then true else false) else true)
                       (combine freq dos) in
    let f := map fst keep in let d := map snd keep in
    Some (Harmonic f (match dosarea with Some a => norm_int d f a | None => d end))
  else None.

Section Methods.
Variable ha : harmonic.

(** [dos * g(f)] sampled along the frequency axis and integrated: lines 164-190 *)
Definition integrate (g : R -> R -> R) : R :=
  integrator (map (fun df => g (fst df) (snd df)) (combine (doses ha) (freqs ha))) (freqs ha).

(** lines 197-204, for one temperature *)
Definition evib1 (T : R) : R :=
  integrate (fun dos f => dos * f * (1 / 2 + 1 / (exp (h * f / (kb * T)) - 1))) * (h / eV).
(** lines 206-214 *)
Definition cv1 (T : R) : R :=
  integrate (fun dos f => dos * f ^ 2 / sinh (h * f / (kb * T) / 2) ^ 2) * (h / (kb * 2 * T)) ^ 2.
(** lines 216-223 *)
Definition fvib1 (T : R) : R :=
  integrate (fun dos f => dos * ln (2 * sinh (h * f / (kb * T) / 2))) * T * (kb / eV).
(** lines 225-233 *)
Definition svib1 (T : R) : R :=
  integrate (fun dos f => dos * (1 / 2 / T * (h / kb) * f * coth (h * f / (kb * T) / 2)
                                 - ln (2 * sinh (h * f / (kb * T) / 2)))).

(** lines 192-195, [_get_temp]: the argument, or the axis of the constructor; [None] for ValueError *)
Definition get_temp (self_T temp : option (list R)) : option (list R) :=
  match temp with Some t => Some t | None => self_T end.
Definition over (m : R -> R) (self_T temp : option (list R)) : option (list R) :=
  option_map (map m) (get_temp self_T temp).
Definition evib := over evib1.
Definition cv := over cv1.
Definition fvib := over fvib1.
Definition svib := over svib1.
End Methods.

(** ** Gibbs *)

(** the arrays of [calc_F], lines 605-659, for the grid points with their energies and dos; T axis given *)
Record point := Point { etot : R; vol : R; phdos : harmonic }.
Definition g_F (ts : list R) (pts : list point) : list (list R) :=                       (* 647 *)
  map (fun p => map (fun T => etot p + fvib1 (phdos p) T) ts) pts.
Definition g_Fvib (ts : list R) (pts : list point) : list (list R) :=                    (* 648 *)
  map (fun p => map (fun T => fvib1 (phdos p) T) ts) pts.
Definition g_Svib (ts : list R) (pts : list point) : list (list R) :=                    (* 650, 653 *)
  map (fun p => map (fun T => svib1 (phdos p) T) ts) pts.
Definition g_Evib (ts : list R) (pts : list point) : list (list R) :=                    (* 652, 654 *)
  map (fun p => map (fun T => fvib1 (phdos p) T + T * svib1 (phdos p) T) ts) pts.
Definition g_Cv (ts : list R) (pts : list point) : list (list R) :=                      (* 651, 655 *)
  map (fun p => map (fun T => cv1 (phdos p) T) ts) pts.

Variable eV_by_Ang3_to_GPa : R.
(** lines 669-673, [calc_H] *)
Definition g_H (ps : list R) (pts : list point) : list (list R) :=
  map (fun P => map (fun p => etot p + vol p * P / eV_by_Ang3_to_GPa) pts) ps.
(** lines 717-722, [calc_G]: [F[:,tidx] + V * P / eV_by_Ang3_to_GPa] *)
Definition column (t : nat) (a : list (list R)) : list R := map (fun row => nth t row 0) a.
Definition g_G (ts ps : list R) (pts : list point) : list (list (list R)) :=
  map (fun t => map (fun P => map (fun pF => snd pF + vol (fst pF) * P / eV_by_Ang3_to_GPa)
                                  (combine pts (column t (g_F ts pts)))) ps)
      (seq 0 (length ts)).
End Thermo.
