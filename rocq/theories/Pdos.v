(** Model of pdos, /repo/src/pwtools/pydos.py 173-322, without full_out.

    Velocities are functions of step, atom and component with nstep steps, as in Vacf.v.
    The FFT is the exact discrete Fourier sum; num.norm_int integrates with [func]. *)
From Coq Require Import Reals List Arith ZArith String.
From Coquelicot Require Import Coquelicot.
From Verif Require Import Signal Vacf Num Nd Pad.
Import ListNotations.
Local Open Scope R_scope.

(** 268-271: vel * welch(nstep)[:,None,None] *)
Definition windowed (vel : velocity) (nstep : nat) (window : bool) : velocity :=
  if window then fun j i k => vel j i k * nth j (welch nstep) 0 else vel.

(** One column vel2[:, i, k] as an array, to be padded by pad_zeros along axis 0 *)
Definition column_arr (vel : velocity) (nstep i k : nat) : arr R := Array [nstep] (fun ix => vel (nth 0 ix 0%nat) i k).
(** 276-284. [None]: an assertion of pad_zeros fails. pad_zeros treats all columns alike. *)
Definition padded_column (vel : velocity) (nstep i k : nat) (npad : option nat) (tonext : bool) : option (list R) :=
  let a := column_arr vel nstep i k in
  match npad with
  | None => Some (map (fun j => vel j i k) (seq 0 nstep))
  | Some npad =>
    let nadd := (Z.of_nat ((nstep - 1) * npad))%Z in
    let r := if tonext then pad_zeros 0 a 0 "end" None None (Some true) (Some (Z.of_nat nstep + nadd)%Z)
             else pad_zeros 0 a 0 "end" (Some nadd) None (Some false) None in
    match r with Some r => Some (map (at_ r) (indices (shape r))) | None => None end
  end.

(** np.fft.fftfreq(n, dt)[:n//2] *)
Definition faxis (n : nat) (dt : R) : list R := map (fun k => INR k / (INR n * dt)) (seq 0 (n / 2)).

(** 286-302: split, multiply by the masses, sum over atoms and components *)
Definition power_sum (columns : nat -> nat -> list R) (natoms : nat) (m : option (nat -> R)) (k : nat) : R :=
  sum2 natoms (fun i c =>
    let p := Cmod (nth k (fft (map RtoC (columns i c))) (RtoC 0)) ^ 2 in
    match m with Some m => p * m i | None => p end).
Definition pdos_direct (func : list R -> list R -> R) (vel : velocity) (nstep natoms : nat) (dt : R) (m : option (nat -> R))
    (area : R) (window : bool) (npad : option nat) (tonext : bool) : option (list R * list R) :=
  let vel2 := windowed vel nstep window in
  match padded_column vel2 nstep 0 0 npad tonext with
  | None => None
  | Some c00 =>
    let columns i c := match padded_column vel2 nstep i c npad tonext with Some l => l | None => [] end in
    let fx := faxis (List.length c00) dt in
    let pdos := map (power_sum columns natoms m) (seq 0 (List.length c00 / 2)) in
    Some (fx, norm_int func pdos fx area true)
  end.

(** 313-322, for a result [vacf] of fvacf (method 2, the default) *)
Definition pdos_of_vacf (func : list R -> list R -> R) (vacf : list R) (dt area : R) (mirr : bool) : list R * list R :=
  let fft_vacf := if mirr then fft (map RtoC (mirror vacf)) else fft (map RtoC vacf) in
  let n := List.length fft_vacf in
  let fx := faxis n dt in
  let pdos := firstn (n / 2) (map Cmod fft_vacf) in
  (fx, norm_int func pdos fx area true).
Definition pdos_vacf (func : list R -> list R -> R) (vel : velocity) (nstep natoms : nat) (dt : R) (m : option (nat -> R))
    (area : R) (window mirr : bool) (res : option (list R * list R)) : Prop :=
  exists v, fvacf (windowed vel nstep window) nstep natoms m 2 v /\
    res = match v with Some v => Some (pdos_of_vacf func v dt area mirr) | None => None end.
