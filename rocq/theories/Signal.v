(** Model of the autocorrelation, Fourier and peak functions of
    /repo/src/pwtools/signal.py 13-364, 396-581 and of the subroutine acorr of
    /repo/src/_ext_src/flib.f90 290-313.

    Simplifications.
    - Floats are real numbers, numpy's complex numbers are Coquelicot's [C].
    - [scipy.fftpack.fft] and [ifft] are the discrete Fourier transform and its inverse.
    - [v[i]] is [nth i v 0]; the loops stay inside the array.
    - Dividing by [c[0] = 0] gives nan in numpy: the model returns [None]. *)
From Coq Require Import Reals List Arith Bool ZArith String.
From Coquelicot Require Import Coquelicot.
Import ListNotations.
Local Open Scope R_scope.

Definition rsum (l : list R) : R := fold_right Rplus 0 l.
Definition csum (l : list C) : C := fold_right Cplus (RtoC 0) l.

Fixpoint map2 {A B D} (f : A -> B -> D) (l : list A) (m : list B) : list D :=
  match l, m with
  | x :: l, y :: m => f x y :: map2 f l m
  | _, _ => []
  end.

(** [exp(1j * x)]. *)
Definition cis (x : R) : C := (cos x, sin x).

(** [fft(a)[k] = sum_n a[n] exp(-2 pi j n k / N)]; [ifft] with the other sign and 1/N. *)
Definition fft (a : list C) : list C :=
  let N := List.length a in
  map (fun k => csum (map (fun n => Cmult (nth n a (RtoC 0)) (cis (-2 * PI * INR n * INR k / INR N))) (seq 0 N))) (seq 0 N).
Definition ifft (a : list C) : list C :=
  let N := List.length a in
  map (fun k => Cmult (RtoC (/ INR N))
    (csum (map (fun n => Cmult (nth n a (RtoC 0)) (cis (2 * PI * INR n * INR k / INR N))) (seq 0 N)))) (seq 0 N).

(** dft, signal.py 86-152. *)
Definition linspace_open (N : nat) : list R := map (fun i => INR i * (INR N / INR N)) (seq 0 N).
Definition dft (a : list C) (method : string) : option (list C) :=
  let N := List.length a in
  let nk := linspace_open N in
  if String.eqb method "loop" then
    Some (map (fun k => csum (map2 Cmult a (map (fun n => cis (-2 * PI * k * n / INR N)) nk))) nk)
  else if String.eqb method "matmul" then
    let mat := map (fun k => map (fun n => cis (-2 * PI * (n * k) / INR N)) nk) nk in
    Some (map (fun row => csum (map2 Cmult row a)) mat)
  else None.

(** mirror, 361-364, of a one-dimensional array. *)
Definition mirror {A} (arr : list A) : list A := rev arr ++ tl arr.

(** The loops of acorr: [c[t] += v[j]*v[j+t]]. *)
Definition accumulate (f : nat -> R) (js : list nat) (c0 : R) : R := fold_left (fun c j => c + f j) js c0.

(** flib.f90 290-313: [c] is passed in; the loops add to it. *)
Definition flib_acorr (v c : list R) (method : nat) : list R :=
  let nstep := List.length v in
  if (method =? 1)%nat then
    map (fun t => accumulate (fun j => nth j v 0 * nth (j + t) v 0) (seq 0 (nstep - t)) (nth t c 0)) (seq 0 nstep)
  else if (method =? 2)%nat then
    map (fun t => rsum (map2 Rmult (firstn (nstep - t) v) (skipn t v))) (seq 0 nstep)
  else c.

(** [numpy.correlate(a, v, 'full')]: entry [k] is the sum over [n] of
    [a[n + k - (len(v)-1)] * v[n]] where both indices are inside. *)
Definition correlate_full (a v : list R) : list R :=
  map (fun k => rsum (map (fun n => if (List.length v - 1 <=? n + k)%nat
      then nth (n + k - (List.length v - 1)) a 0 * nth n v 0 else 0) (seq 0 (List.length v))))
    (seq 0 (List.length a + List.length v - 1)).

(** acorr, 396-496: the unnormalised function for each method. *)
Definition acorr_raw (v : list R) (method : nat) : option (list R) :=
  let nstep := List.length v in
  let c := repeat 0 nstep in
  match method with
  | 1%nat => Some (map (fun t => accumulate (fun j => nth j v 0 * nth (j + t) v 0) (seq 0 (nstep - t)) (nth t c 0)) (seq 0 nstep))
  | 2%nat => let vv := v ++ repeat 0 nstep in
         Some (map (fun t => accumulate (fun j => nth j v 0 * nth (j + t) vv 0) (seq 0 nstep) (nth t c 0)) (seq 0 nstep))
  | 3%nat => Some (map (fun t => rsum (map2 Rmult (firstn (nstep - t) v) (skipn t v))) (seq 0 nstep))
  | 4%nat => Some (skipn (nstep - 1) (correlate_full v v))
  | 5%nat => Some (flib_acorr v c 1)
  | 6%nat => Some (flib_acorr v c 2)
  | 7%nat => let vv := v ++ repeat 0 nstep in
         Some (map fst (firstn nstep (ifft (map (fun z => RtoC (Cmod z ^ 2)) (fft (map RtoC vv))))))
  | _ => None
  end.

(** [c / c[0]]. *)
Definition normalise (c : list R) : option (list R) :=
  if Req_EM_T (nth 0 c 0) 0 then None else Some (map (fun x => x / nth 0 c 0) c).

Definition acorr (v : list R) (method : nat) (norm : bool) : option (list R) :=
  match acorr_raw v method with
  | Some c => if norm then normalise c else Some c
  | None => None
  end.

(** fftsample, 13-83. *)
Definition fftsample (a b : R) (mode : string) (mirr : bool) : option (R * R) :=
  if String.eqb mode "f" then
    let fmax := a in let df := if mirr then b * 2 else b in
    let dt := / 2 / fmax in
    Some (dt, 1 / (df * dt))
  else if String.eqb mode "t" then
    let dt := a in let N := if mirr then b * 2 else b in
    Some (/ 2 / dt, 1 / (N * dt))
  else None.

(** find_peaks without [x], 562-568. [ymin=None] is the minimum of [y]. *)
Definition Rltb (x y : R) : bool := if Rlt_dec x y then true else false.
Definition Rleb (x y : R) : bool := if Rle_dec x y then true else false.
Definition find_peaks (y : list R) (ymin : option R) : option (list nat) :=
  match (match ymin with
         | Some m => Some m
         | None => match y with [] => None | a :: l => Some (fold_right Rmin a l) end
         end) with
  | None => None
  | Some m =>
    let dfy := map2 Rminus (tl y) y in
    Some (flat_map (fun ii =>
        if Rltb 0 (nth ii dfy 0) && Rltb (nth (ii + 1) dfy 0) 0 && Rleb m (nth ii y 0)
        then [(ii + 1)%nat] else []) (seq 0 (List.length dfy - 1)))
  end.

(** welch, 300-314, for [sym=1]. *)
Definition welch (M : nat) : list R :=
  if (M <? 1)%nat then [] else if (M =? 1)%nat then [1] else
  map (fun n => 1 - ((INR n - 1 / 2 * (INR M - 1)) / (1 / 2 * (INR M - 1))) ^ 2) (seq 0 M).

(** odd, 843-855. *)
Definition odd (n add : Z) : option Z :=
  if ((add =? 1) || (add =? -1))%Z then Some (if (n mod 2 =? 1)%Z then n else (n + add)%Z) else None.
