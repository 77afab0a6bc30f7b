(** fft_1d_loop, ezfft, lorentz, scale and FIRFilter of /repo/src/pwtools/signal.py 155-204, 316-356,
    858-876, 879-971.  Floats are real numbers.  Simplified: fft, kaiserord, firwin and freqz of scipy
    are parameters, lfilter is given by its documentation for a denominator 1; np.empty has contents
    [junk]; arrays for scale are not empty (min() of an empty array raises, here None). *)
From Coq Require Import Reals List ZArith Arith Bool String.
From Verif Require Import Traj Nd.
Import ListNotations.
Local Open Scope list_scope.
Local Notation length := List.length.

(** *** fft_1d_loop 181-204 *)
Section LOOP.
Context {A : Type}.
(** fft of a 1d array; None for an exception (no data) *)
Variable fft1 : list A -> option (list A).
Variable dflt : A.
(** sl[ax] = idx for all axes but one, 200-202 *)
Definition index_for (ndim : nat) (axes tup : list nat) : list item :=
  fold_left (fun sl ia => replace (snd ia) (IInt (Z.of_nat (fst ia))) sl) (combine tup axes) (repeat full ndim).
(** out[tsl] = fft(arr[tsl]), 203-204; fft of a number raises *)
Definition line (arr out : arr A) (tsl : list item) : option (Nd.arr A) :=
  match getitem arr tsl with
  | None => None
  | Some l =>
    match shape l with
    | [n] => match fft1 (map (fun j => at_ l [j]) (seq 0 n)) with Some r => if (length r =? n)%nat then setitem out tsl (fun p => nth (hd 0 p) r dflt) else None | None => None end
    | _ => None
    end
  end.
Fixpoint lines (arr out : arr A) (ndim : nat) (axes : list nat) (tups : list (list nat)) : option (Nd.arr A) :=
  match tups with
  | [] => Some out
  | t :: tups => match line arr out (index_for ndim axes t) with Some out => lines arr out ndim axes tups | None => None end
  end.
Definition fft_1d_loop (junk : list nat -> A) (a : arr A) (axis : Z) : option (arr A) :=
  let ndim := length (shape a) in
  let axis := if (axis <? 0)%Z then (Z.of_nat ndim - 1)%Z else axis in
  let axes := filter (fun ax => negb (Z.of_nat ax =? axis)%Z) (seq 0 ndim) in
  lines a (Array (shape a) junk) ndim axes (indices (map (fun ax => nth ax (shape a) 0) axes)).
End LOOP.

Local Open Scope R_scope.
(** np.fft.fftfreq(n, d) *)
Definition fftfreq (n : nat) (d : R) : list R :=
  let N := S ((n - 1) / 2) in map (fun k => IZR k / (INR n * d)) (map Z.of_nat (seq 0 N) ++ map (fun k => (- Z.of_nat (n / 2) + Z.of_nat k)%Z) (seq 0 (n - N))).
(** ezfft 155-178; numpy refuses n = 0 (division by zero) *)
Definition ezfft {A} (fft1 : list A -> option (list A)) (y : list A) (dt : R) : option (list R * list A) :=
  match fft1 y with
  | None => None
  | Some r => let faxis := fftfreq (length y) dt in let k := (length faxis / 2)%nat in Some (firstn k faxis, firstn k r)
  end.

(** *** lorentz 316-356 *)
Definition maximum (l : list R) : option R := match l with [] => None | x :: l => Some (fold_left Rmax l x) end.
Definition minimum (l : list R) : option R := match l with [] => None | x :: l => Some (fold_left Rmin l x) end.
Definition lorentz_sym (M : nat) (std : R) : option (list R) :=
  let w := map (fun i => let n := INR i - (INR M - 1) / 2 in std / (n ^ 2 + std ^ 2)) (seq 0 M) in
  match maximum w with Some m => Some (map (fun x => x / m) w) | None => None end.
Definition lorentz (M : Z) (std : R) (sym : bool) : option (list R) :=
  if (M <? 1)%Z then Some [] else if (M =? 1)%Z then Some [1] else
  let odd := (Z.odd M) in
  let extra := negb sym && negb odd in
  let M := if extra then (M + 1)%Z else M in
  match lorentz_sym (Z.to_nat M) std with
  | Some w => Some (if extra then removelast w else w)
  | None => None
  end.

(** *** scale 858-876; None for nan *)
Definition scale (x : list R) : option (list R) :=
  match minimum x with
  | None => None
  | Some m =>
    let xx := map (fun v => v - m) x in
    match maximum xx with Some M => if Req_EM_T M 0 then None else Some (map (fun v => v / M) xx) | None => None end
  end.

(** *** FIRFilter 879-971 *)
Inductive cut := One (f : R) | Many (l : list R).
Inductive win := Named (s : string) | Kaiser (beta : R).
Section FIR.
(** kaiserord(ripple, width/nyq); firwin(numtaps, cutoff, window, nyq, pass_zero, width) *)
Variable kaiserord : R -> R -> option (nat * R).
Variable firwin : nat -> cut -> win -> R -> bool -> option R -> option (list R).
Definition two (c : cut) : bool := match c with Many [_; _] => true | _ => false end.
(** 930-961.  In mode bandstop N is read before it is set. *)
Definition fir_init (cutoff : cut) (nyq : R) (ntaps : option nat) (ripple width : option R) (window : string) (mode : string) : option (list R) :=
  match (match ntaps with
         | Some n => Some (n, Named window)
         | None =>
           match ripple, width with
           | Some r, Some w => match kaiserord r (w / nyq) with Some (n, beta) => Some (n, Kaiser beta) | None => None end
           | _, _ => None
           end
         end) with
  | None => None
  | Some (n, win) =>
    match (if String.eqb mode "lowpass" then Some true else if String.eqb mode "highpass" then Some false
           else if String.eqb mode "bandpass" then (if two cutoff then Some false else None) else None) with
    | Some pass_zero => firwin n cutoff win nyq pass_zero width
    | None => None
    end
  end.
End FIR.
(** lfilter(taps, 1.0, x) *)
Definition fir_call (taps x : list R) : list R :=
  map (fun n => fold_right Rplus 0 (map (fun k => nth k taps 0 * (if (k <=? n)%nat then nth (n - k) x 0 else 0)) (seq 0 (length taps)))) (seq 0 (length x)).
