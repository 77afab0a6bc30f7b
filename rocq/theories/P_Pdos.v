(** C68: the phonon density of states. *)
From Coq Require Import Reals List Arith ZArith String Lra Lia.
From Coquelicot Require Import Coquelicot.
From Verif Require Import Signal Vacf VacfSpec Num NumSpec NumProofs PadSpec Pdos PdosSpec PdosProofs VacfProofs.
Import ListNotations.
Local Notation total := VacfSpec.total.
Local Open Scope R_scope.

(** Padding the velocities with [npad=1] gives exactly the spectrum obtained from the mirrored
    velocity autocorrelation function, same frequencies and same values, whatever the
    schedule of the threads that compute the latter. *)
Theorem C68_same : forall func vel nstep natoms dt m area window res, homogeneous func -> (0 < nstep)%nat ->
  (forall i, (i < natoms)%nat -> 0 <= masses m i) ->
  let vel2 := windowed vel nstep window in
  Cvv vel2 nstep natoms (masses m) 0 <> 0 ->
  let N := (2 * nstep - 1)%nat in
  func (map (fun k => spectrum vel2 nstep natoms (masses m) (2 * PI * INR k / INR N)) (seq 0 (N / 2))) (faxis N dt) <> 0 ->
  pdos_vacf func vel nstep natoms dt m area window true res ->
  res = pdos_direct func vel nstep natoms dt m area window (Some 1%nat) false /\ res <> None.
Proof. exact routes_agree. Qed.
Print Assumptions C68_same.

(** The window acts along the time axis. *)
Theorem C68_window : forall vel nstep window j i k, (j < nstep)%nat -> windowed vel nstep window j i k = tapered vel nstep window j i k.
Proof.
  intros vel nstep window j i k H. unfold windowed, tapered. destruct window; [|reflexivity]. f_equal. unfold welch.
  destruct (Nat.ltb_spec nstep 1) as [L|L]; [lia|]. destruct (Nat.eqb_spec nstep 1) as [->|N]; [replace j with 0%nat by lia; reflexivity|].
  rewrite (nth_indep _ 0 ((fun n => 1 - ((INR n - 1 / 2 * (INR nstep - 1)) / (1 / 2 * (INR nstep - 1))) ^ 2) 0%nat)) by (now rewrite map_length, seq_length).
  rewrite (map_nth (fun n => 1 - ((INR n - 1 / 2 * (INR nstep - 1)) / (1 / 2 * (INR nstep - 1))) ^ 2)), seq_nth by exact H. cbn [Nat.add].
  assert (1 < INR nstep) by (apply (lt_INR 1); lia). f_equal. f_equal. field. lra.
Qed.
Print Assumptions C68_window.

(** With any padding the result is the mass-weighted power spectrum of the windowed
    velocities at the frequencies k/(N dt), scaled so that its integral is [area]. *)
Theorem C68_spectrum : forall func vel nstep natoms dt m area window npad tonext f p, homogeneous func -> (0 < nstep)%nat ->
  pdos_direct func vel nstep natoms dt m area window npad tonext = Some (f, p) ->
  exists N, (nstep <= N)%nat /\
    match npad with
    | None => N = nstep
    | Some q => if tonext then next_power (Z.of_nat (nstep + (nstep - 1) * q)) (Z.of_nat N) else N = (nstep + (nstep - 1) * q)%nat
    end /\
    f = map (fun k => INR k / (INR N * dt)) (seq 0 (N / 2)) /\
    let s := map (fun k => spectrum (tapered vel nstep window) nstep natoms (masses m) (2 * PI * INR k / INR N)) (seq 0 (N / 2)) in
    (func s f <> 0 -> p = map (fun x => x * area / func s f) s /\ func p f = area).
Proof.
  intros func vel nstep natoms dt m area window npad tonext f p Hf Hn H. destruct (direct_spec _ _ _ _ _ _ _ _ _ _ _ _ Hf Hn H) as (N & A & B & C & D).
  exists N. split; [exact A|]. split; [exact B|]. split; [exact C|]. cbv zeta in *.
  assert (E : forall w, spectrum (windowed vel nstep window) nstep natoms (masses m) w = spectrum (tapered vel nstep window) nstep natoms (masses m) w).
  { intros w. assert (X : forall n g h, (forall j, (j < n)%nat -> g j = h j) -> total n g = total n h).
    { intros n g h. induction n as [|n IH]; intros K; [reflexivity|]. cbn. rewrite IH, K by (try intros; try apply K; lia). reflexivity. }
    unfold spectrum, power_at. apply X. intros i _. f_equal. apply X. intros k _. f_equal; f_equal; apply X; intros j Hj; now rewrite C68_window. }
  rewrite (map_ext _ (fun k => spectrum (tapered vel nstep window) nstep natoms (masses m) (2 * PI * INR k / INR N))) in D by (intros; apply E). exact D.
Qed.
Print Assumptions C68_spectrum.

(** The spectrum is nowhere negative. *)
Theorem C68_nonneg : forall vel nstep natoms m w, (forall i, (i < natoms)%nat -> 0 <= m i) -> 0 <= spectrum vel nstep natoms m w.
Proof. exact spectrum_nonneg. Qed.
Print Assumptions C68_nonneg.

(** One atom that moves in the first step only. *)
Definition kick : nat -> nat -> nat -> R := fun j _ _ => if (j =? 0)%nat then 1 else 0.
Lemma kick_spectrum : forall w, spectrum kick 3 1 (fun _ => 1) w = 3.
Proof.
  intros w. unfold spectrum, power_at, kick. cbn [total Nat.eqb INR]. rewrite !Rmult_0_l, cos_0, sin_0. ring.
Qed.
(** Three steps, one atom that moves in the first step only: all conditions hold. *)
Example C68_witness : exists res, pdos_vacf trapz kick 3 1 1 None 1 false true res /\
  res = pdos_direct trapz kick 3 1 1 None 1 false (Some 1%nat) false /\ res <> None.
Proof.
  destruct (fvacf_exists kick 3 1 None 2) as [v V].
  exists (match v with Some v => Some (pdos_of_vacf trapz v 1 1 true) | None => None end).
  assert (P : pdos_vacf trapz kick 3 1 1 None 1 false true (match v with Some v => Some (pdos_of_vacf trapz v 1 1 true) | None => None end))
    by (exists v; split; [exact V|reflexivity]).
  split; [exact P|]. apply C68_same; auto using trapz_homogeneous.
  - intros. cbn. lra.
  - cbn [masses windowed]. unfold Cvv, kick. cbn. lra.
  - cbn [masses windowed]. change ((2 * 3 - 1) / 2)%nat with 2%nat. unfold faxis. change ((2 * 3 - 1) / 2)%nat with 2%nat.
    cbn [map seq]. rewrite !kick_spectrum. cbn. lra.
Qed.
