(** C43: the velocity autocorrelation function, in Python and in threaded Fortran. *)
From Coq Require Import Reals List Arith ZArith Lra Lia Permutation.
From Verif Require Import Signal Omp OmpProofs Vacf VacfSpec VacfProofs.
Import ListNotations.
Local Open Scope R_scope.

(** The three Python methods return C(t)/C(0), and fail only if C(0) = 0. *)
Theorem C43_python : forall vel nstep natoms m method, (1 <= method <= 3)%Z -> (0 < nstep)%nat ->
  (Cvv vel nstep natoms (masses m) 0 = 0 -> pyvacf vel nstep natoms m method = None) /\
  (Cvv vel nstep natoms (masses m) 0 <> 0 ->
   pyvacf vel nstep natoms m method
   = Some (map (fun t => Cvv vel nstep natoms (masses m) t / Cvv vel nstep natoms (masses m) 0) (seq 0 nstep))).
Proof.
  intros. rewrite pyvacf_spec by assumption. unfold over_first. destruct (Req_EM_T _ 0); split; intros; congruence.
Qed.
Print Assumptions C43_python.

(** So do both Fortran methods under every distribution of the iterations over any number
    of threads and every interleaving of their memory accesses. *)
Theorem C43_fortran : forall vel nstep natoms m method res, (1 <= method <= 2)%Z -> (0 < nstep)%nat ->
  (forall i, (i < natoms)%nat -> 0 <= masses m i) ->
  fvacf vel nstep natoms m method res ->
  (Cvv vel nstep natoms (masses m) 0 = 0 -> res = None) /\
  (Cvv vel nstep natoms (masses m) 0 <> 0 ->
   res = Some (map (fun t => Cvv vel nstep natoms (masses m) t / Cvv vel nstep natoms (masses m) 0) (seq 0 nstep))).
Proof.
  intros vel nstep natoms m method res Hm Hn P H. rewrite (fvacf_spec _ _ _ _ _ _ Hm Hn P H). unfold over_first.
  destruct (Req_EM_T _ 0); split; intros; congruence.
Qed.
Print Assumptions C43_fortran.

(** The call returns. *)
Theorem C43_returns : forall vel nstep natoms m method, exists res, fvacf vel nstep natoms m method res.
Proof. exact fvacf_exists. Qed.
Print Assumptions C43_returns.

(** A parallel loop whose iteration [t] touches only cell [t], over values of any type (so
    also machine numbers with their rounding): every schedule ends with the memory of the
    sequential loop, none of them blocks, and all take the same number of steps. *)
Theorem C43_deterministic : forall (A : Type) n (body : nat -> list (op A)) m m',
  (forall t o, In o (body t) -> fst o = t) -> parallel_do n body m m' -> forall t, m' t = sequential_do n body m t.
Proof. intros A n body m m' B P t. rewrite (parallel_spec _ _ _ _ B P), sequential_spec by assumption. reflexivity. Qed.
Print Assumptions C43_deterministic.

Theorem C43_no_deadlock : forall (A : Type) n (body : nat -> list (op A)) m assign k c,
  (forall t o, In o (body t) -> fst o = t) -> Permutation (concat assign) (seq 0 n) ->
  steps k (start m body assign) c ->
  (exists k' c', steps k' c c' /\ finished c') /\ (finished c -> k = (2 * length (flat_map body (concat assign)))%nat).
Proof.
  intros A n body m assign k c B P St.
  assert (ND : NoDup (concat assign)) by (eapply Permutation_NoDup; [apply Permutation_sym; exact P|apply seq_NoDup]).
  destruct (start_inv m body assign ND B) as [owner I]. pose proof (steps_inv _ _ _ _ _ St I) as I'.
  split; [destruct (run_to_end _ _ _ _ I' eq_refl) as (c' & S & F); eauto|].
  intros F. pose proof (steps_work _ _ _ _ _ St I) as W. assert (Z : work c = 0%nat).
  { unfold work, finished in *. clear - F. induction (threads c) as [|th l IH]; [reflexivity|]. inversion F as [|? ? H1 H2]; subst.
    cbn. rewrite H1. cbn. apply IH. assumption. }
  rewrite Z, Nat.add_0_r in W. rewrite <- W. unfold work, start. cbn [threads]. clear. induction assign as [|l a IH]; [reflexivity|].
  cbn [map list_sum fold_right concat]. rewrite flat_map_app, app_length, Nat.mul_add_distr_l. unfold list_sum in IH. rewrite IH. cbn [todo reg]. lia.
Qed.
Print Assumptions C43_no_deadlock.

(** No value exceeds the one at t = 0, which is 1. *)
Theorem C43_bounded : forall vel nstep natoms m method c, (1 <= method <= 3)%Z -> (0 < nstep)%nat ->
  (forall i, (i < natoms)%nat -> 0 <= masses m i) -> pyvacf vel nstep natoms m method = Some c ->
  length c = nstep /\ nth 0 c 0 = 1 /\ forall t, (t < nstep)%nat -> -1 <= nth t c 0 <= 1.
Proof.
  intros vel nstep natoms m method c Hm Hn P E. rewrite pyvacf_spec in E by assumption. unfold over_first in E.
  destruct (Req_EM_T _ 0) as [|NZ]; [discriminate|]. injection E as <-. split; [rewrite map_length, seq_length; reflexivity|].
  assert (N : forall t, (t < nstep)%nat -> nth t (map (fun t => Cvv vel nstep natoms (masses m) t / Cvv vel nstep natoms (masses m) 0) (seq 0 nstep)) 0
    = Cvv vel nstep natoms (masses m) t / Cvv vel nstep natoms (masses m) 0) by (intros; rewrite (SignalProofs.nth_map_seq _ (fun t => Cvv vel nstep natoms (masses m) t / Cvv vel nstep natoms (masses m) 0)) by assumption; reflexivity).
  split; [rewrite N by assumption; field; assumption|]. intros t Ht. rewrite N by assumption.
  pose proof (Cvv_bound vel nstep natoms (masses m) t P) as B.
  assert (0 < Cvv vel nstep natoms (masses m) 0) by (pose proof (Rabs_pos (Cvv vel nstep natoms (masses m) t)); lra).
  assert (G : Rabs (Cvv vel nstep natoms (masses m) t / Cvv vel nstep natoms (masses m) 0) <= 1);
    [|revert G; unfold Rabs; destruct (Rcase_abs _); lra].
  unfold Rdiv. rewrite Rabs_mult, Rabs_inv, (Rabs_right (Cvv vel nstep natoms (masses m) 0)) by lra.
  apply Rmult_le_reg_r with (Cvv vel nstep natoms (masses m) 0); [assumption|]. rewrite Rmult_assoc, Rinv_l by assumption. lra.
Qed.
Print Assumptions C43_bounded.

(** An unknown method: Python raises ValueError, the Fortran interface returns zeros. *)
Theorem C43_unknown_method : forall vel nstep natoms m method res, ~ (1 <= method <= 3)%Z ->
  pyvacf vel nstep natoms m method = None /\
  (fvacf vel nstep natoms m method res -> res = Some (repeat 0 nstep)).
Proof.
  intros vel nstep natoms m method res H. assert (E : (method =? 1)%Z = false /\ (method =? 2)%Z = false /\ (method =? 3)%Z = false)
    by (rewrite !Z.eqb_neq; lia). destruct E as (E1 & E2 & E3). unfold pyvacf, fvacf, flib_vacf. rewrite E1, E2, E3. split; [reflexivity|].
  assert (R : map (fun _ : nat => 0) (seq 0 nstep) = repeat 0 nstep).
  { generalize 0%nat. induction nstep as [|n IH]; intros s; [reflexivity|]. cbn. rewrite IH. reflexivity. }
  rewrite R. destruct m; [auto|intros [_ ->]; reflexivity].
Qed.
Print Assumptions C43_unknown_method.

(** Two steps, one atom of mass 2: velocities (1,1,1) then (2,2,2). *)
Example C43_witness : let vel := fun j _ _ : nat => INR (j + 1) in
  pyvacf vel 2 1 (Some (fun _ => 2)) 3 = Some [1; 2 / 5] /\
  forall res, fvacf vel 2 1 (Some (fun _ => 2)) 2 res -> res = Some [1; 2 / 5].
Proof.
  cbv zeta. set (vel := fun j _ _ : nat => INR (j + 1)).
  assert (C0 : Cvv vel 2 1 (fun _ => 2) 0 = 30) by (unfold Cvv, vel; cbn; lra).
  assert (C1 : Cvv vel 2 1 (fun _ => 2) 1 = 12) by (unfold Cvv, vel; cbn; lra).
  assert (E : Some (map (fun t => Cvv vel 2 1 (fun _ => 2) t / Cvv vel 2 1 (fun _ => 2) 0) (seq 0 2)) = Some [1; 2 / 5])
    by (cbn [map seq]; rewrite C0, C1; f_equal; f_equal; [lra|f_equal; lra]).
  split.
  - destruct (C43_python vel 2 1 (Some (fun _ => 2)) 3) as [_ H]; [lia|lia|]. cbn [masses] in H. rewrite H by lra. exact E.
  - intros res H. destruct (C43_fortran vel 2 1 (Some (fun _ => 2)) 2 res) as [_ H']; [lia|lia|intros; cbn; lra|assumption|].
    cbn [masses] in H'. rewrite H' by lra. exact E.
Qed.

(** The memory model does lose updates when two iterations share a cell, so the condition
    on the loop body matters: the result of [do t = 0, 1: c(0) = c(0) + 1] is 1 or 2. *)
Example C43_race : let body := fun _ : nat => [(0%nat, S)] in
  (exists m', parallel_do 2 body (fun _ => 0%nat) m' /\ m' 0%nat = 1%nat) /\
  (exists m', parallel_do 2 body (fun _ => 0%nat) m' /\ m' 0%nat = 2%nat).
Proof.
  cbv zeta. set (b := [(0%nat, S)]). split.
  - eexists. split.
    + exists [[0%nat]; [1%nat]]. eexists. eexists. split; [apply Permutation_refl|]. split; [|split; [|reflexivity]].
      * eapply More; [exact (Read (fun _ => 0%nat) [] [Thread b None] 0 S [])|].
        eapply More; [exact (Read (fun _ => 0%nat) [Thread b (Some 0%nat)] [] 0 S [])|].
        eapply More; [exact (Write (fun _ => 0%nat) [] [Thread b (Some 0%nat)] 0 S [] 0%nat)|].
        eapply More; [exact (Write _ [Thread [] None] [] 0 S [] 0%nat)|]. apply Done.
      * repeat constructor.
    + reflexivity.
  - eexists. split.
    + exists [[0%nat]; [1%nat]]. eexists. eexists. split; [apply Permutation_refl|]. split; [|split; [|reflexivity]].
      * eapply More; [exact (Read (fun _ => 0%nat) [] [Thread b None] 0 S [])|].
        eapply More; [exact (Write (fun _ => 0%nat) [] [Thread b None] 0 S [] 0%nat)|].
        eapply More; [exact (Read _ [Thread [] None] [] 0 S [])|].
        eapply More; [exact (Write _ [Thread [] None] [] 0 S [] _)|]. apply Done.
      * repeat constructor.
    + reflexivity.
Qed.
