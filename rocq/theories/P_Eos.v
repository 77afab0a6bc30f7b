(** C54: the Vinet equation of state. *)
From Coq Require Import Reals List Bool Lra Lia.
From Coquelicot Require Import Coquelicot.
From Verif Require Import Eos EosProofs.
Import ListNotations.
Local Open Scope R_scope.

(** C54: the derivative functions are the derivatives of the energy, for every volume and parameters. *)
Theorem C54_derivatives :
  forall E0 B0 B1 V0 V, 0 < V0 -> B1 <> 1 -> 0 < V ->
  let p := Params E0 B0 B1 V0 in
  is_derive (fun x => vinet x p) V (vinet_deriv1 V p) /\ is_derive (fun x => vinet_deriv1 x p) V (vinet_deriv2 V p).
Proof.
  intros E0 B0 B1 V0 V P N H p. split; [exact (deriv1 p P V H N) | exact (deriv2 p P V H)].
Qed.

(** C54: the parameters mean what their names say.  At V0 the energy is E0, the pressure -dE/dV is 0, the
    bulk modulus V*d2E/dV2 is B0, and its derivative with respect to the pressure is B1 (with respect to
    the volume: B1 times dP/dV = -B0/V0). *)
Theorem C54_parameters :
  forall E0 B0 B1 V0, 0 < V0 -> B1 <> 1 ->
  let p := Params E0 B0 B1 V0 in let P V := - vinet_deriv1 V p in let B V := V * vinet_deriv2 V p in
  vinet V0 p = E0 /\ P V0 = 0 /\ B V0 = B0 /\
  exists P', is_derive P V0 P' /\ is_derive B V0 (B1 * P').
Proof.
  intros E0 B0 B1 V0 H N p P B. destruct (at_v0 p H N) as (A1 & A2 & A3). split; [exact A1|].
  split; [unfold P; cbn [v0 p] in A2; rewrite A2; lra|]. split; [exact A3|].
  exists (- vinet_deriv2 V0 p). split.
  - apply (is_derive_opp (fun x => vinet_deriv1 x p)). exact (deriv2 p H V0 H).
  - replace (B1 * - vinet_deriv2 V0 p) with (- B1 * (B0 / V0)); [exact (bulk_derive p H)|].
    cbn [v0 b0 p] in A3. rewrite <- A3. field. lra.
Qed.

(** C54: [get_min] is the minimum of the curve, over all positive volumes. *)
Theorem C54_get_min :
  forall E0 B0 B1 V0 V, 0 < V0 -> 0 < B0 -> B1 <> 1 -> 0 < V ->
  let p := Params E0 B0 B1 V0 in
  get_min p = V0 /\ (V <> get_min p -> vinet (get_min p) p < vinet V p).
Proof.
  intros E0 B0 B1 V0 V P B N H p. split; [reflexivity|]. intro NE.
  replace (vinet (get_min p) p) with (e0 p) by (symmetry; apply (at_v0 p P N)).
  exact (minimum p P V B N H NE).
Qed.

(** C54: [__call__] and [pressure]: orders 0 to 2 come from the formulas, higher ones from the spline. *)
Theorem C54_call :
  forall p spl V c,
  call spl p V 0 = vinet V p /\ call spl p V 1 = vinet_deriv1 V p /\ call spl p V 2 = vinet_deriv2 V p /\
  (forall n, (3 <= n)%nat -> call spl p V n = spl V n) /\
  pressure c spl p V = - vinet_deriv1 V p * c.
Proof.
  intros p spl V c. repeat split; try reflexivity. intros [|[|[|n]]] H; try lia. reflexivity.
Qed.

(** C54: [bulkmod] is right at V0, and only there in general: it does not depend on its argument. *)
Theorem C54_bulkmod :
  forall E0 B0 B1 V0 c, 0 < V0 -> B1 <> 1 ->
  let p := Params E0 B0 B1 V0 in
  bulkmod c p V0 = V0 * vinet_deriv2 V0 p * c /\ (forall V W, bulkmod c p V = bulkmod c p W).
Proof.
  intros E0 B0 B1 V0 c H N p. split; [|reflexivity]. destruct (at_v0 p H N) as (_ & _ & A). cbn [v0 b0 p] in A.
  unfold bulkmod. cbn [b0 p]. rewrite <- A. reflexivity.
Qed.
Theorem C54_bulkmod_refuted :
  exists p V c, 0 < v0 p /\ 0 < V /\ 0 < c /\ b1 p = 4 /\ V * vinet_deriv2 V p * c < 0 < bulkmod c p V.
Proof.
  exists (Params 0 1 4 1), 8, 1. pose proof far as F. unfold bulkmod. cbn [v0 b0 b1]. repeat split; lra.
Qed.

(** C54: the starting point of the fit is the vertex of the parabola, with its bulk modulus. *)
Theorem C54_guess :
  forall a b c, a <> 0 ->
  let g := guess a b c in
  (forall V, a * V ^ 2 + b * V + c = e0 g + a * (V - v0 g) ^ 2) /\
  b0 g = v0 g * (2 * a).
Proof. intros a b c A. exact (guess_spec a b c A). Qed.

(** C54: the check of the vertex raises exactly when it is at or below the smallest volume (and below the
    largest); ... *)
Theorem C54_guard :
  forall polyfit2 leastsq volume energy a b c, volume <> [] -> polyfit2 volume energy = (a, b, c) ->
  (forall f l, length (leastsq f l) = length l) ->
  (fit polyfit2 leastsq volume energy = None <->
   (forall v, In v volume -> v0 (guess a b c) <= v) /\ (exists v, In v volume /\ v0 (guess a b c) < v)).
Proof.
  intros polyfit2 leastsq volume energy a b c NE E L. unfold fit. rewrite E.
  destruct (vmin_spec volume NE) as [M1 M2]. destruct (vmax_spec volume NE) as [X1 X2].
  transitivity (guard_raises (vmin volume) (vmax volume) (v0 (guess a b c)) = true).
  - destruct (guard_raises _ _ _); [tauto|]. split; [|discriminate]. intro H. exfalso.
    pose proof (L (target volume energy) (dct2lst (guess a b c))) as Len.
    destruct (leastsq (target volume energy) (dct2lst (guess a b c))) as [|x1 [|x2 [|x3 [|x4 r]]]]; cbn in H, Len; discriminate.
  - rewrite guard_spec. split.
    + intros [H1 H2]. split; [intros v I; specialize (M2 v I); lra | exists (vmax volume); auto].
    + intros [H1 (v & I & H2)]. split; [apply H1; exact M1 | specialize (X2 v I); lra].
Qed.
(** ... so a vertex above all volumes is accepted, contrary to the message. *)
Theorem C54_guard_refuted :
  exists a b c volume, a <> 0 /\ (2 < length volume)%nat /\ (forall v, In v volume -> v < v0 (guess a b c)) /\
  forall polyfit2 leastsq energy, polyfit2 volume energy = (a, b, c) ->
  (forall f l, length (leastsq f l) = length l) -> fit polyfit2 leastsq volume energy <> None.
Proof.
  exists 1, (-8), 0, [1; 2; 3]. split; [lra|]. split; [cbn; lia|].
  assert (V : v0 (guess 1 (-8) 0) = 4) by (cbn; field).
  split; [rewrite V; intros v [<-|[<-|[<-|[]]]]; lra|].
  intros polyfit2 leastsq energy E L F.
  apply (C54_guard polyfit2 leastsq [1; 2; 3] energy 1 (-8) 0) in F; [|discriminate|exact E|exact L].
  destruct F as [F _]. specialize (F 1 ltac:(left; reflexivity)). rewrite V in F. lra.
Qed.

(** C54: if the energies lie on a Vinet curve and [leastsq] finds a point that is not worse than any
    other, the fitted curve goes through all of them. *)
Theorem C54_fit_exact :
  forall polyfit2 leastsq volume p energy q, length energy = length volume ->
  energy = map (fun V => vinet V p) volume ->
  (let f := target volume energy in
   forall start r, f (leastsq f start) = Some r -> forall l r', length l = 4%nat -> f l = Some r' -> sumsq r <= sumsq r') ->
  fit polyfit2 leastsq volume energy = Some q ->
  map (fun V => vinet V q) volume = energy.
Proof.
  intros polyfit2 leastsq volume p energy q Len E Min F. cbv zeta in Min. unfold fit in F.
  destruct (polyfit2 volume energy) as [[a b] c]. destruct (guard_raises _ _ _); [discriminate|].
  set (l := leastsq (target volume energy) (dct2lst (guess a b c))) in F.
  assert (T : target volume energy l = Some (map (fun ve => snd ve - vinet (fst ve) q) (combine volume energy))).
  { unfold target. rewrite F. reflexivity. }
  pose proof (Min _ _ T (dct2lst p) _ eq_refl eq_refl) as Le.
  assert (Z : sumsq (map (fun ve => snd ve - vinet (fst ve) p) (combine volume energy)) <= 0).
  { apply sumsq_zero. rewrite E. clear. induction volume as [|V l IH]; cbn; constructor; [|exact IH].
    destruct p. cbn. lra. }
  change (Params (e0 p) (b0 p) (b1 p) (v0 p)) with (match lst2dct (dct2lst p) with Some x => x | None => p end) in Le.
  assert (P : match lst2dct (dct2lst p) with Some x => x | None => p end = p) by (destruct p; reflexivity).
  rewrite P in Le. assert (Z' := Rle_trans _ _ _ Le Z). apply sumsq_zero in Z'.
  clear - Z' Len. revert energy Len Z'. induction volume as [|V l IH]; intros [|x energy] Len Z; try discriminate; [reflexivity|].
  cbn in *. inversion Z as [|? ? Z1 Z2]; subst. rewrite (IH energy) by (auto; lia). f_equal. lra.
Qed.

(** C54: the parameters keep their order on the way to [leastsq] and back. *)
Theorem C54_order :
  (forall p, lst2dct (dct2lst p) = Some p) /\
  (forall l p, length l = 4%nat -> lst2dct l = Some p -> dct2lst p = l).
Proof.
  split; [intros []; reflexivity|]. intros [|a [|b [|c [|d [|e l]]]]] p L H; try discriminate. injection H as <-. reflexivity.
Qed.

(** aluminium-like numbers: the hypotheses are met *)
Example C54_case :
  let p := Params (-57) (1 / 2) 4 40 in
  vinet 40 p = -57 /\ 40 * vinet_deriv2 40 p = 1 / 2 /\ -57 < vinet 50 p.
Proof.
  cbv zeta. destruct (C54_parameters (-57) (1 / 2) 4 40 ltac:(lra) ltac:(lra)) as (A & _ & B & _).
  split; [exact A|]. split; [exact B|].
  pose proof (proj2 (C54_get_min (-57) (1 / 2) 4 40 50 ltac:(lra) ltac:(lra) ltac:(lra) ltac:(lra))) as M.
  unfold get_min in M. cbn [v0] in M. rewrite A in M. apply M. lra.
Qed.

Print Assumptions C54_derivatives.
Print Assumptions C54_parameters.
Print Assumptions C54_get_min.
Print Assumptions C54_call.
Print Assumptions C54_bulkmod.
Print Assumptions C54_bulkmod_refuted.
Print Assumptions C54_guess.
Print Assumptions C54_guard.
Print Assumptions C54_guard_refuted.
Print Assumptions C54_fit_exact.
Print Assumptions C54_order.
