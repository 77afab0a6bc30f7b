(** C98: the Debye and Einstein functions and the thermal expansion built on them *)
From Coq Require Import Reals List Lra Lia Sorted.
From Coquelicot Require Import Coquelicot.
From Verif Require Import Thermo ThermoSpec ThermoProofs Expansion ExpansionSpec ExpansionProofs.
Import ListNotations.
Local Open Scope R_scope.

Section D.
Variables (nstep : nat) (zero : R).
Hypothesis N : (2 <= nstep)%nat.
Hypothesis Z : 0 < zero < 1.
Local Notation n1 := (INR (nstep - 1)).
Local Notation h := ((1 - zero) / INR (nstep - 1)).
Local Notation pts := (grid zero h (nstep - 1)).
Lemma n1p : 0 < n1. Proof. exact (steps_pos nstep N). Qed.
Lemma h_pos : 0 < h. Proof. assert (P := n1p). apply Rdiv_lt_0_compat; lra. Qed.
Lemma end1 : zero + n1 * h = 1. Proof. assert (P := n1p). field. lra. Qed.
Lemma pts_in t : In t pts -> 0 < t <= 1.
Proof. intros I. apply grid_in in I; [|assert (H := h_pos); lra]. rewrite end1 in I. lra. Qed.
Lemma pts_sorted : StronglySorted Rle (map (fun t => t) pts).
Proof. rewrite map_id. apply grid_sorted. assert (H := h_pos). lra. Qed.
Lemma pts_lin : tzr (fun t => t) pts = (1 - zero ^ 2) / 2.
Proof.
  assert (E : forall n a k, tzr (fun t => t) (grid a k n) = ((a + INR n * k) ^ 2 - a ^ 2) / 2). { induction n as [|n IH]; intros a k; [unfold grid, tz, trapz; cbn [seq map trapz_from INR]; field|]. rewrite tz_grid, IH, S_INR. field. }
  rewrite E, end1. field.
Qed.
Lemma le_pts f1 f2 : (forall t, 0 < t <= 1 -> f1 t <= f2 t) -> tzr f1 pts <= tzr f2 pts.
Proof. intros H. apply tz_le; [exact pts_sorted|]. intros t I. apply H. now apply pts_in. Qed.
(** 3 trapezoids of t^2 *)
Definition kappa : R := 1 - zero ^ 3 + (1 - zero) ^ 3 / (2 * n1 ^ 2).
Lemma kappa_tz : 3 * tzr (fun t => t ^ 2) pts = kappa.
Proof. rewrite tz_square, end1. unfold kappa. assert (P := n1p). field. lra. Qed.
Lemma pos_tz f : (forall t, 0 < t <= 1 -> 0 < f t) -> 0 < tzr f pts.
Proof.
  intros H. destruct (nstep - 1)%nat as [|m] eqn:E; [lia|]. assert (HP : 0 < (1 - zero) / INR (S m)) by (rewrite <- E; exact h_pos). rewrite tz_grid.
  assert (IN : forall t, In t (grid zero ((1 - zero) / INR (S m)) (S m)) -> 0 < t <= 1) by (intros t I; apply pts_in; rewrite E; exact I).
  assert (A : 0 < f zero) by (apply H; apply IN; rewrite grid_cons; now left).
  assert (B : 0 < f (zero + (1 - zero) / INR (S m))) by (apply H; apply IN; rewrite grid_cons; right; destruct (grid_head (zero + (1 - zero) / INR (S m)) ((1 - zero) / INR (S m)) m) as (l & ->); now left).
  assert (C : 0 <= tzr f (grid (zero + (1 - zero) / INR (S m)) ((1 - zero) / INR (S m)) m)).
  { apply tz_pos; [rewrite map_id; apply grid_sorted; lra|]. intros t I. apply Rlt_le, H, IN. rewrite grid_cons. now right. }
  set (k := (1 - zero) / INR (S m)) in *. assert (0 < k * (f (zero + k) + f zero)) by (apply Rmult_lt_0_compat; lra). lra.
Qed.
Lemma lt_tz f1 f2 : (forall t, 0 < t <= 1 -> f1 t < f2 t) -> tzr f1 pts < tzr f2 pts.
Proof.
  intros H. assert (P := pos_tz (fun t => -1 * f1 t + f2 t) ltac:(intros t T; assert (X := H t T); lra)). rewrite (tz_lin (fun t => t) (-1) f1 f2) in P. lra.
Qed.
Lemma debye_bounds x : 0 < x -> 0 < debye1 nstep zero x <= kappa / x /\ kappa / x - 3 / 4 <= debye1 nstep zero x /\ debye1 nstep zero x <= 3 / 2 / x ^ 2.
Proof.
  intros X. rewrite debye_tz by exact N. split; [split|split].
  - apply Rmult_lt_0_compat; [lra|]. apply pos_tz. intros t T. apply (g_bound x X). lra.
  - replace (kappa / x) with (3 * tzr (fun t => / x * t ^ 2) pts) by (rewrite (tz_scal (fun t => t) (/ x) (fun t => t ^ 2)), <- kappa_tz; unfold Rdiv; ring). apply Rmult_le_compat_l; [lra|]. apply le_pts. intros t T. replace (/ x * t ^ 2) with (t ^ 2 / x) by (unfold Rdiv; ring). apply (g_bound x X). lra.
  - assert (L : tzr (fun t => / x * t ^ 2 + - (1 / 2) * t) pts <= tzr (g x) pts).
    { apply le_pts. intros t T. assert (B := g_low x X t ltac:(lra)). assert (t ^ 3 <= t) by (cbn; nra). unfold Rdiv in *. lra. }
    rewrite (tz_lin (fun t => t) (/ x) (fun t => t ^ 2)), (tz_scal (fun t => t) (- (1 / 2)) (fun t => t)), pts_lin in L. replace (kappa / x) with (3 * (/ x * tzr (fun t => t ^ 2) pts)) by (rewrite <- kappa_tz; unfold Rdiv; ring). assert (0 <= zero ^ 2) by (cbn; nra). lra.
  - assert (L : tzr (g x) pts <= tzr (fun t => / x ^ 2 * t) pts).
    { apply le_pts. intros t T. assert (U : 0 < t * x) by (apply Rmult_lt_0_compat; lra). assert (M := exp_more _ U). destruct (psi_bounds _ U) as ((_ & P) & _). unfold psi in P.
      assert (P2 : 0 < (exp (t * x) - 1) ^ 2) by (apply pow_lt; lra). apply (Rmult_le_compat_r ((exp (t * x) - 1) ^ 2)) in P; [|lra]. replace ((t * x) ^ 2 * exp (t * x) / (exp (t * x) - 1) ^ 2 * (exp (t * x) - 1) ^ 2) with ((t * x) ^ 2 * exp (t * x)) in P by (field; lra). set (e := exp (t * x)) in *.
      assert (Q : (t * x) ^ 2 <= e - 1) by nra. unfold g. fold e. assert (0 < x ^ 2) by (apply pow_lt; lra). apply (Rmult_le_reg_r ((e - 1) * x ^ 2)); [apply Rmult_lt_0_compat; lra|]. replace (t ^ 3 / (e - 1) * ((e - 1) * x ^ 2)) with (t * (t * x) ^ 2) by (field; lra). replace (/ x ^ 2 * t * ((e - 1) * x ^ 2)) with (t * (e - 1)) by (field; lra). apply Rmult_le_compat_l; lra. }
    rewrite (tz_scal (fun t => t) (/ x ^ 2) (fun t => t)), pts_lin in L. assert (0 < / x ^ 2) by (apply Rinv_0_lt_compat, pow_lt; lra). assert (0 <= zero ^ 2) by (cbn; nra). replace (3 / 2 / x ^ 2) with (3 * (/ x ^ 2 * (1 / 2))) by (field; lra). nra.
Qed.
Lemma debye_dec x y : 0 < x < y -> debye1 nstep zero y < debye1 nstep zero x.
Proof.
  intros (X & Y). rewrite !debye_tz by exact N. apply Rmult_lt_compat_l; [lra|]. apply lt_tz. intros t T. unfold g, Rdiv. assert (t ^ 3 > 0) by (apply pow_lt; lra). apply Rmult_lt_compat_l; [lra|]. assert (D := bose_dec (t * x) (t * y) ltac:(split; nra)). unfold Rdiv in D. lra.
Qed.
Lemma debye_error x : 0 < x -> ex_RInt (g x) 0 1 /\ Rabs (debye1 nstep zero x - 3 * RInt (g x) 0 1) <= 9 / 2 * (1 - zero) ^ 2 / (x * n1) + 3 * zero ^ 3 / x.
Proof.
  intros X. split; [apply g_int; lra|]. rewrite debye_tz by exact N. assert (P := n1p). assert (HP := h_pos).
  assert (T := trap_error (g x) (3 / x) h ltac:(lra) ltac:(apply Rlt_le, Rdiv_lt_0_compat; lra) (nstep - 1) zero). rewrite end1 in T. assert (T' := T ltac:(intros s t S1 T1; apply g_lip; lra) ltac:(apply g_int; lra)). clear T.
  rewrite <- (RInt_Chasles (g x) 0 zero 1) by (apply g_int; lra). change (plus ?u ?v) with (u + v). assert (S0 := g_start x X zero ltac:(lra)).
  replace (3 * tzr (g x) pts - 3 * (RInt (g x) 0 zero + RInt (g x) zero 1)) with (3 * (tzr (g x) pts - RInt (g x) zero 1) + - (3 * RInt (g x) 0 zero)) by ring. eapply Rle_trans; [apply Rabs_triang|]. apply Rplus_le_compat.
  - rewrite Rabs_mult, (Rabs_pos_eq 3) by lra. replace (9 / 2 * (1 - zero) ^ 2 / (x * n1)) with (3 * (n1 * (3 / x * h ^ 2 / 2))) by (field; lra). lra.
  - rewrite Rabs_Ropp, Rabs_pos_eq by lra. replace (3 * zero ^ 3 / x) with (3 * (zero ^ 3 / x)) by (field; lra). lra.
Qed.
Lemma debye_slope theta T : 0 < theta -> 0 < T -> exists s, is_derive (fun T => theta * debye1 nstep zero (theta / T)) T s /\ 0 < s <= kappa /\ kappa - 3 / 8 * (theta / T) ^ 2 <= s.
Proof.
  intros TH TP. exists (3 * tzr (fun t => t ^ 2 * psi (t * (theta / T))) pts). split; [|split; [split|]].
  - apply (is_derive_ext (fun T => 3 * tzr (fun t => theta * g (theta / T) t) pts)).
    { intros t. rewrite debye_tz by exact N. rewrite (tz_scal (fun t => t) theta). assert (Q : forall y : R, 3 * (theta * y) = theta * (3 * y)) by (intros; ring). apply Q. }
    evar_last. { apply (is_derive_scal (fun T => tzr (fun t => theta * g (theta / T) t) pts) T 3). apply (tz_derive (fun t => t) (fun T t => theta * g (theta / T) t) (fun t => t ^ 2 * psi (t * (theta / T)))). intros t I. apply pts_in in I. assert (U : 0 < t * (theta / T)) by (apply Rmult_lt_0_compat; [lra|]; now apply Rdiv_lt_0_compat). assert (M := exp_more _ U).
      unfold g. assert (M2 := M). unfold Rdiv in M2. auto_derive; [repeat split; try lra; exact Logic.I|]. unfold psi. replace (t * (theta * / T)) with (t * (theta / T)) by reflexivity. set (e := exp (t * (theta / T))) in *. field. lra. }
    reflexivity.
  - apply Rmult_lt_0_compat; [lra|]. apply pos_tz. intros t I. assert (U : 0 < t * (theta / T)) by (apply Rmult_lt_0_compat; [lra|]; now apply Rdiv_lt_0_compat). destruct (psi_bounds _ U) as (_ & P). apply Rmult_lt_0_compat; [apply pow_lt; lra|exact P].
  - rewrite <- kappa_tz. apply Rmult_le_compat_l; [lra|]. apply le_pts. intros t I. assert (U : 0 < t * (theta / T)) by (apply Rmult_lt_0_compat; [lra|]; now apply Rdiv_lt_0_compat). destruct (psi_bounds _ U) as ((_ & P) & _). assert (0 < t ^ 2) by (apply pow_lt; lra). nra.
  - assert (L : tzr (fun t => - ((theta / T) ^ 2 / 4) * t + t ^ 2) pts <= tzr (fun t => t ^ 2 * psi (t * (theta / T))) pts).
    { apply le_pts. intros t I. assert (V : 0 < theta / T) by now apply Rdiv_lt_0_compat. assert (U : 0 < t * (theta / T)) by (apply Rmult_lt_0_compat; lra). destruct (psi_bounds _ U) as ((P & _) & _). assert (T2 : 0 < t ^ 2) by (apply pow_lt; lra). apply (Rmult_le_compat_l (t ^ 2)) in P; [|lra]. eapply Rle_trans; [|exact P].
      assert (t ^ 4 <= t). { replace (t ^ 4) with (t * (t * (t * t))) by ring. assert (t * t <= 1) by nra. assert (0 <= t * t) by nra. assert (t * (t * t) <= 1) by nra. nra. }
      assert (V2 : 0 < (theta / T) ^ 2) by (apply pow_lt; lra). replace (t ^ 2 * (1 - (t * (theta / T)) ^ 2 / 4)) with (t ^ 2 - t ^ 4 * (theta / T) ^ 2 / 4) by (field; lra). nra. }
    rewrite (tz_lin (fun t => t) (- ((theta / T) ^ 2 / 4)) (fun t => t)), pts_lin in L. assert (K := kappa_tz). assert (V2 : 0 <= (theta / T) ^ 2) by apply pow2_ge_0. assert (0 <= zero ^ 2) by apply pow2_ge_0. nra.
Qed.
End D.
(** [debye_func] goes over its argument one by one; its error in the Debye integral *)
Theorem C98_debye_error : forall nstep zero xs, (2 <= nstep)%nat -> 0 < zero < 1 -> List.Forall (fun x => 0 < x) xs ->
  Forall2 (fun x f => debye_exists x /\ Rabs (f - debye_integral x) <= 9 / 2 * (1 - zero) ^ 2 / (x * INR (nstep - 1)) + 3 * zero ^ 3 / x) xs (debye_func nstep zero xs).
Proof.
  intros n z xs N Z F. unfold debye_func. induction F as [|x xs X F IH]; [constructor|]. cbn [map]. constructor; [|exact IH]. exact (debye_error n z N Z x X).
Qed.
(** more points and a smaller lower end give the Debye function to any precision *)
Theorem C98_debye_converges : forall x eps, 0 < x -> 0 < eps -> exists z0 n0, 0 < z0 < 1 /\
  forall nstep zero, (n0 <= nstep)%nat -> 0 < zero <= z0 -> exists f, debye_func nstep zero [x] = [f] /\ Rabs (f - debye_integral x) <= eps.
Proof.
  intros x eps X E. set (z0 := Rmin (1 / 2) (eps * x / 6)). assert (Z0 : 0 < z0) by (apply Rmin_glb_lt; nra). assert (Z1 : z0 <= 1 / 2) by apply Rmin_l. assert (Z2 : z0 <= eps * x / 6) by apply Rmin_r.
  destruct (nfloor_ex (9 / (x * eps))) as (k & K); [apply Rlt_le, Rdiv_lt_0_compat; nra|]. exists z0, (S (S k)). split; [lra|]. intros n z NN ZZ. exists (debye1 n z x). split; [reflexivity|].
  assert (N2 : (2 <= n)%nat) by lia. destruct (debye_error n z N2 ltac:(lra) x X) as (_ & B). change (3 * RInt (g x) 0 1) with (debye_integral x) in B. eapply Rle_trans; [exact B|].
  assert (NP := steps_pos n N2). assert (KN : 9 / (x * eps) <= INR (n - 1)). { assert (INR (S k) <= INR (n - 1)) by (apply le_INR; lia). rewrite S_INR in H. lra. }
  assert (XE : 0 < x * eps) by nra. assert (KN' : 9 <= INR (n - 1) * (x * eps)). { apply (Rmult_le_compat_r (x * eps)) in KN; [|lra]. replace (9 / (x * eps) * (x * eps)) with 9 in KN by (field; nra). exact KN. }
  assert (A : 9 / 2 * (1 - z) ^ 2 / (x * INR (n - 1)) <= eps / 2). { apply (Rmult_le_reg_r (x * INR (n - 1))); [nra|]. replace (9 / 2 * (1 - z) ^ 2 / (x * INR (n - 1)) * (x * INR (n - 1))) with (9 / 2 * (1 - z) ^ 2) by (field; lra). assert ((1 - z) ^ 2 <= 1) by (cbn; nra). nra. }
  assert (C : 3 * z ^ 3 / x <= eps / 2). { apply (Rmult_le_reg_r x); [exact X|]. replace (3 * z ^ 3 / x * x) with (3 * z ^ 3) by (field; lra). assert (z ^ 3 <= z) by (assert (z * z <= 1) by nra; cbn; nra). lra. }
  lra.
Qed.
(** one point (or none): zero for every temperature *)
Theorem C98_one_point_refuted : forall nstep zero xs, (nstep <= 1)%nat -> debye_func nstep zero xs = map (fun _ => 0) xs.
Proof. intros n z xs N. apply map_ext. intros x. unfold debye1, linspace. destruct n as [|[|n]]; [|cbn; ring|lia]. cbn. ring. Qed.
(** both functions are positive and fall strictly *)
Theorem C98_functions : forall nstep zero x y, (2 <= nstep)%nat -> 0 < zero < 1 -> 0 < x < y ->
  exists dx dy ex ey, debye_func nstep zero [x; y] = [dx; dy] /\ einstein_func [x; y] = [ex; ey] /\ 0 < dy < dx /\ 0 < ey < ex /\ 1 / x - 1 / 2 <= ex < 1 / x.
Proof.
  intros n z x y N Z XY. exists (debye1 n z x), (debye1 n z y), (einstein1 x), (einstein1 y). split; [reflexivity|]. split; [reflexivity|]. split.
  - destruct (debye_bounds n z N Z y ltac:(lra)) as ((P & _) & _). split; [exact P|]. now apply debye_dec.
  - assert (B := bose_up y ltac:(lra)). assert (C := bose_up x ltac:(lra)). assert (D := bose_dec x y XY). assert (L := bose_low x ltac:(lra)). unfold einstein1. lra.
Qed.
(** the lengths are computed temperature by temperature *)
Theorem C98_pointwise : forall temp alpha theta x0 nstep zero,
  expansion temp alpha theta x0 einstein_func = flat_map (fun T => expansion [T] alpha theta x0 einstein_func) temp /\
  expansion temp alpha theta x0 (debye_func nstep zero) = flat_map (fun T => expansion [T] alpha theta x0 (debye_func nstep zero)) temp.
Proof.
  intros temp al th x0 n z. unfold expansion, einstein_func, debye_func. rewrite !map_map. split; induction temp as [|T temp IH]; try reflexivity; cbn [map flat_map app]; now rewrite IH.
Qed.
(** Einstein: close to x0 (1 + alpha (T - theta/2)) for high temperatures, x0 for T to 0 *)
Theorem C98_einstein : forall alpha theta x0 T, 0 < theta -> 0 < T ->
  exists e, expansion [T] alpha theta x0 einstein_func = [x0 * (1 + alpha * e)] /\ 0 < e < T /\ T - theta / 2 <= e /\ e <= T ^ 2 / theta.
Proof.
  intros al th x0 T H P. exists (th * einstein1 (th / T)). split; [unfold expansion, einstein_func; cbn [map]; do 2 f_equal; ring|]. assert (U : 0 < th / T) by now apply Rdiv_lt_0_compat.
  assert (B := bose_up _ U). assert (L := bose_low _ U). unfold einstein1. assert (M := exp_more _ U). destruct (psi_bounds _ U) as ((_ & Q) & _).
  replace (1 / (th / T)) with (T / th) in * by (field; lra). split; [|split].
  - split; [apply Rmult_lt_0_compat; lra|]. replace T with (th * (T / th)) at 2 by (field; lra). apply Rmult_lt_compat_l; lra.
  - replace (T - th / 2) with (th * (T / th - 1 / 2)) by (field; lra). apply Rmult_le_compat_l; lra.
  - unfold psi in Q. set (u := th / T) in *. set (e := exp u) in *. assert (P2 : 0 < (e - 1) ^ 2) by (apply pow_lt; lra). apply (Rmult_le_compat_r ((e - 1) ^ 2)) in Q; [|lra]. replace (u ^ 2 * e / (e - 1) ^ 2 * (e - 1) ^ 2) with (u ^ 2 * e) in Q by (field; lra). assert (Q' : u ^ 2 <= e - 1) by nra.
    apply (Rmult_le_reg_r (u ^ 2 * (e - 1))); [apply Rmult_lt_0_compat; [apply pow_lt|]; lra|]. replace (th * (1 / (e - 1)) * (u ^ 2 * (e - 1))) with (th * u ^ 2) by (field; lra). replace (T ^ 2 / th * (u ^ 2 * (e - 1))) with (th * (e - 1)) by (unfold u; field; lra). apply Rmult_le_compat_l; lra.
Qed.
(** Debye: the same with a factor near 1 from the trapezoids *)
Theorem C98_debye : forall nstep zero, (2 <= nstep)%nat -> 0 < zero < 1 -> exists k, Rabs (k - 1) <= zero ^ 3 + 1 / (2 * INR (nstep - 1) ^ 2) /\
  forall alpha theta x0 T, 0 < theta -> 0 < T ->
  exists e, expansion [T] alpha theta x0 (debye_func nstep zero) = [x0 * (1 + alpha * e)] /\ 0 < e <= k * T /\ k * T - 3 / 4 * theta <= e /\ e <= 3 / 2 * (T ^ 2 / theta).
Proof.
  intros n z N Z. exists (kappa n z). assert (NP := steps_pos n N). split.
  - unfold kappa. assert (0 < z ^ 3) by (apply pow_lt; lra). assert (P3 : 0 < (1 - z) ^ 3 <= 1). { split; [apply pow_lt; lra|]. replace 1 with (1 ^ 3) at 2 by ring. apply pow_incr. lra. }
    assert (D : 0 < / (2 * INR (n - 1) ^ 2)) by (apply Rinv_0_lt_compat; assert (0 < INR (n - 1) ^ 2) by (apply pow_lt; lra); lra). unfold Rdiv. apply Rabs_le. split; nra.
  - intros al th x0 T H P. exists (th * debye1 n z (th / T)). split; [unfold expansion, debye_func; cbn [map]; do 2 f_equal; ring|]. assert (U : 0 < th / T) by now apply Rdiv_lt_0_compat. destruct (debye_bounds n z N Z _ U) as ((A & B) & C & D). split; [split|split].
    + apply Rmult_lt_0_compat; lra.
    + replace (kappa n z * T) with (th * (kappa n z / (th / T))) by (field; lra). apply Rmult_le_compat_l; lra.
    + replace (kappa n z * T - 3 / 4 * th) with (th * (kappa n z / (th / T) - 3 / 4)) by (field; lra). apply Rmult_le_compat_l; lra.
    + replace (3 / 2 * (T ^ 2 / th)) with (th * (3 / 2 / (th / T) ^ 2)) by (field; lra). apply Rmult_le_compat_l; lra.
Qed.
Lemma einstein_slope theta T : 0 < theta -> 0 < T -> exists s, is_derive (fun T => theta * einstein1 (theta / T)) T s /\ 0 < s <= 1 /\ 1 - (theta / T) ^ 2 / 4 <= s.
Proof.
  intros TH TP. assert (U : 0 < theta / T) by now apply Rdiv_lt_0_compat. assert (M := exp_more _ U). exists (psi (theta / T)). destruct (psi_bounds _ U) as ((A & B) & C). split; [|lra].
  unfold einstein1. assert (M2 := M). unfold Rdiv in M2. auto_derive; [repeat split; try lra; exact Logic.I|]. unfold psi. replace (theta * / T) with (theta / T) by reflexivity. set (e := exp (theta / T)) in *. field. lra.
Qed.
(** what the statement about the slope says: [v] is the length at T, its slope over x0 alpha *)
Definition slope_of (F : list R -> list R) (alpha theta x0 : R) (P : R -> R -> Prop) : Prop :=
  exists v : R -> R, (forall T, 0 < T -> expansion [T] alpha theta x0 F = [v T]) /\ forall T, 0 < T -> exists s, is_derive v T (x0 * alpha * s) /\ P T s.
(** alpha is the high-temperature limit of (dx/dT) / x0 *)
Theorem C98_slope : forall alpha theta x0, 0 < theta ->
  slope_of einstein_func alpha theta x0 (fun T s => 0 < s <= 1 /\ 1 - (theta / T) ^ 2 / 4 <= s) /\
  forall nstep zero, (2 <= nstep)%nat -> 0 < zero < 1 -> exists k, Rabs (k - 1) <= zero ^ 3 + 1 / (2 * INR (nstep - 1) ^ 2) /\
    slope_of (debye_func nstep zero) alpha theta x0 (fun T s => 0 < s <= k /\ k - 3 / 8 * (theta / T) ^ 2 <= s).
Proof.
  intros al th x0 H. split.
  - exists (fun T => x0 * (1 + al * (th * einstein1 (th / T)))). split; [intros T P; unfold expansion, einstein_func; cbn [map]; do 2 f_equal; ring|]. intros T P. destruct (einstein_slope th T H P) as (s & D & B). exists s. split; [|exact B].
    evar_last. { apply (is_derive_scal (fun T => 1 + al * (th * einstein1 (th / T))) T x0). apply (is_derive_plus (fun _ => 1) (fun T => al * (th * einstein1 (th / T))) T 0 (al * s)); [apply (@is_derive_const R_AbsRing)|]. now apply (is_derive_scal (fun T => th * einstein1 (th / T)) T al). } cbn. unfold plus. cbn. ring.
  - intros n z N Z. exists (kappa n z). split. { destruct (C98_debye n z N Z) as (k & _). assert (NP := steps_pos n N). unfold kappa. assert (0 < z ^ 3) by (apply pow_lt; lra). assert (P3 : 0 < (1 - z) ^ 3 <= 1). { split; [apply pow_lt; lra|]. replace 1 with (1 ^ 3) at 2 by ring. apply pow_incr. lra. }
    assert (D : 0 < / (2 * INR (n - 1) ^ 2)) by (apply Rinv_0_lt_compat; assert (0 < INR (n - 1) ^ 2) by (apply pow_lt; lra); lra). unfold Rdiv. apply Rabs_le. split; nra. }
    exists (fun T => x0 * (1 + al * (th * debye1 n z (th / T)))). split; [intros T P; unfold expansion, debye_func; cbn [map]; do 2 f_equal; ring|]. intros T P. destruct (debye_slope n z N Z th T H P) as (s & D & B). exists s. split; [|exact B].
    evar_last. { apply (is_derive_scal (fun T => 1 + al * (th * debye1 n z (th / T))) T x0). apply (is_derive_plus (fun _ => 1) (fun T => al * (th * debye1 n z (th / T))) T 0 (al * s)); [apply (@is_derive_const R_AbsRing)|]. now apply (is_derive_scal (fun T => th * debye1 n z (th / T)) T al). } cbn. unfold plus. cbn. ring.
Qed.
(** but the coefficient of the examples, (dx/dT) / x(T), goes to 0 *)
Theorem C98_coefficient_refuted : forall alpha theta x0, 0 < alpha -> 0 < theta -> x0 <> 0 ->
  exists v : R -> R, (forall T, 0 < T -> expansion [T] alpha theta x0 einstein_func = [v T]) /\ (forall T, 0 < T -> ex_derive v T) /\ high_limit (fun T => Derive v T / v T) 0.
Proof.
  intros al th x0 A H X. destruct (C98_slope al th x0 H) as ((v & V & S) & _). exists v. split; [exact V|]. split; [intros T P; destruct (S T P) as (s & D & _); eexists; exact D|].
  intros eps E. exists (th / 2 + 1 / eps + 1). assert (E' : 0 < 1 / eps) by (apply Rdiv_lt_0_compat; lra). split; [lra|]. intros T LT. assert (P : 0 < T) by lra. destruct (S T P) as (s & D & B & _). rewrite (is_derive_unique v T _ D), Rminus_0_r.
  destruct (C98_einstein al th x0 T H P) as (e & EE & B1 & B2 & _). rewrite (V T P) in EE. injection EE as ->. assert (0 < al * e) by nra.
  replace (x0 * al * s / (x0 * (1 + al * e))) with (al * s / (1 + al * e)) by (field; lra). rewrite Rabs_pos_eq by (apply Rlt_le, Rdiv_lt_0_compat; nra).
  apply (Rmult_le_reg_r (1 + al * e)); [lra|]. replace (al * s / (1 + al * e) * (1 + al * e)) with (al * s) by (field; lra). assert (K : 1 <= eps * e). { assert (1 / eps <= e) by lra. apply (Rmult_le_compat_l eps) in H1; [|lra]. replace (eps * (1 / eps)) with 1 in H1 by (field; lra). exact H1. } nra.
Qed.
(** at T to 0 the length is x0 for both *)
Theorem C98_zero : forall alpha theta x0 nstep zero, 0 < theta -> (2 <= nstep)%nat -> 0 < zero < 1 ->
  forall F, F = einstein_func \/ F = debye_func nstep zero -> exists v : R -> R, (forall T, 0 < T -> expansion [T] alpha theta x0 F = [v T]) /\ low_limit v x0.
Proof.
  intros al th x0 n z H N Z F FF. exists (fun T => hd 0 (expansion [T] al th x0 F)). split; [intros T P; destruct FF as [->| ->]; reflexivity|]. intros eps E. set (c := Rabs (x0 * al) + 1). assert (C : 0 < c) by (assert (X := Rabs_pos (x0 * al)); unfold c; lra).
  exists (Rmin 1 (eps * th / (2 * c))). assert (Q : 0 < eps * th / (2 * c)) by (apply Rdiv_lt_0_compat; nra). split; [apply Rmin_glb_lt; lra|]. intros T (P & L). assert (L1 : T <= 1) by (eapply Rle_trans; [exact L|apply Rmin_l]). assert (L2 : T <= eps * th / (2 * c)) by (eapply Rle_trans; [exact L|apply Rmin_r]).
  assert (G : exists e, hd 0 (expansion [T] al th x0 F) = x0 * (1 + al * e) /\ 0 < e <= 3 / 2 * (T ^ 2 / th)).
  { assert (0 < T ^ 2 / th) by (apply Rdiv_lt_0_compat; [apply pow_lt|]; lra). destruct FF as [->| ->].
    - destruct (C98_einstein al th x0 T H P) as (e & -> & B & _ & B2). exists e. split; [reflexivity|lra].
    - destruct (C98_debye n z N Z) as (k & _ & D). destruct (D al th x0 T H P) as (e & -> & B & _ & B2). exists e. split; [reflexivity|lra]. }
  destruct G as (e & -> & B). replace (x0 * (1 + al * e) - x0) with (x0 * al * e) by ring. rewrite Rabs_mult, (Rabs_pos_eq e) by lra. assert (Rabs (x0 * al) <= c) by (unfold c; lra).
  assert (T2 : T ^ 2 / th <= T / th). { unfold Rdiv. apply Rmult_le_compat_r; [apply Rlt_le, Rinv_0_lt_compat; lra|]. cbn. nra. }
  assert (T3 : T / th <= eps / (2 * c)). { apply (Rmult_le_reg_r th); [lra|]. replace (T / th * th) with T by (field; lra). replace (eps / (2 * c) * th) with (eps * th / (2 * c)) by (field; lra). exact L2. }
  apply (Rle_trans _ (c * (3 / 2 * (eps / (2 * c))))); [apply Rmult_le_compat; [apply Rabs_pos|lra|lra|lra]|]. replace (c * (3 / 2 * (eps / (2 * c)))) with (3 / 4 * eps) by (field; lra). lra.
Qed.
(** the default arguments meet the conditions *)
Example defaults98 : (2 <= 100)%nat /\ 0 < 1 / 100000000 < 1 /\ 0 < 1200. Proof. repeat split; try lia; lra. Qed.
Example default_error98 : exists f, debye_func 100 (1 / 100000000) [4] = [f] /\ Rabs (f - debye_integral 4) <= 1 / 80.
Proof.
  exists (debye1 100 (1 / 100000000) 4). split; [reflexivity|]. destruct (debye_error 100 (1 / 100000000) ltac:(lia) ltac:(lra) 4 ltac:(lra)) as (_ & B). eapply Rle_trans; [exact B|]. replace (INR (100 - 1)) with 99 by (cbn; lra). lra.
Qed.
Print Assumptions C98_debye_error. Print Assumptions C98_debye_converges. Print Assumptions C98_one_point_refuted. Print Assumptions C98_functions. Print Assumptions C98_pointwise.
Print Assumptions C98_einstein. Print Assumptions C98_debye. Print Assumptions C98_slope. Print Assumptions C98_coefficient_refuted. Print Assumptions C98_zero.
