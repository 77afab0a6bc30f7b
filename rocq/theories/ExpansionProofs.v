(** Lemmas for P_Expansion.v *)
From Coq Require Import Reals List Lra Lia Sorted.
From Coquelicot Require Import Coquelicot.
From Verif Require Import Thermo ThermoSpec ThermoProofs Expansion ExpansionSpec.
Import ListNotations.
Local Open Scope R_scope.

(** ** the Bose function *)
Lemma exp_more u : 0 < u -> u < exp u - 1. Proof. intros U. assert (H := exp_ineq1 u ltac:(lra)). lra. Qed.
Lemma bose_up u : 0 < u -> 0 < 1 / (exp u - 1) < 1 / u.
Proof. intros U. assert (H := exp_more u U). split; [apply Rdiv_lt_0_compat; lra|]. unfold Rdiv. rewrite !Rmult_1_l. apply Rinv_lt_contravar; [apply Rmult_lt_0_compat; lra|exact H]. Qed.
Lemma bose_low u : 0 < u -> 1 / u - 1 / 2 <= 1 / (exp u - 1).
Proof.
  intros U. assert (H := coth_bose u U). destruct (sinh_bounds (u / 2) ltac:(lra)) as (_ & S). assert (SP := sinh_pos (u / 2) ltac:(lra)). assert (C1 := cosh_ge1 (u / 2)).
  assert (K : 2 / u <= coth (u / 2)). { unfold coth, tanh. replace (1 / (sinh (u / 2) / cosh (u / 2))) with (cosh (u / 2) / sinh (u / 2)) by (field; lra). apply (Rmult_le_reg_r (sinh (u / 2) * u)); [nra|]. replace (2 / u * (sinh (u / 2) * u)) with (2 * sinh (u / 2)) by (field; lra). replace (cosh (u / 2) / sinh (u / 2) * (sinh (u / 2) * u)) with (cosh (u / 2) * u) by (field; lra). lra. }
  assert (1 / u = 2 / u / 2) by (field; lra). lra.
Qed.
Lemma bose_dec u v : 0 < u < v -> 1 / (exp v - 1) < 1 / (exp u - 1).
Proof. intros (U & V). assert (A := exp_more u U). assert (B := exp_increasing u v V). unfold Rdiv. rewrite !Rmult_1_l. apply Rinv_lt_contravar; [apply Rmult_lt_0_compat|]; lra. Qed.
(** the Einstein function of the heat capacity *)
Definition psi (u : R) : R := u ^ 2 * exp u / (exp u - 1) ^ 2.
Lemma psi_bounds u : 0 < u -> 1 - u ^ 2 / 4 <= psi u <= 1 /\ 0 < psi u.
Proof.
  intros U. assert (M := exp_more u U). assert (EP := exp_pos u). assert (P : 0 < (exp u - 1) ^ 2) by (apply pow_lt; lra). unfold psi. split; [split|].
  - set (b := 1 / (exp u - 1)). assert (L := bose_low u U). assert (H := bose_up u U). fold b in L, H.
    replace (u ^ 2 * exp u / (exp u - 1) ^ 2) with ((u * b) * (u * b + u)) by (unfold b; field; lra).
    assert (LB : 1 - u / 2 <= u * b) by (replace (1 - u / 2) with (u * (1 / u - 1 / 2)) by (field; lra); apply Rmult_le_compat_l; lra). assert (0 < u * b) by (apply Rmult_lt_0_compat; lra). nra.
  - apply (Rmult_le_reg_r ((exp u - 1) ^ 2)); [exact P|]. replace (u ^ 2 * exp u / (exp u - 1) ^ 2 * (exp u - 1) ^ 2) with (u ^ 2 * exp u) by (field; lra). rewrite Rmult_1_l.
    destruct (sinh_bounds (u / 2) ltac:(lra)) as (S & _). assert (E : exp u - 1 = 2 * sinh (u / 2) * exp (u / 2)).
    { unfold sinh. rewrite exp_mhalf, exp_half. assert (exp (u / 2) <> 0) by (assert (X := exp_pos (u / 2)); lra). field. assumption. }
    rewrite E, (exp_half u). assert (X := exp_pos (u / 2)). replace (u ^ 2 * (exp (u / 2) * exp (u / 2))) with ((u * exp (u / 2)) ^ 2) by ring. apply pow_incr. split; nra.
  - apply Rdiv_lt_0_compat; [|exact P]. apply Rmult_lt_0_compat; [apply pow_lt; lra|exact EP].
Qed.
(** ** grids *)
Definition grid (a h : R) (n : nat) : list R := map (fun i => a + INR i * h) (seq 0 (S n)).
Lemma grid_cons a h n : grid a h (S n) = a :: grid (a + h) h n.
Proof.
  unfold grid. change (seq 0 (S (S n))) with (0%nat :: seq 1 (S n)). cbn [map]. f_equal; [cbn; ring|]. rewrite <- seq_shift, map_map. apply map_ext. intros i. rewrite S_INR. ring.
Qed.
Lemma grid_head a h n : exists l, grid a h n = a :: l. Proof. destruct n; [exists []; unfold grid; cbn; f_equal; ring|eexists; apply grid_cons]. Qed.
Lemma linspace_grid a b n : (2 <= n)%nat -> linspace a b n = grid a ((b - a) / INR (n - 1)) (n - 1).
Proof. intros N. unfold linspace, grid. now replace (S (n - 1)) with n by lia. Qed.
Lemma grid_in a h n t : 0 <= h -> In t (grid a h n) -> a <= t <= a + INR n * h.
Proof.
  intros H I. unfold grid in I. apply in_map_iff in I as (i & <- & I). apply in_seq in I. assert (0 <= INR i) by apply pos_INR. assert (INR i <= INR n) by (apply le_INR; lia). split; [nra|]. apply Rplus_le_compat_l, Rmult_le_compat_r; lra.
Qed.
Lemma grid_sorted a h n : 0 <= h -> StronglySorted Rle (grid a h n).
Proof.
  intros H. revert a. induction n as [|n IH]; intros a; [unfold grid; cbn; repeat constructor|]. rewrite grid_cons. constructor; [apply IH|]. apply List.Forall_forall. intros t I. apply grid_in in I; [lra|exact H].
Qed.
Notation tzr := (tz (fun t : R => t)).
Lemma tz_grid g a h n : tzr g (grid a h (S n)) = h * (g (a + h) + g a) / 2 + tzr g (grid (a + h) h n).
Proof. rewrite grid_cons. destruct (grid_head (a + h) h n) as (l & ->). rewrite tz_cons. cbv beta. field. Qed.
Lemma tz_square a h n : 3 * tzr (fun t => t ^ 2) (grid a h n) = (a + INR n * h) ^ 3 - a ^ 3 + INR n * h ^ 3 / 2.
Proof. revert a. induction n as [|n IH]; intros a; [unfold grid, tz, trapz; cbn [seq map trapz_from INR]; field|]. rewrite tz_grid, Rmult_plus_distr_l, IH, S_INR. field. Qed.
(** error of the trapezoidal rule for a Lipschitz function *)
Lemma trap_error g L h : 0 <= h -> 0 <= L -> forall n a, (forall s t, a <= s <= a + INR n * h -> a <= t <= a + INR n * h -> Rabs (g s - g t) <= L * Rabs (s - t)) ->
  ex_RInt g a (a + INR n * h) -> Rabs (tzr g (grid a h n) - RInt g a (a + INR n * h)) <= INR n * (L * h ^ 2 / 2).
Proof.
  intros H LP. induction n as [|n IH]; intros a LI EX.
  - cbn [INR]. rewrite !Rmult_0_l, Rplus_0_r, RInt_point. unfold grid, tz. cbn. change (@zero _) with 0. rewrite Rminus_0_r, Rabs_R0. lra.
  - rewrite tz_grid, S_INR. rewrite S_INR in LI, EX. assert (NP := pos_INR n). assert (NH : 0 <= INR n * h) by nra.
    assert (EQ : a + (INR n + 1) * h = (a + h) + INR n * h) by ring. rewrite EQ in LI, EX |- *.
    assert (E1 : ex_RInt g a (a + h)) by (apply (ex_RInt_Chasles_1 g a (a + h) (a + h + INR n * h)); [lra|exact EX]).
    assert (E2 : ex_RInt g (a + h) (a + h + INR n * h)) by (apply (ex_RInt_Chasles_2 g a (a + h) (a + h + INR n * h)); [lra|exact EX]).
    rewrite <- (RInt_Chasles g a (a + h) (a + h + INR n * h) E1 E2). change (plus ?x ?y) with (x + y).
    assert (I2 := IH (a + h) ltac:(intros s t S T; apply LI; lra) E2). set (c := (g (a + h) + g a) / 2).
    assert (I1 : Rabs (RInt g a (a + h) - h * c) <= h * (L * h / 2)).
    { assert (CI : RInt (fun _ => c) a (a + h) = h * c) by (rewrite RInt_const; change ((a + h - a) * c = h * c); ring).
      rewrite <- CI. change (RInt g a (a + h) - RInt (fun _ => c) a (a + h)) with (minus (RInt g a (a + h)) (RInt (fun _ => c) a (a + h))). rewrite <- (RInt_minus g (fun _ => c) a (a + h) E1 (ex_RInt_const a (a + h) c)).
      replace (h * (L * h / 2)) with ((a + h - a) * (L * h / 2)) by ring. apply abs_RInt_le_const; [lra|apply (ex_RInt_minus g); [exact E1|apply ex_RInt_const]|].
      intros t T. change (minus (g t) c) with (g t - c). unfold c. assert (A1 := LI t a ltac:(lra) ltac:(lra)). assert (A2 := LI t (a + h) ltac:(lra) ltac:(lra)). rewrite (Rabs_pos_eq (t - a)) in A1 by lra. rewrite (Rabs_left1 (t - (a + h))) in A2 by lra.
      replace (g t - (g (a + h) + g a) / 2) with ((g t - g a) / 2 + (g t - g (a + h)) / 2) by field. eapply Rle_trans; [apply Rabs_triang|]. unfold Rdiv. rewrite !Rabs_mult, (Rabs_pos_eq (/ 2)) by lra. lra. }
    replace (h * (g (a + h) + g a) / 2 + tzr g (grid (a + h) h n) - (RInt g a (a + h) + RInt g (a + h) (a + h + INR n * h))) with (- (RInt g a (a + h) - h * c) + (tzr g (grid (a + h) h n) - RInt g (a + h) (a + h + INR n * h))) by (unfold c; field).
    eapply Rle_trans; [apply Rabs_triang|]. rewrite Rabs_Ropp. nra.
Qed.
(** ** the integrand *)
Section X.
Variable x : R.
Hypothesis X : 0 < x.
Definition g (t : R) : R := t ^ 3 / (exp (t * x) - 1).
Lemma g_bound t : 0 < t -> 0 < g t <= t ^ 2 / x.
Proof.
  intros T. assert (U : 0 < t * x) by now apply Rmult_lt_0_compat. assert (B := bose_up _ U). unfold g. replace (t ^ 3 / (exp (t * x) - 1)) with (t ^ 3 * (1 / (exp (t * x) - 1))) by (assert (M := exp_more _ U); field; lra).
  assert (T3 : 0 < t ^ 3) by now apply pow_lt. split; [apply Rmult_lt_0_compat; lra|]. replace (t ^ 2 / x) with (t ^ 3 * (1 / (t * x))) by (field; lra). apply Rmult_le_compat_l; lra.
Qed.
Lemma g_low t : 0 < t -> t ^ 2 / x - t ^ 3 / 2 <= g t.
Proof.
  intros T. assert (U : 0 < t * x) by now apply Rmult_lt_0_compat. assert (B := bose_low _ U). unfold g. replace (t ^ 3 / (exp (t * x) - 1)) with (t ^ 3 * (1 / (exp (t * x) - 1))) by (assert (M := exp_more _ U); field; lra).
  assert (T3 : 0 < t ^ 3) by now apply pow_lt. replace (t ^ 2 / x - t ^ 3 / 2) with (t ^ 3 * (1 / (t * x) - 1 / 2)) by (field; lra). apply Rmult_le_compat_l; lra.
Qed.
Definition g' (t : R) : R := t / x * (3 * (t * x * (1 / (exp (t * x) - 1))) - psi (t * x)).
Lemma g_derive t : 0 < t -> is_derive g t (g' t).
Proof.
  intros T. assert (U : 0 < t * x) by now apply Rmult_lt_0_compat. assert (M := exp_more _ U). unfold g. auto_derive; [lra|]. unfold g', psi. field. lra.
Qed.
Lemma g'_bound t : 0 < t <= 1 -> Rabs (g' t) <= 3 / x.
Proof.
  intros T. assert (U : 0 < t * x) by (apply Rmult_lt_0_compat; lra). destruct (psi_bounds _ U) as ((_ & P1) & P0). assert (B := bose_up _ U).
  assert (F : 0 < t * x * (1 / (exp (t * x) - 1)) <= 1). { split; [apply Rmult_lt_0_compat; lra|]. apply (Rle_trans _ (t * x * (1 / (t * x)))); [apply Rmult_le_compat_l; lra|]. right. field. lra. }
  assert (IX : 0 < / x) by now apply Rinv_0_lt_compat. unfold g'. rewrite Rabs_mult. rewrite (Rabs_pos_eq (t / x)) by (unfold Rdiv; nra).
  replace (3 / x) with (1 / x * 3) by (field; lra). apply Rmult_le_compat; [unfold Rdiv; nra|apply Rabs_pos|unfold Rdiv; nra|]. apply Rabs_le. lra.
Qed.
Lemma g_lip s t : 0 < s <= 1 -> 0 < t <= 1 -> Rabs (g s - g t) <= 3 / x * Rabs (s - t).
Proof.
  intros S T. destruct (MVT_gen g t s g') as (c & C & E).
  - intros y Y. apply g_derive. unfold Rmin in Y. destruct (Rle_dec t s); lra.
  - intros y Y. apply continuity_pt_filterlim. apply (ex_derive_continuous g). exists (g' y). apply g_derive. unfold Rmin in Y. destruct (Rle_dec t s); lra.
  - rewrite E, Rabs_mult. apply Rmult_le_compat_r; [apply Rabs_pos|]. apply g'_bound. unfold Rmin, Rmax in C. destruct (Rle_dec t s); lra.
Qed.
Definition g0 (t : R) : R := if Rle_dec t 0 then 0 else g t.
Lemma g0_zero : continuous g0 0.
Proof.
  apply continuity_pt_filterlim. intros eps E. exists (Rmin 1 (eps * x)). split; [apply Rmin_glb_lt; [lra|nra]|]. intros y ((_ & _) & D). unfold dist in D |- *. cbn in D |- *. unfold R_dist in *. unfold g0 at 2. destruct (Rle_dec 0 0) as [_|]; [|lra]. rewrite Rminus_0_r in D |- *.
  unfold g0. destruct (Rle_dec y 0); [rewrite Rabs_R0; exact E|]. assert (Y : 0 < y) by lra. assert (B := g_bound y Y). rewrite Rabs_pos_eq by lra. rewrite Rabs_pos_eq in D by lra. assert (D1 : y < 1) by (eapply Rlt_le_trans; [exact D|apply Rmin_l]). assert (D2 : y < eps * x) by (eapply Rlt_le_trans; [exact D|apply Rmin_r]).
  eapply Rle_lt_trans; [apply B|]. apply (Rmult_lt_reg_r x); [exact X|]. replace (y ^ 2 / x * x) with (y ^ 2) by (field; lra). nra.
Qed.
Lemma g0_cont t : 0 <= t -> continuous g0 t.
Proof.
  intros T. destruct (Req_dec t 0) as [->|N]; [exact g0_zero|]. assert (P : 0 < t) by lra. apply (continuous_ext_loc g0 g t).
  - exists (mkposreal t P). intros y B. unfold g0. destruct (Rle_dec y 0); [|reflexivity]. exfalso. unfold ball in B. cbn in B. unfold AbsRing_ball, abs, minus, plus, opp in B. cbn in B. apply Rabs_def2 in B. lra.
  - apply (ex_derive_continuous g). exists (g' t). now apply g_derive.
Qed.
Lemma g_int a b : 0 <= a <= b -> ex_RInt g a b.
Proof.
  intros AB. apply (ex_RInt_ext g0).
  - intros t T. rewrite Rmin_left, Rmax_right in T by lra. unfold g0. destruct (Rle_dec t 0); [lra|reflexivity].
  - apply (ex_RInt_continuous g0). intros t T. rewrite Rmin_left in T by lra. apply g0_cont. lra.
Qed.
Lemma g_start z : 0 <= z -> 0 <= RInt g 0 z <= z ^ 3 / x.
Proof.
  intros Z. assert (EX := g_int 0 z ltac:(lra)). assert (EXQ : RInt g 0 z = RInt g0 0 z) by (apply RInt_ext; intros t T; rewrite Rmin_left, Rmax_right in T by lra; unfold g0; destruct (Rle_dec t 0); [lra|reflexivity]).
  assert (EX0 : ex_RInt g0 0 z) by (apply (ex_RInt_continuous g0); intros t T; rewrite Rmin_left in T by lra; apply g0_cont; lra).
  assert (IX : 0 < / x) by now apply Rinv_0_lt_compat.
  rewrite EXQ. split.
  - apply RInt_ge_0; [exact Z|exact EX0|]. intros t T. unfold g0. destruct (Rle_dec t 0); [lra|]. assert (B := g_bound t ltac:(lra)). lra.
  - apply (Rle_trans _ (Rabs (RInt g0 0 z))); [apply Rle_abs|]. replace (z ^ 3 / x) with ((z - 0) * (z ^ 2 / x)) by (field; lra). apply abs_RInt_le_const; [exact Z|exact EX0|]. intros t T. unfold g0. destruct (Rle_dec t 0); [rewrite Rabs_R0; unfold Rdiv; nra|]. assert (B := g_bound t ltac:(lra)). rewrite Rabs_pos_eq by lra. apply (Rle_trans _ (t ^ 2 / x)); [apply B|]. unfold Rdiv. apply Rmult_le_compat_r; [lra|]. apply pow_incr. lra.
Qed.
End X.
Lemma debye_tz nstep zero x : (2 <= nstep)%nat -> debye1 nstep zero x = 3 * tzr (g x) (grid zero ((1 - zero) / INR (nstep - 1)) (nstep - 1)).
Proof. intros N. unfold debye1. rewrite linspace_grid by exact N. unfold tz. rewrite map_id. reflexivity. Qed.
Lemma steps_pos nstep : (2 <= nstep)%nat -> 0 < INR (nstep - 1). Proof. intros N. apply lt_0_INR. lia. Qed.
