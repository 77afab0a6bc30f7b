From Coq Require Import Reals List Lra Lia.
From Coquelicot Require Import Coquelicot.
From Verif Require Import Eos.
Import ListNotations.
Local Open Scope R_scope.

Section Vinet.
Variable p : params.
Hypothesis V0 : 0 < v0 p.
Local Notation eta V := (eta_of V p).

Lemma eta_pos V : 0 < eta V.
Proof. apply exp_pos. Qed.

Lemma eta_cube V : 0 < V -> V = v0 p * eta V ^ 3.
Proof.
  intro H. unfold eta_of. assert (0 < V / v0 p) by (apply Rdiv_lt_0_compat; assumption).
  rewrite <- Rpower_pow by apply exp_pos. rewrite Rpower_mult.
  replace (1 / 3 * INR 3) with 1 by (cbn; lra). rewrite Rpower_1 by assumption. field. lra.
Qed.

Lemma eta_v0 : eta (v0 p) = 1.
Proof. unfold eta_of. replace (v0 p / v0 p) with 1 by (field; lra). unfold Rpower. rewrite ln_1, Rmult_0_r. apply exp_0. Qed.

Lemma eta_derive V : 0 < V -> is_derive (fun x => eta x) V (eta V / (3 * V)).
Proof.
  intro H. unfold eta_of, Rpower. auto_derive.
  - apply Rmult_lt_0_compat; [exact H | apply Rinv_0_lt_compat; exact V0].
  - unfold Rdiv. field. lra.
Qed.

Lemma eta_mono V W : 0 < V < W -> eta V < eta W.
Proof.
  intro H. unfold eta_of, Rpower. apply exp_increasing. apply Rmult_lt_compat_l; [lra|].
  apply ln_increasing; [apply Rdiv_lt_0_compat; lra|]. unfold Rdiv. apply Rmult_lt_compat_r; [|lra].
  apply Rinv_0_lt_compat. exact V0.
Qed.

(** chain rule through eta *)
Lemma derive_eta (g : R -> R) (g' : R) V : 0 < V -> is_derive g (eta V) g' ->
  is_derive (fun x => g (eta x)) V (g' / (3 * v0 p * eta V ^ 2)).
Proof.
  intros H G. pose proof (is_derive_comp g (fun x => eta x) V _ _ G (eta_derive V H)) as D.
  replace (g' / (3 * v0 p * eta V ^ 2)) with (scal (eta V / (3 * V)) g'); [exact D|].
  pose proof (eta_pos V). unfold scal. cbn. unfold mult. cbn. rewrite (eta_cube V H) at 2. field. lra.
Qed.

Definition G0 (x : R) : R := e0 p + 2 * b0 p * v0 p / (b1 p - 1) ^ 2
       * (2 - (5 + 3 * b1 p * (x - 1) - 3 * x) * exp (-3 * (b1 p - 1) * (x - 1) / 2)).
Definition G1 (x : R) : R := (3 * x - 3) / x ^ 2 * b0 p * exp (3 / 2 * (- x * b1 p + b1 p + x - 1)).
Definition G2 (x : R) : R := - b0 p * (3 * x ^ 2 * b1 p - 3 * x * b1 p - 3 * x ^ 2 + 5 * x - 4) /
    (2 * x ^ 5 * v0 p) * exp (3 / 2 * (- x * b1 p + b1 p + x - 1)).

Lemma deriv1 V : 0 < V -> b1 p <> 1 -> is_derive (fun x => vinet x p) V (vinet_deriv1 V p).
Proof.
  intros H B. unfold vinet_deriv1. cbv zeta. fold (G1 (eta V)).
  pose proof (eta_pos V) as X.
  replace (G1 (eta V)) with (3 * v0 p * eta V ^ 2 * G1 (eta V) / (3 * v0 p * eta V ^ 2)) by (field; lra).
  apply (derive_eta G0); [exact H|]. unfold G0, G1. set (x := eta V) in *. auto_derive; [exact Logic.I|].
  set (ex := exp (3 / 2 * (- x * b1 p + b1 p + x - 1))).
  assert (E : forall a, a = 3 / 2 * (- x * b1 p + b1 p + x - 1) -> exp a = ex) by (intros a ->; reflexivity).
  repeat match goal with |- context [exp ?a] => rewrite (E a) by field end.
  clearbody ex. field. split; lra.
Qed.

Lemma deriv2 V : 0 < V -> is_derive (fun x => vinet_deriv1 x p) V (vinet_deriv2 V p).
Proof.
  intros H. unfold vinet_deriv2. cbv zeta. fold (G2 (eta V)).
  pose proof (eta_pos V) as X.
  replace (G2 (eta V)) with (3 * v0 p * eta V ^ 2 * G2 (eta V) / (3 * v0 p * eta V ^ 2)) by (field; lra).
  apply (derive_eta G1); [exact H|]. unfold G1, G2. set (x := eta V) in *. auto_derive.
  - nra.
  - set (ex := exp (3 / 2 * (- x * b1 p + b1 p + x - 1))).
    assert (E : forall a, a = 3 / 2 * (- x * b1 p + b1 p + x - 1) -> exp a = ex) by (intros a ->; reflexivity).
    repeat match goal with |- context [exp ?a] => rewrite (E a) by field end.
    clearbody ex. field. lra.
Qed.

Lemma bulk_derive : is_derive (fun x => x * vinet_deriv2 x p) (v0 p) (- b1 p * (b0 p / v0 p)).
Proof.
  assert (D : is_derive (fun x => v0 p * eta x ^ 3 * G2 (eta x)) (v0 p) (- b1 p * (b0 p / v0 p))).
  { replace (- b1 p * (b0 p / v0 p)) with (3 * v0 p * eta (v0 p) ^ 2 * (- b1 p * (b0 p / v0 p)) / (3 * v0 p * eta (v0 p) ^ 2))
      by (rewrite eta_v0; field; lra).
    apply (derive_eta (fun x => v0 p * x ^ 3 * G2 x)); [exact V0|]. rewrite eta_v0. unfold G2. auto_derive.
    - lra.
    - assert (E : forall a, a = 0 -> exp a = 1) by (intros a ->; apply exp_0).
      repeat match goal with |- context [exp ?a] => rewrite (E a) by field end. field. lra. }
  apply (is_derive_ext_loc (fun x => v0 p * eta x ^ 3 * G2 (eta x))); [|exact D].
  exists (mkposreal (v0 p) V0). intros y Hy. unfold ball in Hy. cbn in Hy. unfold AbsRing_ball, abs, minus, plus, opp in Hy.
  cbn in Hy. apply Rabs_def2 in Hy. rewrite <- eta_cube by lra. reflexivity.
Qed.

Lemma at_v0 : b1 p <> 1 -> vinet (v0 p) p = e0 p /\ vinet_deriv1 (v0 p) p = 0 /\ v0 p * vinet_deriv2 (v0 p) p = b0 p.
Proof.
  intro B. unfold vinet, vinet_deriv1, vinet_deriv2. rewrite eta_v0. cbv zeta.
  replace (-3 * (b1 p - 1) * (1 - 1) / 2) with 0 by field.
  replace (3 / 2 * (- (1) * b1 p + b1 p + 1 - 1)) with 0 by field. rewrite exp_0.
  split; [field; lra|]. split; [field|]. field. lra.
Qed.

Lemma deriv1_sign V : 0 < b0 p -> 0 < V -> (V < v0 p -> vinet_deriv1 V p < 0) /\ (v0 p < V -> 0 < vinet_deriv1 V p).
Proof.
  intros B H. unfold vinet_deriv1. cbv zeta. pose proof (eta_pos V) as X.
  set (ex := exp _). assert (0 < ex) by apply exp_pos. clearbody ex.
  assert (Q : 0 < / eta V ^ 2) by (apply Rinv_0_lt_compat; nra).
  unfold Rdiv. split; intro L.
  - assert (eta V < 1) by (rewrite <- eta_v0; apply eta_mono; lra).
    assert (0 < / eta V ^ 2 * b0 p * ex) by (repeat apply Rmult_lt_0_compat; assumption).
    set (k := / eta V ^ 2) in *. clearbody k. nra.
  - assert (1 < eta V) by (rewrite <- eta_v0; apply eta_mono; lra).
    assert (0 < / eta V ^ 2 * b0 p * ex) by (repeat apply Rmult_lt_0_compat; assumption).
    set (k := / eta V ^ 2) in *. clearbody k. nra.
Qed.

Lemma minimum V : 0 < b0 p -> b1 p <> 1 -> 0 < V -> V <> v0 p -> e0 p < vinet V p.
Proof.
  intros B B1 H NE. rewrite <- (proj1 (at_v0 B1)).
  destruct (Rlt_or_le V (v0 p)) as [L|L].
  - destruct (MVT_cor2 (fun x => vinet x p) (fun x => vinet_deriv1 x p) V (v0 p) L) as (c & E & C).
    { intros c C. apply is_derive_Reals. apply deriv1; lra. }
    pose proof (proj1 (deriv1_sign c B ltac:(lra)) ltac:(lra)). nra.
  - assert (L' : v0 p < V) by lra.
    destruct (MVT_cor2 (fun x => vinet x p) (fun x => vinet_deriv1 x p) (v0 p) V L') as (c & E & C).
    { intros c C. apply is_derive_Reals. apply deriv1; lra. }
    pose proof (proj2 (deriv1_sign c B ltac:(lra)) ltac:(lra)). nra.
Qed.
End Vinet.

(** at 8 times V0 the curve bends the other way *)
Lemma far : vinet_deriv2 8 (Params 0 1 4 1) < 0.
Proof.
  assert (E : eta_of 8 (Params 0 1 4 1) = 2).
  { unfold eta_of. cbn [v0]. replace (8 / 1) with (2 ^ 3) by lra. rewrite <- (Rpower_pow 3 2) by lra.
    rewrite Rpower_mult. replace (INR 3 * (1 / 3)) with 1 by (cbn; lra). apply Rpower_1. lra. }
  unfold vinet_deriv2. rewrite E. cbn [b0 b1 v0]. cbv zeta. set (ex := exp _). assert (0 < ex) by apply exp_pos. clearbody ex.
  replace (-1 * (3 * 2 ^ 2 * 4 - 3 * 2 * 4 - 3 * 2 ^ 2 + 5 * 2 - 4) / (2 * 2 ^ 5 * 1)) with (-18 / 64) by field. nra.
Qed.

(** ** the fit *)
Lemma rltb_spec x y : rltb x y = true <-> x < y.
Proof. unfold rltb. destruct (Rlt_dec x y); split; auto; try discriminate; contradiction. Qed.

Lemma guard_spec lo hi v : guard_raises lo hi v = true <-> v <= lo /\ v < hi.
Proof.
  unfold guard_raises. rewrite Bool.andb_true_iff, Bool.negb_true_iff, rltb_spec.
  assert (rltb lo v = false <-> v <= lo).
  { destruct (rltb lo v) eqn:E.
    - apply rltb_spec in E. split; [discriminate | lra].
    - split; [|reflexivity]. intros _. apply Rnot_lt_le. intro L. apply rltb_spec in L. congruence. }
  tauto.
Qed.

Lemma vmin_spec l : l <> [] -> In (vmin l) l /\ forall x, In x l -> vmin l <= x.
Proof.
  intro NE. unfold vmin. destruct l as [|a l]; [congruence|]. cbn [hd]. clear NE.
  assert (H : forall l a, (In (fold_right Rmin a l) l \/ fold_right Rmin a l = a) /\
     fold_right Rmin a l <= a /\ forall x, In x l -> fold_right Rmin a l <= x).
  { clear. induction l as [|b l IH]; intro a; cbn [fold_right].
    - split; [right; reflexivity|]. split; [lra|]. intros x [].
    - destruct (IH a) as (H1 & H2 & H3). pose proof (Rmin_l b (fold_right Rmin a l)). pose proof (Rmin_r b (fold_right Rmin a l)).
      split; [|split].
      + unfold Rmin at 1 3. destruct (Rle_dec b (fold_right Rmin a l)); [left; left; reflexivity|].
        destruct H1 as [H1|H1]; [left; right; exact H1 | right; exact H1].
      + lra.
      + intros x [<-|I]; [exact H|]. specialize (H3 x I). lra. }
  destruct (H (a :: l) a) as (H1 & H2 & H3). split; [|exact H3].
  destruct H1 as [H1|H1]; [exact H1 | rewrite H1; left; reflexivity].
Qed.

Lemma vmax_spec l : l <> [] -> In (vmax l) l /\ forall x, In x l -> x <= vmax l.
Proof.
  intro NE. unfold vmax. destruct l as [|a l]; [congruence|]. cbn [hd]. clear NE.
  assert (H : forall l a, (In (fold_right Rmax a l) l \/ fold_right Rmax a l = a) /\
     a <= fold_right Rmax a l /\ forall x, In x l -> x <= fold_right Rmax a l).
  { clear. induction l as [|b l IH]; intro a; cbn [fold_right].
    - split; [right; reflexivity|]. split; [lra|]. intros x [].
    - destruct (IH a) as (H1 & H2 & H3). pose proof (Rmax_l b (fold_right Rmax a l)). pose proof (Rmax_r b (fold_right Rmax a l)).
      split; [|split].
      + unfold Rmax at 1 3. destruct (Rle_dec b (fold_right Rmax a l)); [|left; left; reflexivity].
        destruct H1 as [H1|H1]; [left; right; exact H1 | right; exact H1].
      + lra.
      + intros x [<-|I]; [exact H|]. specialize (H3 x I). lra. }
  destruct (H (a :: l) a) as (H1 & H2 & H3). split; [|exact H3].
  destruct H1 as [H1|H1]; [exact H1 | rewrite H1; left; reflexivity].
Qed.

Lemma guess_spec a b c : a <> 0 ->
  (forall V, a * V ^ 2 + b * V + c = e0 (guess a b c) + a * (V - v0 (guess a b c)) ^ 2) /\
  b0 (guess a b c) = v0 (guess a b c) * (2 * a).
Proof. intro A. unfold guess. cbn. split; [intro V; field; exact A | field; exact A]. Qed.

Definition sumsq (l : list R) : R := fold_right (fun x s => x ^ 2 + s) 0 l.

Lemma sumsq_pos l : 0 <= sumsq l.
Proof. induction l; cbn; [lra|]. pose proof (pow2_ge_0 a). unfold sumsq in IHl. cbn in *. lra. Qed.
Lemma sumsq_cons a l : sumsq (a :: l) = a ^ 2 + sumsq l.
Proof. reflexivity. Qed.
Lemma sumsq_zero l : sumsq l <= 0 <-> List.Forall (fun x => x = 0) l.
Proof.
  induction l as [|a l IH]; [split; [constructor | cbn; lra]|]. rewrite sumsq_cons. pose proof (sumsq_pos l) as P.
  pose proof (pow2_ge_0 a) as Q. split; intro H.
  - assert (Z : a * a = 0) by (replace (a * a) with (a ^ 2) by ring; lra).
    apply Rmult_integral in Z. constructor; [tauto|]. apply IH. lra.
  - inversion H as [|? ? E F]; subst. apply IH in F. lra.
Qed.
