(** C57: predictions and derivatives of radial basis function networks. *)
From Coq Require Import Reals List Arith Lra Lia Psatz.
From Coquelicot Require Import Coquelicot.
From Verif Require Import Rbf RbfSpec RbfProofs.
Import ListNotations.
Open Scope R_scope.
(** predict evaluates the network at every row, whatever the normalisation of the
    weights, and a single point gives the value a row with it gives. *)
Theorem C57_predict m pts :
  fitted m -> (forall x, In x pts -> length x = ndim m) -> (forall x, In x pts -> finite (fn m) (p_ m) (points m) x) ->
  predict m pts = Some (map (network (fn m) (p_ m) (points m) (w_ m)) pts) /\
  forall x, In x pts -> predict1 m x = Some (network (fn m) (p_ m) (points m) (w_ m) x).
Proof.
  intros F K D. split; [now apply predict_network|]. intros x I. unfold predict1.
  rewrite predict_network; [reflexivity|exact F|intros y [<-|[]]; auto|intros y [<-|[]]; auto].
Qed.
(** deriv is the gradient: along every direction v the derivative of the network is the
    inner product of deriv with v; for many points, row by row. *)
Theorem C57_gradient m x v :
  fitted m -> length x = ndim m -> length v = ndim m -> smooth (fn m) (p_ m) (points m) x ->
  exists d, deriv1 m x = Some d /\ length d = ndim m /\
    is_derive (fun t => network (fn m) (p_ m) (points m) (w_ m) (along x v t)) 0 (inner d v).
Proof. apply gradient. Qed.
Theorem C57_gradient_rows m pts :
  fitted m -> (forall x, In x pts -> length x = ndim m) -> (forall x, In x pts -> smooth (fn m) (p_ m) (points m) x) ->
  exists ds, deriv m pts = Some ds /\ length ds = length pts /\
    forall i, (i < length pts)%nat -> deriv1 m (nth i pts []) = Some (nth i ds []).
Proof.
  intros F K S. eexists. split; [now apply deriv_grad|]. split; [apply map_length|]. intros i Hi. pose proof (nth_In _ [] Hi) as I.
  unfold deriv1. rewrite deriv_grad; [|exact F|intros y [<-|[]]; auto|intros y [<-|[]]; auto]. cbn [map]. f_equal.
  set (f := fun x => map (gradk (fn m) (p_ m) (points m) (w_ m) x) (seq 0 (ndim m))).
  change (f (nth i pts []) = nth i (map f pts) []).
  rewrite (nth_indep (map f pts) [] (f [])) by (now rewrite map_length). now rewrite (map_nth f).
Qed.
(** The same for predict itself, everywhere, when p is not zero. *)
Theorem C57_deriv_of_predict m x v :
  fitted m -> builtin (fn m) -> p_ m <> 0 -> length x = ndim m -> length v = ndim m ->
  exists (f : R -> R) d, (forall t, predict1 m (along x v t) = Some (f t)) /\ deriv1 m x = Some d /\ is_derive f 0 (inner d v).
Proof.
  intros F B P Lx Lv.
  assert (S : forall y, smooth (fn m) (p_ m) (points m) y).
  { intros y. destruct (fn m); cbn in *; auto; try contradiction;
    intros c _; pose proof (dist2_pos y c); pose proof (pow2_gt_0 (p_ m) P); cbn in *; lra. }
  destruct (gradient m x v F Lx Lv (S x)) as (d & D & _ & H).
  exists (fun t => network (fn m) (p_ m) (points m) (w_ m) (along x v t)), d. split; [|split; [exact D|exact H]].
  intros t. apply (C57_predict m [along x v t]); [exact F| | |now left].
  - intros y [<-|[]]. unfold along. rewrite map_length, combine_length. lia.
  - intros y [<-|[]]. apply smooth_finite, S.
Qed.
(** With r = 0 the fitted model reproduces the training values; with r it satisfies
    prediction + r * weight = value at every training point; the matrices given to the
    symmetric solver are symmetric (solve_ok promises nothing for others). *)
Theorem C57_interpolates solve lstsq n pts vals b p m : solve_ok solve ->
  fit solve lstsq n pts vals b p (Some 0) = Some m -> (exists v, In v vals /\ v <> 0) -> predict m pts = Some vals.
Proof. intros S. apply (fit_interpolates solve lstsq S). Qed.
Theorem C57_regularised solve lstsq n pts vals b p r m : solve_ok solve ->
  fit solve lstsq n pts vals b p (Some r) = Some m -> (exists v, In v vals /\ v <> 0) ->
  fitted m /\ exists y, predict m pts = Some y /\ vals = map (fun q => fst q + r * snd q) (combine y (w_ m)).
Proof. intros S. apply (fit_system solve lstsq S). Qed.
(** With r = None no other weights come closer to the training values. *)
Theorem C57_least_squares solve lstsq n pts vals b p m : lstsq_ok lstsq ->
  fit solve lstsq n pts vals b p None = Some m -> (exists x, In x (w_ m) /\ x <> 0) -> (forall x, In x pts -> finite b p pts x) ->
  exists y, predict m pts = Some y /\ forall w, length w = length pts -> sqres y vals <= sqres (map (network b p pts w) pts) vals.
Proof. intros S. apply (fit_lstsq solve lstsq S). Qed.
(** p="mean" is positive as soon as two training points differ. *)
Theorem C57_mean_p n pts : (forall x, In x pts -> length x = n) -> pts <> [] -> exists p, mean_p n pts = Some p /\ 0 <= p /\
  (0 < p <-> exists x y, In x pts /\ In y pts /\ x <> y).
Proof. apply mean_p_spec. Qed.
(** fit_error is the mean squared residual, zero exactly for a perfect fit, and larger
    for a negative p. *)
Theorem C57_fit_error m pts vals y : predict m pts = Some y -> length vals = length y -> vals <> [] ->
  exists e, fit_error m pts vals = Some e /\
    (0 <= p_ m -> e = sqres y vals / INR (length vals) /\ 0 <= e /\ (e = 0 <-> vals = y)) /\
    (p_ m < 0 -> e = exp (sqres y vals / INR (length vals)) /\ sqres y vals / INR (length vals) < e).
Proof. apply fit_error_spec. Qed.
(** Two training points on a line, gauss with p=1. *)
Definition two : list (list R) := [[0]; [1]].
(** A solver for two equations. *)
Definition solve2 (a : list (list R)) (z : list R) : option (list R) :=
  match a, z with
  | [[a1; a2]; [a3; a4]], [z1; z2] =>
      let d := a1 * a4 - a2 * a3 in
      if Req_EM_T d 0 then None else Some [(a4 * z1 - a2 * z2) / d; (a1 * z2 - a3 * z1) / d]
  | _, _ => None
  end.
Lemma solve2_ok : solve_ok solve2.
Proof.
  intros a z w _ _ H. unfold solve2 in H.
  repeat match type of H with context [match ?x with _ => _ end] => destruct x; try discriminate H end.
  injection H as <-. split; [reflexivity|]. unfold matvec, inner. cbn. f_equal; [field; assumption|]. f_equal. field. assumption.
Qed.
Lemma two_fit z1 z2 : exists m, fit solve2 (fun _ z => z) 1 two [z1; z2] Gauss 1 (Some 0) = Some m /\ w_ m =
  let e := exp (- (1 / 2)) in [(z1 - e * z2) / (1 - e * e); (z2 - e * z1) / (1 - e * e)].
Proof.
  unfold fit, shapes, two. cbn [length Nat.eqb forallb andb].
  rewrite (apply_phi Gauss 1 1 [[0]; [1]] [[0]; [1]]).
  2,3: intros x [<-|[<-|[]]]; reflexivity.
  2:{ intros x _. cbn. lra. }
  cbn [map phi]. unfold dist2. cbn [combine map fst snd sumR fold_right].
  replace (- (((0 - 0) ^ 2 + 0) / (2 * 1 ^ 2))) with 0 by field. replace (- (((1 - 1) ^ 2 + 0) / (2 * 1 ^ 2))) with 0 by field.
  replace (- (((0 - 1) ^ 2 + 0) / (2 * 1 ^ 2))) with (- (1 / 2)) by field. replace (- (((1 - 0) ^ 2 + 0) / (2 * 1 ^ 2))) with (- (1 / 2)) by field.
  rewrite exp_0. destruct (Req_EM_T 0 0) as [_|]; [|congruence]. cbn [solve2]. set (e := exp (- (1 / 2))).
  assert (B : 0 < e < 1). { split; [apply exp_pos|]. apply (Rlt_le_trans _ (exp 0)); [apply exp_increasing; lra|rewrite exp_0; lra]. }
  destruct (Req_EM_T (1 * 1 - e * e) 0) as [K|_]; [exfalso; nra|]. eexists. split; [reflexivity|]. cbn [w_].
  rewrite !Rmult_1_l. reflexivity.
Qed.
(** "With r = 0 predict reproduces the training values" fails when they are all zero:
    the fit succeeds with zero weights and every prediction is nan. *)
Theorem C57_zero_values_refuted : ~ (forall solve lstsq n pts vals b p m, solve_ok solve ->
  fit solve lstsq n pts vals b p (Some 0) = Some m -> predict m pts = Some vals).
Proof.
  intros H. destruct (two_fit 0 0) as (m & E & W). specialize (H _ _ _ _ _ _ _ _ solve2_ok E). rewrite zero_weights in H; [discriminate|].
  rewrite W. cbv zeta. intros x [<-|[<-|[]]]; unfold Rdiv; ring.
Qed.
(** A fitted model: the hypotheses of the theorems above hold for it. *)
Example C57_case : exists m, fit solve2 (fun _ z => z) 1 two [1; 3] Gauss 1 (Some 0) = Some m /\ fitted m /\ builtin (fn m) /\ p_ m <> 0 /\
  (forall x, smooth (fn m) (p_ m) (points m) x) /\ predict m two = Some [1; 3].
Proof.
  destruct (two_fit 1 3) as (m & E & _). exists m. split; [exact E|].
  assert (NZ : exists v, In v [1; 3] /\ v <> 0) by (exists 1; split; [now left|lra]).
  destruct (C57_regularised _ _ _ _ _ _ _ _ _ solve2_ok E NZ) as (F & _). split; [exact F|].
  assert (P := C57_interpolates _ _ _ _ _ _ _ _ solve2_ok E NZ).
  assert (fn m = Gauss /\ p_ m = 1) as [-> ->].
  { unfold fit in E. destruct (shapes _ _ _); [|discriminate]. destruct (apply_rbf _ _ _); [|discriminate].
    destruct (Req_EM_T 0 0); [|congruence]. destruct (solve2 _ _); [|discriminate]. now injection E as <-. }
  cbn. repeat split; try lra; auto.
Qed.
Print Assumptions C57_predict.
Print Assumptions C57_gradient.
Print Assumptions C57_gradient_rows.
Print Assumptions C57_deriv_of_predict.
Print Assumptions C57_interpolates.
Print Assumptions C57_regularised.
Print Assumptions C57_least_squares.
Print Assumptions C57_mean_p.
Print Assumptions C57_fit_error.
Print Assumptions C57_zero_values_refuted.
