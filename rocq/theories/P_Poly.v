(** C40: fitting and evaluating polynomials in any number of variables. *)
From Coq Require Import Reals List Arith Lia Lra.
From Coquelicot Require Import Coquelicot.
From Verif Require Import Poly PolySpec PolyProofs PolyMoreProofs LstsqProofs.
Import ListNotations.
Local Open Scope R_scope.
Local Notation Forall := List.Forall.

(** The terms of the polynomial: every vector of exponents up to [deg], once each. *)
Theorem C40_powers : forall n deg,
  length (poly_powers n deg) = ((deg + 1) ^ n)%nat /\ NoDup (poly_powers n deg) /\
  forall pw, In pw (poly_powers n deg) <-> length pw = n /\ Forall (fun k => (k <= deg)%nat) pw.
Proof. intros. split; [apply powers_length|]. split; [apply powers_nodup|]. apply powers_in. Qed.
Print Assumptions C40_powers.

Example C40_powers_ex : poly_powers 2 1 = [[0; 0]; [0; 1]; [1; 0]; [1; 1]]%nat.
Proof. reflexivity. Qed.

(** The assumption on the linear solver can be met. *)
Theorem C40_solver_exists : exists lstsq, least_squares lstsq.
Proof. destruct least_squares_exists as [l H]. exists l. exact H. Qed.
Print Assumptions C40_solver_exists.

(** With or without either scaling, what the fit evaluates to anywhere is one
    polynomial of the requested degree in the original coordinates, and no other such
    polynomial is closer to the data. *)
Theorem C40_best_fit : forall lstsq n points values deg s sv f, least_squares lstsq ->
  Forall (fun x => length x = n) points ->
  polyfit lstsq n points values deg s sv = Some f ->
  exists p : mpoly n,
    (forall pts, Forall (fun x => length x = n) pts -> polyval f pts 0 = Some (map (value deg p) pts)) /\
    forall p' : mpoly n, deviation (value deg p) points values <= deviation (value deg p') points values.
Proof.
  intros lstsq n points values deg s sv f LS F E.
  destruct (fit_spec _ _ _ _ _ _ _ _ LS F E) as (p & Hp & Hmin). exists p. split; [|exact Hmin].
  intros pts Fp. destruct (polyfit_inv _ _ _ _ _ _ _ _ F E) as (_ & _ & _ & Nd & _).
  rewrite polyval_0 by (rewrite Nd; assumption). f_equal. apply map_ext_in. rewrite Forall_forall in Fp. auto.
Qed.
Print Assumptions C40_best_fit.

(** Data that come from a polynomial are reproduced at the data points, and at every
    point where the data determine the polynomial. *)
Theorem C40_exact : forall lstsq n points deg s sv f (p0 : mpoly n), least_squares lstsq ->
  Forall (fun x => length x = n) points ->
  polyfit lstsq n points (map (value deg p0) points) deg s sv = Some f ->
  polyval f points 0 = Some (map (value deg p0) points) /\
  forall q, length q = n ->
  (forall d : mpoly n, Forall (fun x => value deg d x = 0) points -> value deg d q = 0) ->
  polyval f [q] 0 = Some [value deg p0 q].
Proof. exact exact_spec. Qed.
Print Assumptions C40_exact.

(** The scaling options and the solver do not matter for the fitted values. *)
Theorem C40_flags_irrelevant : forall lstsq lstsq' n points values deg s sv s' sv' f f',
  least_squares lstsq -> least_squares lstsq' -> Forall (fun x => length x = n) points ->
  polyfit lstsq n points values deg s sv = Some f ->
  polyfit lstsq' n points values deg s' sv' = Some f' ->
  polyval f points 0 = polyval f' points 0.
Proof. exact unique_spec. Qed.
Print Assumptions C40_flags_irrelevant.

(** With the default options a fit exists exactly when neither the values nor any
    coordinate are one and the same non-negative number throughout. *)
Theorem C40_defined : forall lstsq n points values deg, points <> [] -> length values = length points ->
  ((exists f, polyfit lstsq n points values deg true false = Some f) <->
   ~ (exists c, 0 <= c /\ Forall (fun v => v = c) values) /\
   forall j, (j < n)%nat -> ~ (exists c, 0 <= c /\ Forall (fun x => nth j x 0 = c) points)).
Proof. exact defined_spec. Qed.
Print Assumptions C40_defined.

(** Without scaling a fit always exists. *)
Theorem C40_defined_unscaled : forall lstsq n points values deg, points <> [] -> length values = length points ->
  exists f, polyfit lstsq n points values deg false false = Some f.
Proof.
  intros lstsq n points values deg NE L. unfold polyfit. rewrite L, Nat.eqb_refl. cbn [negb].
  destruct (Nat.eqb_spec (length points) 0) as [Z|_]; [destruct points; [contradiction|discriminate]|].
  replace (forallb Rnz (repeat 1 n)) with true.
  2:{ symmetry. apply Rnz_spec. rewrite Forall_forall. intros x Hx. apply repeat_spec in Hx. lra. }
  unfold Rnz. destruct (Req_EM_T 1 0); [lra|]. eexists. reflexivity.
Qed.
Print Assumptions C40_defined_unscaled.

(** So the promise that a polynomial's own values are reproduced fails with the default
    options for every constant non-negative polynomial. *)
Theorem C40_constant_refuted : ~ (forall lstsq n points deg (p0 : mpoly n), least_squares lstsq -> points <> [] ->
  Forall (fun x => length x = n) points ->
  exists f, polyfit lstsq n points (map (value deg p0) points) deg true false = Some f).
Proof.
  intros H. destruct C40_solver_exists as [l Hl].
  specialize (H l 1%nat [[1]; [2]] 0%nat (Coeffs 0 (fun _ => Const 5)) Hl ltac:(discriminate)
    ltac:(repeat constructor)).
  apply (C40_defined l 1) in H; [|discriminate|reflexivity]. destruct H as [H _]. apply H.
  exists 5. split; [lra|]. cbn. repeat constructor; lra.
Qed.
Print Assumptions C40_constant_refuted.

(** The data are scaled into [0, 1]. *)
Theorem C40_unit_range : forall l, l <> [] -> lmax (map Rabs l) - lmin l <> 0 ->
  Forall (fun x => 0 <= (x - lmin l) / (lmax (map Rabs l) - lmin l) <= 1) l.
Proof. intros l H. apply range_spec. exact H. Qed.
Print Assumptions C40_unit_range.

(** In one dimension [der=d] gives the d-th derivative of the fitted polynomial. *)
Theorem C40_derivative : forall lstsq points values deg s sv f, least_squares lstsq ->
  Forall (fun x => length x = 1%nat) points ->
  polyfit lstsq 1 points values deg s sv = Some f ->
  exists F : R -> R, (forall x, polyval f [[x]] 0 = Some [F x]) /\
  forall der x, (0 < der)%nat -> exists y, polyval f [[x]] der = Some [y] /\ is_derive_n F der x y.
Proof.
  intros lstsq points values deg s sv f LS F E.
  pose proof (coeffs_length _ _ _ _ _ _ _ _ LS F E) as LC.
  destruct (polyfit_inv _ _ _ _ _ _ _ _ F E) as (_ & _ & Dg & Nd & Lm & Ls & Nz & _).
  exists (fun x => poly_at f [x]). split.
  - intros x. rewrite polyval_0 by (rewrite Nd; auto). reflexivity.
  - intros der x Hd. destruct (pmin f) as [|pm [|]] eqn:Em; try discriminate.
    destruct (pscale f) as [|ps [|]] eqn:Es; try discriminate.
    apply (derivative_spec f pm ps); auto; [inversion Nz; assumption|]. rewrite LC, Dg. cbn. lia.
Qed.
Print Assumptions C40_derivative.

(** In more dimensions derivatives are refused, and so are points of the wrong
    dimension. *)
Theorem C40_refused : forall f pts der,
  (ndim f <> 1%nat -> (0 < der)%nat -> polyval f pts der = None) /\
  (~ Forall (fun x => length x = ndim f) pts -> polyval f pts der = None).
Proof.
  intros f pts der. unfold polyval. destruct (forallb _ pts) eqn:E; cbn [negb]; [|auto].
  split.
  - intros N H. replace (0 <? der)%nat with true by (symmetry; apply Nat.ltb_lt; assumption).
    destruct (Nat.eqb_spec (ndim f) 1); [contradiction|reflexivity].
  - intros N. exfalso. apply N. rewrite forallb_forall in E. rewrite Forall_forall. intros x Hx. apply Nat.eqb_eq. auto.
Qed.
Print Assumptions C40_refused.

(** A case that meets the hypotheses: three points in the plane, a product term, the
    default options. *)
Example C40_ex : exists lstsq f, least_squares lstsq /\
  polyfit lstsq 2 [[0; 1]; [1; 0]; [2; 3]] [1; 0; 7] 1 true false = Some f.
Proof.
  destruct C40_solver_exists as [l Hl]. exists l.
  destruct (proj2 (C40_defined l 2 [[0; 1]; [1; 0]; [2; 3]] [1; 0; 7] 1 ltac:(discriminate) eq_refl)) as [f Hf].
  - split.
    + intros (c & _ & H). inversion H as [|? ? E1 H2]; subst. inversion H2; subst. lra.
    + intros [|[|j]] Hj (c & _ & H); [| |lia]; inversion H as [|? ? E1 H2]; subst; inversion H2 as [|? ? E2 H3]; subst; cbn in *; lra.
  - exists f. auto.
Qed.
