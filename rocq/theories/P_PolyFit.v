(** C93: calling polynomial fits *)
From Coq Require Import Reals List Arith Lia Lra.
From Coquelicot Require Import Coquelicot.
From Verif Require Import Poly PolySpec PolyProofs PolyMoreProofs P_Poly PolyFit PolyFitSpec.
Import ListNotations.
Local Open Scope R_scope.
Local Notation Forall := List.Forall.
Local Notation length := List.length.

Lemma singles (l : list R) : Forall (fun x => length x = 1%nat) (map (fun x => [x]) l).
Proof. apply Forall_forall. intros x I. apply in_map_iff in I as (y & <- & _). reflexivity. Qed.
Lemma init_1d lstsq points values deg s sv f : polyfit1d_init lstsq points values deg s sv = Some f ->
  exists l, (points = A1 l \/ exists x, points = A0 x /\ l = [x]) /\ polyfit lstsq 1 (map (fun x => [x]) l) values deg s sv = Some f /\ ndim f = 1%nat.
Proof.
  unfold polyfit1d_init. destruct points as [x|l|n rows|]; cbn [fix_init_1d]; intros E; try discriminate E.
  - exists [x]. split; [right; eauto|]. split; [exact E|]. apply polyfit_inv in E as (_ & _ & _ & Nd & _); [exact Nd|apply (singles [x])].
  - exists l. split; [now left|]. split; [exact E|]. apply polyfit_inv in E as (_ & _ & _ & Nd & _); [exact Nd|apply singles].
Qed.
(** PolyFit1D is the best polynomial, whatever the shape of the points it is called with: numbers give
    numbers, arrays of two or more and (n,1) arrays give arrays. *)
Theorem C93_1d lstsq l values deg s sv f : least_squares lstsq -> polyfit1d_init lstsq (A1 l) values deg s sv = Some f ->
  exists p : mpoly 1, best deg p (map (fun x => [x]) l) values /\
    (forall x, polyfit1d_call f (A0 x) 0 = Some (Scalar (value deg p [x]))) /\
    (forall xs, length xs <> 1%nat -> polyfit1d_call f (A1 xs) 0 = Some (Vector (map (fun x => value deg p [x]) xs))) /\
    (forall xs, polyfit1d_call f (A2 1 (map (fun x => [x]) xs)) 0 = Some (Vector (map (fun x => value deg p [x]) xs))).
Proof.
  intros LS E. apply init_1d in E as (l' & [El|(x & El & _)] & E & Nd); [|discriminate El]. injection El as <-. destruct (C40_best_fit lstsq 1 _ values deg s sv f LS (singles l) E) as (p & V & B). exists p. split; [exact B|].
  assert (G : forall xs, polyval f (map (fun x => [x]) xs) 0 = Some (map (fun x => value deg p [x]) xs)) by (intros xs; rewrite V by apply singles; now rewrite map_map).
  unfold polyfit1d_call. split; [|split].
  - intros x. cbn [fix_call_1d]. assert (G1 := G [x]). cbn [map] in G1. now rewrite G1.
  - intros xs N. cbn [fix_call_1d]. rewrite Nd. destruct (Nat.eqb_spec (length xs) 1); [contradiction|]. now rewrite G.
  - intros xs. cbn [fix_call_1d]. rewrite Nd. cbn [Nat.eqb]. now rewrite G.
Qed.
(** Derivatives likewise *)
Theorem C93_derivative lstsq l values deg s sv f der : least_squares lstsq -> polyfit1d_init lstsq (A1 l) values deg s sv = Some f -> (0 < der)%nat ->
  exists F D : R -> R, (forall x, polyfit1d_call f (A0 x) 0 = Some (Scalar (F x))) /\ (forall x, is_derive_n F der x (D x)) /\
    (forall x, polyfit1d_call f (A0 x) der = Some (Scalar (D x))) /\ (forall xs, length xs <> 1%nat -> polyfit1d_call f (A1 xs) der = Some (Vector (map D xs))).
Proof.
  intros LS E LD. apply init_1d in E as (l' & [El|(x & El & _)] & E & Nd); [|discriminate El]. injection El as <-. destruct (C40_derivative lstsq _ values deg s sv f LS (singles l) E) as (F & F0 & FD).
  set (D := fun x => np_polyval (polyder (rev (coeffs f)) der) ((x - nth 0 (pmin f) 0) / nth 0 (pscale f) 0) / nth 0 (pscale f) 0 ^ der * vscale f).
  assert (G : forall xs, polyval f (map (fun x => [x]) xs) der = Some (map D xs)).
  { intros xs. unfold polyval. rewrite Nd. replace (forallb _ _) with true; [|symmetry; apply forallb_forall; intros y I; apply in_map_iff in I as (z & <- & _); reflexivity]. cbn [negb]. destruct (Nat.ltb_spec 0 der); [|lia]. cbn [Nat.eqb negb]. f_equal. rewrite map_map. reflexivity. }
  exists F, D. unfold polyfit1d_call. split; [|split; [|split]].
  - intros x. cbn [fix_call_1d]. rewrite F0. reflexivity.
  - intros x. destruct (FD der x LD) as (y & Y & DY). assert (G1 := G [x]). cbn [map] in G1. rewrite G1 in Y. assert (Y2 : D x = y) by congruence. rewrite Y2. exact DY.
  - intros x. cbn [fix_call_1d]. assert (G1 := G [x]). cbn [map] in G1. now rewrite G1.
  - intros xs N. cbn [fix_call_1d]. rewrite Nd. destruct (Nat.eqb_spec (length xs) 1); [contradiction|]. now rewrite G.
Qed.
(** An array of one point gives a number instead of an array. *)
Theorem C93_one_refuted lstsq l values deg s sv f x der : polyfit1d_init lstsq (A1 l) values deg s sv = Some f -> polyfit1d_call f (A1 [x]) der = polyfit1d_call f (A0 x) der /\ forall ys, polyfit1d_call f (A1 [x]) der <> Some (Vector ys).
Proof.
  intros E. apply init_1d in E as (l' & _ & E & Nd). unfold polyfit1d_call. cbn [fix_call_1d length]. rewrite Nd. cbn [Nat.eqb]. split; [reflexivity|]. intros ys. unfold finish. destruct (polyval f [[x]] der) as [[|y t]|]; discriminate.
Qed.
(** The documented (npoints,1) arrays are never accepted by the constructor. *)
Theorem C93_column_refuted lstsq n rows values deg s sv : polyfit1d_init lstsq (A2 n rows) values deg s sv = None.
Proof. reflexivity. Qed.
(** PolyFit in any dimension: a point gives a number, an array of points an array. *)
Theorem C93_nd lstsq n points values deg s sv f : least_squares lstsq -> Forall (fun x => length x = n) points -> polyfit_init lstsq (A2 n points) values deg s sv = Some f ->
  exists p : mpoly n, best deg p points values /\ (forall x, length x = n -> polyfit_call f (A1 x) 0 = Some (Scalar (value deg p x)) /\ interpol_call f (A1 x) = Some [value deg p x]) /\
    (forall rows, Forall (fun x => length x = n) rows -> polyfit_call f (A2 n rows) 0 = Some (Vector (map (value deg p) rows)) /\ interpol_call f (A2 n rows) = Some (map (value deg p) rows)).
Proof.
  intros LS FA E. cbn [polyfit_init] in E. destruct (C40_best_fit lstsq n _ values deg s sv f LS FA E) as (p & V & B). assert (Nd : ndim f = n) by (apply polyfit_inv in E as (_ & _ & _ & Nd & _); [exact Nd|exact FA]). exists p. split; [exact B|].
  assert (P2 : forall rows, Forall (fun x => length x = n) rows -> polyfit_call f (A2 n rows) 0 = Some (Vector (map (value deg p) rows))) by (intros rows FR; cbn [polyfit_call]; now rewrite Nd, Nat.eqb_refl, (V rows FR)).
  split.
  - intros x L. assert (F1 : Forall (fun x => length x = n) [x]) by (constructor; [exact L|constructor]). split; [cbn [polyfit_call]; now rewrite (V [x] F1)|]. unfold interpol_call. rewrite L, (P2 [x] F1). reflexivity.
  - intros rows FR. split; [now apply P2|]. unfold interpol_call. now rewrite (P2 rows FR).
Qed.
(** Points of the wrong dimension, and derivatives in two or more dimensions, are refused. *)
Theorem C93_refused lstsq n points values deg s sv f : Forall (fun x => length x = n) points -> polyfit_init lstsq (A2 n points) values deg s sv = Some f ->
  (forall x der, length x <> n -> polyfit_call f (A1 x) der = None /\ interpol_call f (A1 x) = None) /\ (forall x der, polyfit_call f (A0 x) der = None) /\
  (forall pts der, n <> 1%nat -> (0 < der)%nat -> polyfit_call f pts der = None).
Proof.
  intros FA E. cbn [polyfit_init] in E. assert (Nd : ndim f = n) by (apply polyfit_inv in E as (_ & _ & _ & Nd & _); [exact Nd|exact FA]). split; [|split].
  - intros x der N. split.
    + cbn [polyfit_call]. rewrite (proj2 (C40_refused f [x] der)); [reflexivity|]. rewrite Nd. intros F. inversion F. contradiction.
    + unfold interpol_call. cbn [polyfit_call]. rewrite Nd. destruct (Nat.eqb_spec (length x) n); [contradiction|reflexivity].
  - reflexivity.
  - intros pts der N LD. rewrite <- Nd in N. destruct pts; cbn [polyfit_call]; try reflexivity; rewrite (proj1 (C40_refused f _ der) N LD); [reflexivity|]. now destruct (_ =? _)%nat.
Qed.
(** get_min() starts from the best data point, and is never worse than it. *)
Lemma argmin_smallest values : values <> [] -> smallest values (argmin values).
Proof.
  induction values as [|x [|y t] IH]; intros N; [contradiction|exists x; split; [reflexivity|intros z [<-|[]]; lra]|]. destruct IH as (m & M & L); [discriminate|]. change (argmin (x :: y :: t)) with (if Rle_dec x (nth (argmin (y :: t)) (y :: t) 0) then 0%nat else S (argmin (y :: t))).
  rewrite (nth_error_nth _ _ 0 M). destruct (Rle_dec x m) as [C|C]; [exists x|exists m]; (split; [first [reflexivity|exact M]|]); intros z [<-|I]; try lra; specialize (L z I); lra.
Qed.
Theorem C93_min lstsq fmin n points values deg s sv f x : least_squares lstsq -> descends fmin -> Forall (fun x => length x = n) points -> polyfit_init lstsq (A2 n points) values deg s sv = Some f ->
  polyfit_min fmin points values f None = Some x ->
  exists i x0 y y0, smallest values i /\ nth_error points i = Some x0 /\ polyfit_call f (A1 x0) 0 = Some (Scalar y0) /\ polyfit_call f (A1 x) 0 = Some (Scalar y) /\ y <= y0.
Proof.
  intros LS DE FA E H. destruct (C93_nd lstsq n points values deg s sv f LS FA E) as (p & _ & P1 & _). cbn [polyfit_init] in E. destruct (polyfit_inv _ _ _ _ _ _ _ _ FA E) as (NE & LV & _).
  unfold polyfit_min in H. destruct (nth_error points (argmin values)) as [x0|] eqn:EX; [|discriminate H]. assert (L0 : length x0 = n) by (rewrite Forall_forall in FA; exact (FA x0 (nth_error_In _ _ EX))). assert (D := DE (fun p => scalar (polyfit_call f (A1 p) 0)) x0). cbn beta in D. rewrite (proj1 (P1 x0 L0)) in D. cbn [scalar] in D. destruct (D x H) as (y & Y & LE).
  exists (argmin values), x0, y, (value deg p x0). split; [apply argmin_smallest; intros ->; destruct points; [contradiction|discriminate LV]|]. split; [exact EX|]. split; [exact (proj1 (P1 x0 L0))|]. split; [|exact LE]. cbn [polyfit_call] in *. destruct (polyval f [x] 0) as [[|z t]|]; cbn in Y |- *; try discriminate Y. congruence.
Qed.
(** get_min(x0) starts from the point given, wherever it is, and is never worse than it. *)
Theorem C93_min_from lstsq fmin n points values deg s sv f x0 x : least_squares lstsq -> descends fmin -> Forall (fun x => length x = n) points -> polyfit_init lstsq (A2 n points) values deg s sv = Some f ->
  length x0 = n -> polyfit_min fmin points values f (Some x0) = Some x ->
  exists y y0, polyfit_call f (A1 x0) 0 = Some (Scalar y0) /\ polyfit_call f (A1 x) 0 = Some (Scalar y) /\ y <= y0.
Proof.
  intros LS DE FA E L0 H. destruct (C93_nd lstsq n points values deg s sv f LS FA E) as (p & _ & P1 & _).
  unfold polyfit_min in H. assert (D := DE (fun p => scalar (polyfit_call f (A1 p) 0)) x0). cbn beta in D. rewrite (proj1 (P1 x0 L0)) in D. cbn [scalar] in D. destruct (D x H) as (y & Y & LE).
  exists y, (value deg p x0). split; [exact (proj1 (P1 x0 L0))|]. split; [|exact LE]. cbn [polyfit_call] in *. destruct (polyval f [x] 0) as [[|z t]|]; cbn in Y |- *; try discriminate Y. congruence.
Qed.
(** Interpol2D.get_min() needs a start point in more than two dimensions, against the documentation. *)
Theorem C93_nd_min_refuted lstsq fmin n points values deg s sv f : (2 < n)%nat -> descends fmin -> Forall (fun x => length x = n) points -> polyfit_init lstsq (A2 n points) values deg s sv = Some f ->
  interpol_min fmin points values f None = None.
Proof.
  intros L DE FA E. unfold interpol_min. destruct (nth_error points (argmin values)) as [[|a [|b t]]|]; try reflexivity. assert (D := DE (fun p => match interpol_call f (A1 p) with Some [y] => Some y | _ => None end) [a; b]). cbn beta in D.
  rewrite (proj2 (proj1 (C93_refused lstsq n points values deg s sv f FA E) [a; b] 0%nat ltac:(cbn; lia))) in D. exact D.
Qed.
(** A minimiser which meets the assumption (it stays where it starts), and fits that exist *)
Example C93_descends : descends (fun f x0 => match f x0 with Some _ => Some x0 | None => None end).
Proof. intros f x0. destruct (f x0) as [y|] eqn:E; [|reflexivity]. intros x H. injection H as <-. exists y. split; [exact E|lra]. Qed.
Example C93_case : exists lstsq f, least_squares lstsq /\ polyfit1d_init lstsq (A1 [0; 1; 2]) [1; 0; 7] 2 false false = Some f.
Proof. destruct C40_solver_exists as [l Hl]. exists l. eexists. split; [exact Hl|]. unfold polyfit1d_init. cbn [fix_init_1d map]. unfold polyfit. cbn [length Nat.eqb negb repeat forallb]. unfold Rnz. destruct (Req_EM_T 1 0); [lra|]. reflexivity. Qed.
Example C93_case_nd : exists lstsq f, least_squares lstsq /\ polyfit_init lstsq (A2 3 [[0; 1; 2]; [1; 0; 5]]) [1; 7] 1 false false = Some f.
Proof. destruct C40_solver_exists as [l Hl]. exists l. eexists. split; [exact Hl|]. unfold polyfit_init, polyfit. cbn [length Nat.eqb negb repeat forallb]. unfold Rnz. destruct (Req_EM_T 1 0); [lra|]. reflexivity. Qed.
Print Assumptions C93_1d.
Print Assumptions C93_derivative.
Print Assumptions C93_one_refuted.
Print Assumptions C93_column_refuted.
Print Assumptions C93_nd.
Print Assumptions C93_refused.
Print Assumptions C93_min.
Print Assumptions C93_min_from.
Print Assumptions C93_nd_min_refuted.
