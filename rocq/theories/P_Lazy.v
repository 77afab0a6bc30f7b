(** C102: lazy properties, and fits of an equation of state that are repeated *)
From Coq Require Import Reals List Arith Lia Lra.
From Verif Require Import Eos EosProofs P_Eos Lazy.
Import ListNotations.

(** ** lazyprop *)
Section L.
Context {St V : Type} (get : St -> option V).
(** no assignment to the property itself *)
Definition quiet (p : lop St V) : Prop := match p with LChange _ | LGet => True | _ => False end.
(** After a first access that worked every access gives the same value, however the object changes, and the
    method is not called again. *)
Theorem C102_once o v o1 ps rs o2 : lstep get o LGet = (Got v, o1) -> Forall quiet ps -> lrun get ps o1 = (rs, o2) ->
  (forall k, nth_error ps k = Some LGet -> nth_error rs k = Some (Got v)) /\ evals o2 = evals o1 /\ (evals o1 <= S (evals o))%nat.
Proof.
  intros G Q R. assert (C : cache o1 = Some v /\ (evals o1 <= S (evals o))%nat).
  { unfold lstep in G. destruct (cache o) as [u|] eqn:E; [injection G as <- <-; split; [exact E|lia]|]. destruct (get (rest o)); [|discriminate]. injection G as <- <-. split; [reflexivity|cbn; lia]. }
  destruct C as [C L]. clear G. assert (K : (forall k, nth_error ps k = Some LGet -> nth_error rs k = Some (Got v)) /\ evals o2 = evals o1); [|tauto].
  clear L. revert o1 C rs o2 R. induction Q as [|p ps Qp Q IH]; intros o1 C rs o2 R; [injection R as <- <-; split; [intros [|k]; discriminate|reflexivity]|]. cbn [lrun] in R. destruct (lstep get o1 p) as [r o1'] eqn:E. destruct (lrun get ps o1') as [rs' o2'] eqn:E'. injection R as <- <-.
  assert (C' : cache o1' = Some v /\ evals o1' = evals o1 /\ (p = LGet -> r = Got v)).
  { destruct p as [f| | |]; cbn in Qp, E; try tauto; [injection E as <- <-; repeat split; [exact C|discriminate]|]. rewrite C in E. injection E as <- <-. now repeat split. }
  destruct C' as (C1 & C2 & C3). destruct (IH o1' C1 rs' o2' E') as (I1 & I2). split; [|congruence]. intros [|k] H; [injection H as ->; cbn; f_equal; now apply C3|exact (I1 k H)].
Qed.
(** The value is the one of the object at the first access; an exception is not kept. *)
Theorem C102_first o : cache o = None ->
  (forall v, get (rest o) = Some v -> exists o1, lstep get o LGet = (Got v, o1) /\ rest o1 = rest o /\ evals o1 = S (evals o)) /\
  (get (rest o) = None -> exists o1, lstep get o LGet = (Raised, o1) /\ rest o1 = rest o /\ cache o1 = None /\ forall f v, get (f (rest o)) = Some v -> fst (lstep get (snd (lstep get o1 (LChange f))) LGet) = Got v).
Proof.
  intros C. split.
  - intros v G. cbn. rewrite C, G. eexists. split; [reflexivity|]. now split.
  - intros G. cbn. rewrite C, G. eexists. split; [reflexivity|]. split; [reflexivity|]. split; [reflexivity|]. intros f v H. cbn. now rewrite H.
Qed.
(** An assigned value is used until it is deleted; then the method is called for the object as it is. *)
Theorem C102_assign o v : fst (lstep get (snd (lstep get o (LSet v))) LGet) = Got v /\ forall u, get (rest o) = Some u -> fst (lstep get (snd (lstep get (snd (lstep get o (LSet v))) LDel)) LGet) = Got u.
Proof. split; [reflexivity|]. intros u G. cbn. now rewrite G. Qed.
End L.

(** ** EosFit *)
Section E.
Local Open Scope R_scope.
Variable polyfit2 : list R -> list R -> R * R * R.
Variable leastsq : (list R -> option (list R)) -> list R -> list R.
Variable spline : list R -> list R -> option (R -> nat -> R).
Notation fit := (fit polyfit2 leastsq).
Notation fresh := (fresh polyfit2 leastsq).
Notation estep := (estep polyfit2 leastsq spline).
Notation erun := (erun polyfit2 leastsq spline).
(** New data and a new fit: E(V) and its first two derivatives are those of a new object; higher ones too, if none
    was used before. *)
Theorem C102_refit o v e rs o1 : erun [EVolume v; EEnergy e; EFit] o = (rs, o1) -> rs = [Done; Done; Done] ->
  exists f, fresh v e (points (rest o)) = Some f /\ rest o1 = rest f /\
    (forall V der, (der <= 2)%nat -> fst (estep o1 (ECall V der)) = fst (estep f (ECall V der))) /\
    (cache o = None -> forall V der, fst (estep o1 (ECall V der)) = fst (estep f (ECall V der))).
Proof.
  intros R D. cbn [erun Lazy.estep change lstep snd rest volume energy points] in R. unfold Lazy.fresh. destruct (fit v e) as [q|]; [|injection R as <- _; discriminate]. injection R as <- <-. cbn [option_map]. eexists. split; [reflexivity|]. split; [reflexivity|]. split.
  - intros V der L. destruct der as [|[|[|der]]]; [reflexivity|reflexivity|reflexivity|lia].
  - intros C V der. destruct der as [|[|[|der]]]; [reflexivity|reflexivity|reflexivity|]. unfold Lazy.estep, change, lstep. cbn [rest par vinet_call cache snd]. rewrite C. match goal with |- context [get_spl spline ?x] => set (a := x) end. destruct (get_spl spline a); reflexivity.
Qed.
(** A fit that fails leaves the object as it was, with the parameters of the last fit. *)
Theorem C102_failed_fit o : fit (volume (rest o)) (energy (rest o)) = None -> estep o EFit = (Raised, o).
Proof. intros F. unfold Lazy.estep. now rewrite F. Qed.
Lemma cached_stays ps : forall o s, cache o = Some s -> cache (snd (erun ps o)) = Some s.
Proof.
  induction ps as [|p ps IH]; intros o s C; [exact C|]. cbn [Lazy.erun]. destruct (estep o p) as [r o1] eqn:E. specialize (IH o1 s). destruct (erun ps o1) as [rs o2]. cbn [snd] in *. apply IH. destruct p; cbn in E; try (injection E as _ <-; exact C).
  - destruct (fit _ _); injection E as _ <-; exact C.
  - destruct (vinet_call V (par (rest o)) der); [injection E as _ <-; exact C|]. rewrite C in E. injection E as _ <-. exact C.
Qed.
(** Once a derivative of third or higher order was used, all such derivatives belong to the fit of that time:
    new data, parameters, numbers of points and fits change nothing. *)
Theorem C102_stale_refuted o V k y o1 ps rs o2 : (3 <= k)%nat -> estep o (ECall V k) = (Got y, o1) -> erun ps o1 = (rs, o2) ->
  fst (estep o2 (ECall V k)) = Got y /\ (exists s, cache o1 = Some s /\ forall W j, (3 <= j)%nat -> fst (estep o2 (ECall W j)) = Got (s W j)).
Proof.
  intros L E R. assert (NC : forall W p j, (3 <= j)%nat -> vinet_call W p j = None) by (intros W p [|[|[|j]]] J; try lia; reflexivity).
  assert (C : exists s, cache o1 = Some s /\ s V k = y).
  { cbn in E. rewrite NC in E by exact L. destruct (cache o) as [s|] eqn:C; [injection E as <- <-; now exists s|]. destruct (get_spl spline (rest o)) as [s|]; [|discriminate]. injection E as <- <-. now exists s. }
  destruct C as (s & C & Y). assert (C2 := cached_stays ps o1 s C). rewrite R in C2. cbn [snd] in C2. assert (K : forall W j, (3 <= j)%nat -> fst (estep o2 (ECall W j)) = Got (s W j)).
  { intros W j J. cbn. rewrite NC by exact J. now rewrite C2. }
  split; [rewrite K by exact L; now f_equal|]. exists s. now split.
Qed.
Definition linear : Prop := forall c vv y s, spline vv y = Some s -> exists t, spline vv (map (Rmult c) y) = Some t /\ forall V k, t V k = c * s V k.
Definition scaled (c : R) (p : params) : params := Params (c * e0 p) (c * b0 p) (b1 p) (v0 p).
Lemma vinet_scaled c V p : vinet V (scaled c p) = c * vinet V p.
Proof. unfold vinet, scaled, eta_of, Rdiv. cbn [e0 b0 b1 v0]. ring. Qed.
(** Energies multiplied by c, and a new fit: third derivatives should be multiplied by c (as in a new object), but
    stay as they were. *)
Theorem C102_refit_refuted c v e e' n o p V k d : linear -> c <> 1 -> (3 <= k)%nat -> fresh v e n = Some o -> fit v e = Some p -> fit v e' = Some (scaled c p) -> fst (estep o (ECall V k)) = Got d -> d <> 0 ->
  exists f, fresh v e' n = Some f /\ fst (estep f (ECall V k)) = Got (c * d) /\ c * d <> d /\ fst (erun [ECall V k; EEnergy e'; EFit; ECall V k] o) = [Got d; Done; Done; Got d].
Proof.
  intros LI NC L F P P' E ND. unfold Lazy.fresh in *. rewrite P' in *. rewrite P in F. cbn [option_map] in *. injection F as <-. eexists. split; [reflexivity|].
  assert (VN : forall W q, vinet_call W q k = None) by (intros W q; destruct k as [|[|[|k]]]; try lia; reflexivity). unfold Lazy.estep in E. cbn [rest par] in E. rewrite VN in E. cbn [lstep cache rest] in E. destruct (get_spl spline (Attrs v e n p)) as [s|] eqn:G; [|discriminate]. cbn [fst] in E. injection E as <-.
  assert (G' : exists t, get_spl spline (Attrs v e' n (scaled c p)) = Some t /\ forall W j, t W j = c * s W j).
  { unfold get_spl in *. cbn [volume points par] in *. destruct (LI c _ _ _ G) as (t & T & TT). exists t. split; [|exact TT]. rewrite <- T. f_equal. rewrite map_map. apply map_ext. intros W. apply vinet_scaled. }
  destruct G' as (t & G' & TT). split; [|split].
  - unfold Lazy.estep. cbn [rest par]. rewrite VN. cbn [lstep cache rest]. rewrite G'. cbn [fst]. now rewrite TT.
  - intros X. apply NC. assert (Y : (c - 1) * s V k = 0) by lra. apply Rmult_integral in Y as [Y|Y]; lra.
  - cbn [Lazy.erun]. unfold Lazy.estep at 1. cbn [rest par]. rewrite VN. cbn [lstep cache rest]. rewrite G. cbn [Lazy.estep change lstep snd rest cache evals volume energy points]. rewrite P'. cbn [Lazy.estep change lstep snd rest cache evals par]. rewrite VN. reflexivity.
Qed.
End E.
(** Oracles for which the hypotheses hold: a "spline" linear in the data, energies 1 and 2 *)
Section Case.
Local Open Scope R_scope.
Definition poly102 (v e : list R) : R * R * R := (hd 0 e, -80 * hd 0 e, 1600 * hd 0 e).
Definition lsq102 (f : list R -> option (list R)) (s : list R) : list R := s.
Definition spl102 (vv y : list R) : option (R -> nat -> R) := Some (fun _ k => INR k * nth 0 y 0).
Lemma fit102 e : e <> 0 -> fit poly102 lsq102 [30; 50] [e] = Some (Params 0 (80 * e) 4 40).
Proof.
  intros N. unfold fit, poly102, guess. cbn [hd]. assert (V0 : - (-80 * e) / (2 * e) = 40) by (field; exact N). rewrite V0. unfold guard_raises, rltb. cbn [v0].
  assert (VM : vmin [30; 50] = 30) by (unfold vmin; cbn; unfold Rmin; repeat destruct Rle_dec; lra). rewrite VM. destruct (Rlt_dec 30 40); [|lra]. cbn [negb andb]. unfold lsq102, lst2dct, dct2lst. cbn [e0 b0 b1 v0]. do 2 f_equal; ring.
Qed.
Example case102 : exists o, linear spl102 /\ fresh poly102 lsq102 [30; 50] [1] 6 = Some o /\ fit poly102 lsq102 [30; 50] [2] = Some (scaled 2 (Params 0 80 4 40)) /\ fit poly102 lsq102 [30; 50] [1] = Some (Params 0 80 4 40) /\
  exists d, fst (estep poly102 lsq102 spl102 o (ECall 35 3)) = Got d /\ d <> 0.
Proof.
  assert (F1 : fit poly102 lsq102 [30; 50] [1] = Some (Params 0 80 4 40)) by (rewrite fit102 by lra; do 2 f_equal; ring). eexists. split; [|split; [unfold fresh; rewrite F1; reflexivity|split; [rewrite fit102 by lra; unfold scaled; cbn [e0 b0 b1 v0]; do 2 f_equal; ring|split; [exact F1|]]]].
  - intros c vv y s E. injection E as <-. eexists. split; [reflexivity|]. intros V k. cbv beta. rewrite <- (Rmult_0_r c) at 1. rewrite map_nth. ring.
  - exists (INR 3 * vinet (vmin [30; 50] + INR 0 * ((vmax [30; 50] - vmin [30; 50]) / INR 5)) (Params 0 80 4 40)). split; [reflexivity|]. assert (P : 0 < vinet 30 (Params 0 80 4 40)). { destruct (C54_get_min 0 80 4 40 30 ltac:(lra) ltac:(lra) ltac:(lra) ltac:(lra)) as (G & M). rewrite G in M. assert (K := M ltac:(lra)). assert (Z : vinet 40 (Params 0 80 4 40) = 0) by (destruct (C54_parameters 0 80 4 40 ltac:(lra) ltac:(lra)) as (Z & _); exact Z). rewrite Z in K. exact K. }
    assert (VM : vmin [30; 50] = 30) by (unfold vmin; cbn; unfold Rmin; repeat destruct Rle_dec; lra). rewrite VM. cbn [INR]. rewrite Rmult_0_l, Rplus_0_r. apply Rgt_not_eq. apply Rmult_lt_0_compat; [lra|exact P].
Qed.
End Case.
Print Assumptions C102_once. Print Assumptions C102_first. Print Assumptions C102_assign. Print Assumptions C102_refit. Print Assumptions C102_failed_fit. Print Assumptions C102_stale_refuted. Print Assumptions C102_refit_refuted.
