(** C55: harmonic thermodynamics. *)
From Coq Require Import Reals List Bool Lra Lia Sorted.
From Coquelicot Require Import Coquelicot.
From Verif Require Import Thermo ThermoSpec ThermoProofs.
Import ListNotations.
Local Open Scope R_scope.

(** C55: E = F + T*S, with the entropy brought from units of kb to eV, for every density of states with
    positive frequencies, every temperature and every linear integrator. *)
Theorem C55_energy :
  forall hplanck c0 kb eV integ ha T, 0 < hplanck -> 0 < c0 -> 0 < kb -> 0 < eV ->
  linear integ -> positive_freqs ha -> 0 < T ->
  evib1 hplanck c0 kb eV integ ha T =
  fvib1 hplanck c0 kb eV integ ha T + T * (kb / eV * svib1 hplanck c0 kb integ ha T).
Proof.
  intros. rewrite energy by assumption. ring.
Qed.
Theorem C55_trapz_linear : linear trapz.
Proof. exact trapz_linear. Qed.

(** C55: the entropy is minus the temperature derivative of the free energy. *)
Theorem C55_entropy_derivative :
  forall hplanck c0 kb eV ha T, 0 < hplanck -> 0 < c0 -> 0 < kb -> positive_freqs ha -> 0 < T ->
  is_derive (fun t => fvib1 hplanck c0 kb eV trapz ha t) T (- (kb / eV) * svib1 hplanck c0 kb trapz ha T).
Proof. intros. apply free_derive; assumption. Qed.

(** C55: the heat capacity is the temperature derivative of the internal energy. *)
Theorem C55_heat_capacity_derivative :
  forall hplanck c0 kb eV ha T, 0 < hplanck -> 0 < c0 -> 0 < kb -> 0 < eV -> positive_freqs ha -> 0 < T ->
  is_derive (fun t => evib1 hplanck c0 kb eV trapz ha t) T (kb / eV * cv1 hplanck c0 kb trapz ha T).
Proof. intros. apply energy_derive; assumption. Qed.

(** C55: signs and bounds: the entropy is not negative, the heat capacity is between 0 and the area of
    the dos (the law of Dulong and Petit), the energy at least the zero point energy. *)
Theorem C55_bounds :
  forall hplanck c0 kb eV ha T, 0 < hplanck -> 0 < c0 -> 0 < kb -> 0 < eV -> proper ha -> 0 < T ->
  0 <= svib1 hplanck c0 kb trapz ha T /\
  0 <= cv1 hplanck c0 kb trapz ha T <= trapz (doses ha) (freqs ha) /\
  (hplanck * c0 * 100) / eV * integrate trapz ha (fun d f => d * f / 2) <= evib1 hplanck c0 kb eV trapz ha T.
Proof.
  intros. split; [apply svib_pos; assumption|]. split; [apply cv_range; assumption|].
  exact (zero_point hplanck c0 kb eV H H0 H1 H2 ha T H3 H4).
Qed.

(** C55: at high temperature the heat capacity approaches that area. *)
Theorem C55_dulong_petit :
  forall hplanck c0 kb ha, 0 < hplanck -> 0 < c0 -> 0 < kb -> positive_freqs ha ->
  is_lim (fun T => cv1 hplanck c0 kb trapz ha T) p_infty (trapz (doses ha) (freqs ha)).
Proof. intros. apply cv_limit; assumption. Qed.

(** C55: the constructor.  [skipfreq] keeps the points with frequency above [eps], in order, so that the
    formulas apply; [dosarea] scales the dos to the given area. *)
Theorem C55_init :
  forall integ freq dos skip eps area,
  match init integ freq dos skip eps area with
  | None => length freq <> length dos
  | Some ha => length freq = length dos /\ length (doses ha) = length (freqs ha) /\
      freqs ha = (if skip then filter (fun f => if Rlt_dec eps f then true else false) freq else freq) /\
      (skip = true -> List.Forall (fun f => eps < f) (freqs ha)) /\
      (area = None -> forall f d, In (f, d) (combine (freqs ha) (doses ha)) -> In (f, d) (combine freq dos))
  end.
Proof.
  intros integ freq dos skip eps area. unfold init. destruct (Nat.eqb_spec (length freq) (length dos)) as [L|L]; [|exact L].
  set (keep := filter _ (combine freq dos)). split; [exact L|].
  assert (F : map fst keep = (if skip then filter (fun f => if Rlt_dec eps f then true else false) freq else freq)).
  { unfold keep. clear keep. revert dos L. induction freq as [|f freq IH]; intros [|d dos] L; try discriminate.
    - destruct skip; reflexivity.
    - cbn [combine filter fst]. destruct skip.
      + destruct (Rlt_dec eps f); cbn [map fst]; rewrite (IH dos) by (cbn in L; lia); reflexivity.
      + cbn [map fst]. rewrite (IH dos) by (cbn in L; lia). reflexivity. }
  cbn [freqs doses]. split.
  - destruct area; [unfold norm_int; rewrite !map_length|]; rewrite ?map_length; reflexivity.
  - split; [exact F|]. split.
    + intros ->. rewrite F. apply Forall_forall. intros x I. apply filter_In in I. destruct I as [_ I].
      destruct (Rlt_dec eps x); [assumption | discriminate].
    + intros -> f d I.
      assert (In (f, d) keep).
      { clear - I. induction keep as [|[a b] k IH]; cbn in *; [contradiction|].
        destruct I as [I|I]; [left; congruence | right; apply IH; exact I]. }
      unfold keep in H. apply filter_In in H. apply H.
Qed.
Theorem C55_dosarea :
  forall freq dos skip eps area ha,
  init trapz freq dos skip eps None = Some ha -> trapz (doses ha) (freqs ha) <> 0 ->
  exists ha', init trapz freq dos skip eps (Some area) = Some ha' /\ freqs ha' = freqs ha /\
    trapz (doses ha') (freqs ha') = area /\
    exists c, doses ha' = map (fun d => d * c) (doses ha).
Proof.
  intros freq dos skip eps area ha H N. unfold init in *. destruct (Nat.eqb (length freq) (length dos)); [|discriminate].
  injection H as <-. cbn [freqs doses] in *. eexists. split; [reflexivity|]. cbn [freqs doses]. split; [reflexivity|].
  split; [apply norm_area; exact N|]. unfold norm_int. cbv zeta. eexists. apply map_ext. intro d. unfold Rdiv. rewrite Rmult_assoc. reflexivity.
Qed.

(** C55: the methods run over the temperature axis: the argument, or else that of the constructor. *)
Theorem C55_axis :
  forall hplanck c0 kb eV integ ha self_T temp,
  match temp, self_T with
  | None, None => evib hplanck c0 kb eV integ ha self_T temp = None
  | None, Some ts | Some ts, _ =>
      evib hplanck c0 kb eV integ ha self_T temp = Some (map (evib1 hplanck c0 kb eV integ ha) ts) /\
      fvib hplanck c0 kb eV integ ha self_T temp = Some (map (fvib1 hplanck c0 kb eV integ ha) ts) /\
      svib hplanck c0 kb integ ha self_T temp = Some (map (svib1 hplanck c0 kb integ ha) ts) /\
      cv hplanck c0 kb integ ha self_T temp = Some (map (cv1 hplanck c0 kb integ ha) ts)
  end.
Proof. intros. destruct temp, self_T; repeat split. Qed.

(** C55: the grids of [Gibbs]: F is the energy plus the vibrational free energy, H = E + P*V and
    G = F + P*V at every point, temperature and pressure. *)
Theorem C55_gibbs :
  forall hplanck c0 kb eV integ conv ts ps pts i t p, (i < length pts)%nat -> (t < length ts)%nat -> (p < length ps)%nat ->
  let pt := nth i pts (Point 0 0 (Harmonic [] [])) in
  let F := etot pt + fvib1 hplanck c0 kb eV integ (phdos pt) (nth t ts 0) in
  nth t (nth i (g_F hplanck c0 kb eV integ ts pts) []) 0 = F /\
  nth i (nth p (g_H conv ps pts) []) 0 = etot pt + nth p ps 0 * vol pt / conv /\
  nth i (nth p (nth t (g_G hplanck c0 kb eV integ conv ts ps pts) []) []) 0 = F + nth p ps 0 * vol pt / conv.
Proof.
  intros hplanck c0 kb eV integ conv ts ps pts i t p I T P pt F.
  set (dp := Point 0 0 (Harmonic [] [])) in *.
  assert (NM : forall A B (f : A -> B) l k a b, (k < length l)%nat -> nth k (map f l) b = f (nth k l a)).
  { intros A B f l k a b K. rewrite (nth_indep _ b (f a)) by (rewrite map_length; exact K). apply map_nth. }
  assert (HF : nth t (nth i (g_F hplanck c0 kb eV integ ts pts) []) 0 = F).
  { unfold g_F. rewrite (NM _ _ _ _ _ dp) by exact I. rewrite (NM _ _ _ _ _ 0) by exact T. reflexivity. }
  split; [exact HF|]. split.
  - unfold g_H. rewrite (NM _ _ _ _ _ 0) by exact P. rewrite (NM _ _ _ _ _ dp) by exact I. fold pt. rewrite (Rmult_comm (vol pt)). reflexivity.
  - unfold g_G. rewrite (NM _ _ _ _ _ 0%nat) by (rewrite seq_length; exact T). rewrite seq_nth by exact T. cbn [Nat.add].
    rewrite (NM _ _ _ _ _ 0) by exact P.
    set (col := column t (g_F hplanck c0 kb eV integ ts pts)).
    assert (Lc : length col = length pts) by (unfold col, column, g_F; rewrite !map_length; reflexivity).
    rewrite (NM _ _ _ _ _ (dp, 0)) by (rewrite combine_length; lia).
    rewrite combine_nth by (symmetry; exact Lc). cbn [fst snd]. fold pt.
    replace (nth i col 0) with F; [rewrite (Rmult_comm (vol pt)); reflexivity|].
    rewrite <- HF. unfold col, column. symmetry. apply (NM _ _ (fun row => nth t row 0)).
    unfold g_F. rewrite map_length. exact I.
Qed.

(** C55: the internal energy reported by [Gibbs.calc_F] is F + T*S with S in units of kb, which is not
    the internal energy: it differs from [evib] by T*S*(1 - kb/eV). *)
Theorem C55_gibbs_evib :
  forall hplanck c0 kb eV integ ts pts i t, (i < length pts)%nat -> (t < length ts)%nat ->
  0 < hplanck -> 0 < c0 -> 0 < kb -> 0 < eV -> linear integ ->
  let pt := nth i pts (Point 0 0 (Harmonic [] [])) in let T := nth t ts 0 in
  positive_freqs (phdos pt) -> 0 < T ->
  nth t (nth i (g_Evib hplanck c0 kb eV integ ts pts) []) 0 =
  evib1 hplanck c0 kb eV integ (phdos pt) T + T * svib1 hplanck c0 kb integ (phdos pt) T * (1 - kb / eV).
Proof.
  intros hplanck c0 kb eV integ ts pts i t I L Hp Hc Hk He Lin pt T P HT.
  set (dp := Point 0 0 (Harmonic [] [])) in *.
  assert (NM : forall A B (f : A -> B) l k a b, (k < length l)%nat -> nth k (map f l) b = f (nth k l a)).
  { intros A B f l k a b K. rewrite (nth_indep _ b (f a)) by (rewrite map_length; exact K). apply map_nth. }
  unfold g_Evib. rewrite (NM _ _ _ _ _ dp) by exact I. rewrite (NM _ _ _ _ _ 0) by exact L. fold pt T.
  rewrite C55_energy by assumption. ring.
Qed.
Theorem C55_gibbs_evib_refuted :
  exists hplanck c0 kb eV ts pts,
  0 < hplanck /\ 0 < c0 /\ 0 < kb < eV /\ proper (phdos (nth 0 pts (Point 0 0 (Harmonic [] [])))) /\
  nth 0 (nth 0 (g_Evib hplanck c0 kb eV trapz ts pts) []) 0 <>
  evib1 hplanck c0 kb eV trapz (phdos (nth 0 pts (Point 0 0 (Harmonic [] [])))) (nth 0 ts 0).
Proof.
  exists 1, 1, 1, 2, [100], [Point 0 1 (Harmonic [1; 2] [1; 1])].
  split; [lra|]. split; [lra|]. split; [lra|]. cbn [nth phdos].
  assert (Pr : proper (Harmonic [1; 2] [1; 1])).
  { split; [split; [reflexivity|]; repeat constructor; lra|]. split; repeat constructor; lra. }
  split; [exact Pr|].
  rewrite (C55_gibbs_evib 1 1 1 2 trapz [100] [Point 0 1 (Harmonic [1; 2] [1; 1])] 0 0) by
    (cbn; lra || lia || exact trapz_linear || exact (proj1 Pr)).
  cbn [nth phdos].
  assert (S : 0 < svib1 1 1 1 trapz (Harmonic [1; 2] [1; 1]) 100).
  { unfold svib1. rewrite integrate_tz by exact (proj1 Pr). unfold pts. cbn [doses freqs combine].
    rewrite tz_cons, tz_one. cbn [fst snd].
    assert (Hh : 0 < h 1 1) by (unfold h; lra).
    rewrite !(s_point (h 1 1) 1) by lra.
    pose proof (entropy_pos _ (arg_pos (h 1 1) 1 Hh ltac:(lra) 2 100 ltac:(lra) ltac:(lra))).
    pose proof (entropy_pos _ (arg_pos (h 1 1) 1 Hh ltac:(lra) 1 100 ltac:(lra) ltac:(lra))). lra. }
  lra.
Qed.

(** the hypotheses are met: three frequencies *)
Example C55_case : proper (Harmonic [10; 20; 35] [0; 2; 1]) /\
  init trapz [-1; 0; 10; 20; 35] [5; 1; 0; 2; 1] true 0 None = Some (Harmonic [10; 20; 35] [0; 2; 1]).
Proof.
  split.
  - split; [split; [reflexivity|]; repeat constructor; lra|]. split; repeat constructor; lra.
  - unfold init. cbn [length Nat.eqb combine filter fst].
    destruct (Rlt_dec 0 (-1)); [lra|]. destruct (Rlt_dec 0 0); [lra|].
    destruct (Rlt_dec 0 10); [|lra]. destruct (Rlt_dec 0 20); [|lra]. destruct (Rlt_dec 0 35); [|lra]. reflexivity.
Qed.

Print Assumptions C55_energy.
Print Assumptions C55_trapz_linear.
Print Assumptions C55_entropy_derivative.
Print Assumptions C55_heat_capacity_derivative.
Print Assumptions C55_bounds.
Print Assumptions C55_dulong_petit.
Print Assumptions C55_init.
Print Assumptions C55_dosarea.
Print Assumptions C55_axis.
Print Assumptions C55_gibbs.
Print Assumptions C55_gibbs_evib.
Print Assumptions C55_gibbs_evib_refuted.
