(** C73: velocities, root mean square displacements and means of trajectories. *)
From Coq Require Import Reals List Arith ZArith String Bool Lra Lia.
From Verif Require Import Vec3 StructGetters Traj Signal TrajStat TrajStatSpec TrajStatProofs.
Import ListNotations.
Local Open Scope list_scope.
Local Open Scope R_scope.
Local Notation length := List.length.

(** Central differences; with endpoints=True the velocities at both ends are copies. *)
Theorem C73_velocity arr dt v : velocity_traj arr dt 0 true = Some v ->
  length v = length arr /\
  (forall t k x y, at_ arr t k = Some x -> at_ arr (t + 2) k = Some y -> at_ v (t + 1) k = Some ((y - x) / (2 * dt))) /\
  nth_error v 0 = nth_error v 1 /\ nth_error v (length arr - 1) = nth_error v (length arr - 2).
Proof.
  intros H. apply velocity_some in H. destruct H as (L & M & F & E). split; [exact L|]. split; [|split; assumption].
  intros t k x y Hx Hy. pose proof (central_at dt arr t k x y Hx Hy) as C. unfold at_ in *.
  assert (t + 2 < length arr)%nat by (apply nth_error_Some; destruct (nth_error arr (t + 2)); [discriminate|discriminate Hy]).
  rewrite M by lia. replace (t + 1 - 1)%nat with t by lia. exact C.
Qed.
Theorem C73_velocity_inner arr dt : exists v, velocity_traj arr dt 0 false = Some v /\ length v = (length arr - 2)%nat /\
  forall t k x y, at_ arr t k = Some x -> at_ arr (t + 2) k = Some y -> at_ v t k = Some ((y - x) / (2 * dt)).
Proof.
  exists (central dt arr). split; [reflexivity|]. split; [apply central_length|]. intros. now apply central_at.
Qed.
(** For motion with constant acceleration the velocities inside are exact. *)
Theorem C73_velocity_exact arr dt v k a b c : dt <> 0 -> velocity_traj arr dt 0 true = Some v ->
  (forall t, (t < length arr)%nat -> at_ arr t k = Some (a + b * (INR t * dt) + c * (INR t * dt) ^ 2)) ->
  forall t, (0 < t < length arr - 1)%nat -> at_ v t k = Some (b + 2 * c * (INR t * dt)).
Proof.
  intros Hdt H P t Ht. destruct (C73_velocity _ _ _ H) as (_ & M & _). destruct t as [|t]; [lia|].
  pose proof (M t k _ _ (P t ltac:(lia)) (P (t + 2)%nat ltac:(lia))) as Q. rewrite Nat.add_1_r in Q. rewrite Q. f_equal.
  replace (t + 2)%nat with (S (S t)) by lia. rewrite !S_INR. field. exact Hdt.
Qed.
Theorem C73_velocity_refused arr dt axis ep :
  velocity_traj arr dt axis ep = None <-> axis <> 0%Z \/ (ep = true /\ (length arr < 3)%nat).
Proof. exact (velocity_none arr dt axis ep). Qed.
(** For integer coordinates the default endpoints=True truncates the velocities. *)
Theorem C73_velocity_int_refuted : exists arr, velocity_traj_int arr 1 true = Some [[0]; [0]; [0]] /\ velocity_traj_int arr 1 false = Some [[1 / 2]].
Proof.
  exists [[0%Z]; [5%Z]; [1%Z]].
  assert (H : central 1 (map (map IZR) [[0%Z]; [5%Z]; [1%Z]]) = [[1 / 2]]).
  { unfold central. cbn. do 2 f_equal. field. }
  unfold velocity_traj_int, velocity_traj. cbn [Z.eqb negb]. rewrite H. split; [|reflexivity].
  cbn [option_map map app last]. assert (T : trunc (1 / 2) = 0%Z).
  { unfold trunc. destruct (Rle_dec 0 (1 / 2)) as [|N]; [|lra]. unfold Int_part. assert (E : up (1 / 2) = 1%Z); [|rewrite E; reflexivity].
    symmetry. apply tech_up; lra. }
  rewrite T. reflexivity.
Qed.

(** rmsd is the root mean square displacement from the reference frame; a reference outside
    of the trajectory is refused, a negative one counts from the end. *)
Lemma flat_sumsq a b : length a = length b -> sumsq (zip_with Rminus (flat a) (flat b)) = total (map (fun p => dot (vsub (fst p) (snd p)) (vsub (fst p) (snd p))) (combine a b)).
Proof.
  unfold sumsq, rsum, total. revert b. induction a as [|u a IH]; intros [|v b] L; cbn in *; try discriminate; [reflexivity|].
  injection L as L. change (flat_map (fun v => [vx v; vy v; vz v]) a) with (flat a). change (flat_map (fun v => [vx v; vy v; vz v]) b) with (flat b).
  rewrite (IH b L). unfold dot, vsub. cbn. ring.
Qed.
Theorem C73_rmsd frames natoms ref_idx : (0 < natoms)%nat -> (forall f, In f frames -> length f = natoms) ->
  rmsd (map flat frames) natoms ref_idx =
  match item_list ref_idx frames with
  | None => None
  | Some ref => Some (map (fun f => Some (rms_displacement f ref)) frames)
  end.
Proof.
  intros N H. rewrite rmsd_spec by exact N.
  assert (E : item_list ref_idx (map flat frames) = option_map flat (item_list ref_idx frames)).
  { unfold item_list. rewrite map_length. destruct (_ && _); [|reflexivity]. rewrite nth_error_map. reflexivity. }
  rewrite E. destruct (item_list ref_idx frames) as [ref|] eqn:Er; [|reflexivity]. cbn [option_map]. f_equal. rewrite map_map. apply map_ext_in. intros f Hf.
  assert (Hr : In ref frames) by (unfold item_list in Er; destruct (_ && _); [|discriminate]; eapply nth_error_In; eassumption).
  f_equal. unfold dist, rms_displacement. rewrite flat_sumsq by (rewrite (H f Hf), (H ref Hr); reflexivity). now rewrite (H f Hf).
Qed.
Theorem C73_rmsd_reference ref_idx (frames : list (list vec)) : (item_list ref_idx frames = None <-> (ref_idx < - Z.of_nat (length frames) \/ Z.of_nat (length frames) <= ref_idx)%Z) /\
  ((0 <= ref_idx < Z.of_nat (length frames))%Z -> item_list ref_idx frames = nth_error frames (Z.to_nat ref_idx)) /\
  ((- Z.of_nat (length frames) <= ref_idx < 0)%Z -> item_list ref_idx frames = nth_error frames (Z.to_nat (Z.of_nat (length frames) + ref_idx))).
Proof.
  unfold item_list. set (n := Z.of_nat (length frames)).
  assert (S : (- n <= ref_idx < n)%Z -> nth_error frames (Z.to_nat (if (ref_idx <? 0)%Z then ref_idx + n else ref_idx)%Z) <> None).
  { intros B. apply nth_error_Some. destruct (Z.ltb_spec ref_idx 0); lia. }
  destruct (Z.leb_spec (- n) ref_idx), (Z.ltb_spec ref_idx n); cbn [andb]; (split; [|split]);
    try (intros; exfalso; lia); try (split; [intros; lia|intros _; reflexivity]).
  - split; [intros E; exfalso; apply S; [lia|exact E]|intros; lia].
  - intros B. destruct (Z.ltb_spec ref_idx 0); [lia|reflexivity].
  - intros B. destruct (Z.ltb_spec ref_idx 0); [|lia]. f_equal. f_equal. lia.
Qed.
(** The displacement is a metric between the frames, and a rigid motion of the whole
    trajectory does not change it. *)
Lemma rmsdisp_dist a b : length a = length b -> rms_displacement a b = dist (length a) (flat a) (flat b).
Proof. intros L. unfold rms_displacement, dist. now rewrite flat_sumsq. Qed.
Lemma flat_length l : length (flat l) = (3 * length l)%nat.
Proof. induction l as [|v l IH]; [reflexivity|]. cbn [flat flat_map app length]. fold (flat l). lia. Qed.
Theorem C73_rmsd_metric a b c : (0 < length a)%nat -> length a = length b -> length b = length c ->
  rms_displacement a a = 0 /\ 0 <= rms_displacement a b /\ rms_displacement a b = rms_displacement b a /\
  rms_displacement a c <= rms_displacement a b + rms_displacement b c.
Proof.
  intros N L L'. rewrite !rmsdisp_dist by congruence. rewrite <- L. split; [apply dist_self|]. split; [apply dist_pos|]. split; [apply dist_sym|].
  apply dist_triangle; auto; rewrite !flat_length; lia.
Qed.
Theorem C73_rmsd_rigid f a b : rigid f -> length a = length b -> rms_displacement (map f a) (map f b) = rms_displacement a b.
Proof.
  intros (q & d & Q & F) L. unfold rms_displacement. rewrite map_length. f_equal. f_equal. f_equal.
  revert b L. induction a as [|u a IH]; intros [|v b] L; cbn in *; try discriminate; [reflexivity|]. injection L as L.
  f_equal; [|now apply IH]. rewrite !F. rewrite <- (Q (vsub u v)). unfold dot, vsub, vadd, vecmat, Vec3.scale. cbn. ring.
Qed.

(** mean: whatever the order in which python walks through its sets, attributes with a time
    axis are averaged element by element, all others are copied, time, timestep and nstep are
    left out. *)
Theorem C73_mean X averaged copied (self st : Traj.obj (list R) X R) : orders averaged copied -> mean X averaged copied self = Some st ->
  (forall a, In a ["coords"; "coords_frac"; "stress"; "forces"; "velocity"; "cell"; "cryst_const"; "pressure"; "volume"; "etot"; "ekin"; "temperature"]%string ->
     match self a with
     | None => st a = None
     | Some v => exists frames r, v = Arr frames /\ st a = Some (Row r) /\ frames <> [] /\ length r = length (hd [] frames) /\
         forall k, (k < length r)%nat -> nth k r 0 = total (map (fun f => nth k f 0) frames) / INR (length frames)
     end) /\
  (forall a, In a ["symbols"; "mass"; "mass_unique"; "natoms"; "nspecies"; "ntypat"; "order"; "symbols_unique"; "typat"; "znucl"; "znucl_unique"]%string -> st a = self a) /\
  st "time"%string = None /\ st "timestep"%string = None /\ st "nstep"%string = None.
Proof.
  intros O H. pose proof (mean_spec X averaged copied self st O H) as S. split; [|split; [|split; [|split]]].
  - intros a Ha. assert (E : averaged_set a = true) by (cbn in Ha; intuition (subst; reflexivity)). destruct (S a) as [S1 _]. specialize (S1 E).
    destruct (self a) as [v|]; [|exact S1]. destruct S1 as (x & r & -> & M & E'). exists x, r. split; [reflexivity|]. split; [exact E'|].
    apply mean_rows_spec. exact M.
  - intros a Ha. assert (E : copied_set a = true) by (cbn in Ha; intuition (subst; reflexivity)). destruct (S a) as (_ & S2 & _). exact (S2 E).
  - apply (proj2 (proj2 (S "time"%string))); reflexivity.
  - apply (proj2 (proj2 (S "timestep"%string))); reflexivity.
  - apply (proj2 (proj2 (S "nstep"%string))); reflexivity.
Qed.
Theorem C73_mean_defined X averaged copied (self : Traj.obj (list R) X R) : orders averaged copied ->
  (forall a, averaged_set a = true -> match self a with None => True | Some v => exists x, v = Arr x /\ x <> [] end) ->
  exists st, mean X averaged copied self = Some st.
Proof. exact (mean_defined X averaged copied self). Qed.
Definition averaged0 : list string := filter averaged_set attrs_nstep.
Definition copied0 : list string := filter copied_set (attr_lst true).
Lemma orders0 : orders averaged0 copied0.
Proof.
  split; intros a; unfold averaged0, copied0; rewrite filter_In; split; try tauto.
  - intros H. split; [|exact H]. unfold averaged_set in H. apply andb_true_iff in H. destruct H as [H _]. unfold Traj.mem in H.
    apply existsb_exists in H. destruct H as (x & Hx & E). apply String.eqb_eq in E. now subst.
  - intros H. split; [|exact H]. unfold copied_set in H. apply andb_true_iff in H. destruct H as [H _]. unfold Traj.mem in H.
    apply existsb_exists in H. destruct H as (x & Hx & E). apply String.eqb_eq in E. now subst.
Qed.

(** The mean over frames with the same cell is a structure whose Cartesian and fractional
    coordinates belong together. *)
Definition vcomp (v : vec) (c : nat) : R := match c with 0%nat => vx v | 1%nat => vy v | _ => vz v end.
Lemma flat_nth l i c : (c < 3)%nat -> nth (3 * i + c) (flat l) 0 = vcomp (nth i l (Vec 0 0 0)) c.
Proof.
  intros Hc. revert i. induction l as [|v l IH]; intros i.
  - cbn [flat flat_map]. destruct i, c as [|[|[|]]]; cbn; try reflexivity; lia.
  - destruct i as [|i].
    + cbn [flat flat_map app]. destruct c as [|[|[|]]]; try reflexivity; lia.
    + replace (3 * S i + c)%nat with (3 + (3 * i + c))%nat by lia. cbn [flat flat_map app nth Nat.add]. apply IH.
Qed.
Lemma flat_ext l r : length r = (3 * length l)%nat -> (forall i c, (i < length l)%nat -> (c < 3)%nat -> nth (3 * i + c) r 0 = vcomp (nth i l (Vec 0 0 0)) c) -> r = flat l.
Proof.
  intros L H. apply (nth_ext _ _ 0 0); [rewrite flat_length; exact L|]. intros n Hn.
  pose proof (Nat.div_mod n 3 ltac:(lia)) as D. pose proof (Nat.mod_upper_bound n 3 ltac:(lia)) as B.
  rewrite D, flat_nth by exact B. apply H; [|exact B]. apply Nat.div_lt_upper_bound; lia.
Qed.
Definition vavg (frames : list (list vec)) (i : nat) : vec :=
  let avg f := total (map (fun l => f (nth i l (Vec 0 0 0))) frames) / INR (length frames) in Vec (avg vx) (avg vy) (avg vz).
Lemma mean_flat (frames : list (list vec)) n r : (forall f, In f frames -> length f = n) -> mean_rows (map flat frames) = Some r ->
  r = flat (map (vavg frames) (seq 0 n)).
Proof.
  intros H M. destruct (mean_rows_spec _ _ M) as (N & L & K). destruct frames as [|f0 frames]; [discriminate|].
  assert (Lr : length r = (3 * n)%nat) by (rewrite L; cbn [map hd]; rewrite flat_length, H by (now left); reflexivity).
  apply flat_ext; [rewrite map_length, seq_length; exact Lr|]. rewrite map_length, seq_length. intros i c Hi Hc.
  rewrite K by (rewrite Lr; lia). rewrite (nth_indep _ (Vec 0 0 0) (vavg (f0 :: frames) 0)) by (rewrite map_length, seq_length; exact Hi).
  rewrite map_nth, seq_nth by exact Hi. cbn [Nat.add]. rewrite map_map, !map_length.
  rewrite (map_ext _ (fun l => vcomp (nth i l (Vec 0 0 0)) c)) by (intros; now apply flat_nth).
  unfold vavg. destruct c as [|[|[|]]]; try lia; reflexivity.
Qed.
Lemma total_lin (frames : list (list vec)) f g h a b c i : total (map (fun l => f (nth i l (Vec 0 0 0)) * a + g (nth i l (Vec 0 0 0)) * b + h (nth i l (Vec 0 0 0)) * c) frames)
  = total (map (fun l => f (nth i l (Vec 0 0 0))) frames) * a + total (map (fun l => g (nth i l (Vec 0 0 0))) frames) * b + total (map (fun l => h (nth i l (Vec 0 0 0))) frames) * c.
Proof. unfold total. induction frames as [|l frames IH]; cbn; [ring|]. rewrite IH. ring. Qed.
Theorem C73_mean_consistent X averaged copied (self st : Traj.obj (list R) X R) fracs h n : orders averaged copied -> mean X averaged copied self = Some st ->
  fracs <> [] -> (forall s, In s fracs -> length s = n) ->
  self "coords_frac"%string = Some (Arr (map flat fracs)) -> self "coords"%string = Some (Arr (map (fun s => flat (to_cart h s)) fracs)) ->
  self "cell"%string = Some (Arr (map (fun _ => flat_cell h) fracs)) ->
  exists s, length s = n /\ st "coords_frac"%string = Some (Row (flat s)) /\ st "coords"%string = Some (Row (flat (to_cart h s))) /\
    st "cell"%string = Some (Row (flat_cell h)).
Proof.
  intros O H NE L F C Hc. pose proof (mean_spec X averaged copied self st O H) as S.
  destruct (S "coords_frac"%string) as [S1 _]. specialize (S1 eq_refl). rewrite F in S1. destruct S1 as (x1 & r1 & E1 & M1 & R1). injection E1 as <-.
  destruct (S "coords"%string) as [S2 _]. specialize (S2 eq_refl). rewrite C in S2. destruct S2 as (x2 & r2 & E2 & M2 & R2). injection E2 as <-.
  destruct (S "cell"%string) as [S3 _]. specialize (S3 eq_refl). rewrite Hc in S3. destruct S3 as (x3 & r3 & E3 & M3 & R3). injection E3 as <-.
  assert (LN : INR (length fracs) <> 0) by (apply not_0_INR; destruct fracs; [congruence|discriminate]).
  exists (map (vavg fracs) (seq 0 n)). split; [now rewrite map_length, seq_length|]. rewrite R1, R2, R3.
  rewrite (mean_flat _ n _ L M1). split; [reflexivity|].
  change (map (fun s => flat (to_cart h s)) fracs) with (map (fun s => flat ((fun s => to_cart h s) s)) fracs) in M2. rewrite <- map_map in M2.
  rewrite (mean_flat (map (fun s => to_cart h s) fracs) n r2) in * by (auto; intros f Hf; apply in_map_iff in Hf; destruct Hf as (s & <- & Hs); unfold to_cart; rewrite map_length; auto).
  split.
  - f_equal. f_equal. f_equal. unfold to_cart at 2. rewrite map_map. apply map_ext_in. intros i Hi. apply in_seq in Hi.
    assert (EN : forall s, In s fracs -> nth i (to_cart h s) (Vec 0 0 0) = vecmat (nth i s (Vec 0 0 0)) h).
    { intros s Hs. unfold to_cart. rewrite (nth_indep _ (Vec 0 0 0) ((fun x => vecmat x h) (Vec 0 0 0))) by (rewrite map_length, (L s Hs); lia). apply (map_nth (fun x => vecmat x h)). }
    unfold vavg. rewrite !map_map, map_length.
    rewrite (map_ext_in _ (fun s => vx (vecmat (nth i s (Vec 0 0 0)) h))) by (intros s Hs; now rewrite EN).
    rewrite (map_ext_in (fun s => vy (nth i (to_cart h s) (Vec 0 0 0))) (fun s => vy (vecmat (nth i s (Vec 0 0 0)) h))) by (intros s Hs; now rewrite EN).
    rewrite (map_ext_in (fun s => vz (nth i (to_cart h s) (Vec 0 0 0))) (fun s => vz (vecmat (nth i s (Vec 0 0 0)) h))) by (intros s Hs; now rewrite EN).
    unfold vecmat, vadd, Vec3.scale. cbn [vx vy vz].
    rewrite (total_lin fracs vx vy vz (vx (ra h)) (vx (rb h)) (vx (rc h)) i), (total_lin fracs vx vy vz (vy (ra h)) (vy (rb h)) (vy (rc h)) i), (total_lin fracs vx vy vz (vz (ra h)) (vz (rb h)) (vz (rc h)) i).
    f_equal; field; exact LN.
  - f_equal. f_equal. change (map (fun _ : list vec => flat_cell h) fracs) with (map (fun s => flat ((fun _ : list vec => [ra h; rb h; rc h]) s)) fracs) in M3. rewrite <- map_map in M3.
    rewrite (mean_flat (map (fun _ => [ra h; rb h; rc h]) fracs) 3 r3) by (auto; intros f Hf; apply in_map_iff in Hf; destruct Hf as (s & <- & Hs); reflexivity).
    unfold flat_cell. f_equal. cbn [seq map]. unfold vavg. rewrite !map_map, map_length.
    assert (CT : forall z : R, total (map (fun _ : list vec => z) fracs) / INR (length fracs) = z).
    { intros z. assert (G : total (map (fun _ : list vec => z) fracs) = INR (length fracs) * z); [|rewrite G; field; exact LN].
      clear. unfold total. induction fracs as [|a l IH]; cbn [map fold_right length]; [cbn; ring|]. rewrite IH, S_INR. ring. }
    cbn [nth]. rewrite !CT. destruct h as [[] [] []]; reflexivity.
Qed.
(** With a changing cell neither the coordinates nor the volume of the mean fit its cell. *)
Theorem C73_mean_variable_cell_refuted : exists (self st : Traj.obj (list R) unit R) s c h v,
  let fracs := [[Vec 0 0 0]; [Vec 1 0 0]] in let cells := [Mat (Vec 1 0 0) (Vec 0 1 0) (Vec 0 0 1); Mat (Vec 3 0 0) (Vec 0 3 0) (Vec 0 0 3)] in
  self "coords_frac"%string = Some (Arr (map flat fracs)) /\ self "cell"%string = Some (Arr (map flat_cell cells)) /\
  self "coords"%string = Some (Arr (map (fun p => flat (to_cart (fst p) (snd p))) (combine cells fracs))) /\
  self "volume"%string = Some (Arr (map (fun h => [volume h]) cells)) /\
  mean unit averaged0 copied0 self = Some st /\
  st "coords_frac"%string = Some (Row (flat s)) /\ st "coords"%string = Some (Row (flat c)) /\ st "cell"%string = Some (Row (flat_cell h)) /\
  st "volume"%string = Some (Row [v]) /\ c <> to_cart h s /\ v <> volume h.
Proof.
  set (fracs := [[Vec 0 0 0]; [Vec 1 0 0]]). set (cells := [Mat (Vec 1 0 0) (Vec 0 1 0) (Vec 0 0 1); Mat (Vec 3 0 0) (Vec 0 3 0) (Vec 0 0 3)]).
  set (self := (fun a => if (a =? "coords_frac")%string then Some (Arr (map flat fracs)) else if (a =? "cell")%string then Some (Arr (map flat_cell cells))
    else if (a =? "coords")%string then Some (Arr (map (fun p => flat (to_cart (fst p) (snd p))) (combine cells fracs)))
    else if (a =? "volume")%string then Some (Arr (map (fun h => [volume h]) cells)) else None) : Traj.obj (list R) unit R).
  destruct (C73_mean_defined unit averaged0 copied0 self orders0) as (st & E).
  { intros a Ha. unfold self. destruct (a =? "coords_frac")%string; [eexists; split; [reflexivity|discriminate]|].
    destruct (a =? "cell")%string; [eexists; split; [reflexivity|discriminate]|]. destruct (a =? "coords")%string; [eexists; split; [reflexivity|discriminate]|].
    destruct (a =? "volume")%string; [eexists; split; [reflexivity|discriminate]|exact I]. }
  pose proof (mean_spec unit averaged0 copied0 self st orders0 E) as S.
  destruct (S "coords_frac"%string) as [S1 _]. specialize (S1 eq_refl). change (self "coords_frac"%string) with (Some (Arr (X:=unit) (T:=R) (map flat fracs))) in S1.
  destruct S1 as (x1 & r1 & E1 & M1 & R1). injection E1 as <-.
  destruct (S "coords"%string) as [S2 _]. specialize (S2 eq_refl). change (self "coords"%string) with (Some (Arr (X:=unit) (T:=R) (map (fun p => flat (to_cart (fst p) (snd p))) (combine cells fracs)))) in S2.
  destruct S2 as (x2 & r2 & E2 & M2 & R2). injection E2 as <-.
  destruct (S "cell"%string) as [S3 _]. specialize (S3 eq_refl). change (self "cell"%string) with (Some (Arr (X:=unit) (T:=R) (map flat_cell cells))) in S3.
  destruct S3 as (x3 & r3 & E3 & M3 & R3). injection E3 as <-.
  destruct (S "volume"%string) as [S4 _]. specialize (S4 eq_refl). change (self "volume"%string) with (Some (Arr (X:=unit) (T:=R) (map (fun h => [volume h]) cells))) in S4.
  destruct S4 as (x4 & r4 & E4 & M4 & R4). injection E4 as <-.
  exists self, st, [Vec (1/2) 0 0], [Vec (3/2) 0 0], (Mat (Vec 2 0 0) (Vec 0 2 0) (Vec 0 0 2)), 14.
  split; [reflexivity|]. split; [reflexivity|]. split; [reflexivity|]. split; [reflexivity|]. split; [exact E|].
  assert (V1 : volume (Mat (Vec 1 0 0) (Vec 0 1 0) (Vec 0 0 1)) = 1) by (unfold volume, det, dot, cross; cbn; rewrite Rabs_right; lra).
  assert (V3 : volume (Mat (Vec 3 0 0) (Vec 0 3 0) (Vec 0 0 3)) = 27) by (unfold volume, det, dot, cross; cbn; rewrite Rabs_right; lra).
  assert (V2 : volume (Mat (Vec 2 0 0) (Vec 0 2 0) (Vec 0 0 2)) = 8) by (unfold volume, det, dot, cross; cbn; rewrite Rabs_right; lra).
  rewrite R1, R2, R3, R4. clear S R1 R2 R3 R4 E.
  split; [|split; [|split; [|split; [|split]]]].
  - f_equal. f_equal. injection M1 as <-. cbn. repeat (f_equal; [field|]). f_equal. field.
  - f_equal. f_equal. injection M2 as <-. cbn. repeat (f_equal; [field|]). f_equal. field.
  - f_equal. f_equal. injection M3 as <-. cbn. repeat (f_equal; [field|]). f_equal. field.
  - f_equal. f_equal. unfold cells in M4. cbn [map] in M4. rewrite V1, V3 in M4. injection M4 as <-. cbn. f_equal. field.
  - unfold to_cart, vecmat, vadd, Vec3.scale. cbn. intros H. injection H as H. lra.
  - rewrite V2. lra.
Qed.

(** An accelerated particle and its velocities; the rmsd from the last frame. *)
Example C73_case : velocity_traj [[0]; [1]; [4]; [9]] 1 0 true = Some [[2]; [2]; [4]; [4]] /\
  rmsd (map flat [[Vec 3 0 0]; [Vec 0 4 0]; [Vec 0 0 0]]) 1 (-1) = Some [Some 3; Some 4; Some 0].
Proof.
  split.
  - unfold velocity_traj, central. cbn. apply (f_equal Some). repeat (apply (f_equal2 cons); [|]); try reflexivity; field.
  - rewrite C73_rmsd by (try lia; intros f Hf; cbn in Hf; intuition (subst; reflexivity)). unfold rms_displacement, total, dot, vsub. cbn.
    apply (f_equal Some). repeat (apply (f_equal2 cons); [apply (f_equal Some)|]); try reflexivity;
      match goal with |- sqrt ?e = ?x => replace e with (x * x) by (cbn; field); apply sqrt_square; lra end.
Qed.

Print Assumptions C73_velocity.
Print Assumptions C73_velocity_inner.
Print Assumptions C73_velocity_exact.
Print Assumptions C73_velocity_refused.
Print Assumptions C73_velocity_int_refuted.
Print Assumptions C73_rmsd.
Print Assumptions C73_rmsd_reference.
Print Assumptions C73_rmsd_metric.
Print Assumptions C73_rmsd_rigid.
Print Assumptions C73_mean.
Print Assumptions C73_mean_defined.
Print Assumptions C73_mean_consistent.
Print Assumptions C73_mean_variable_cell_refuted.
