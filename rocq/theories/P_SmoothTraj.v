(** C76: smoothing of trajectories. *)
From Coq Require Import Reals List Arith ZArith String Bool Lra Lia.
From Verif Require Import Vec3 StructGetters Traj Signal SignalProofs VacfSpec Smooth SmoothSpec SmoothProofs TrajStat TrajStatSpec SmoothTraj SmoothTrajProofs.
Import ListNotations.
Local Open Scope list_scope.
Local Open Scope R_scope.
Local Notation length := List.length.

(** At least one frame, and frames of one positive size. *)
Definition rectangular (l : list (list R)) : Prop := l <> [] /\ exists n, (0 < n)%nat /\ forall f, In f l -> length f = n.
Definition time_attrs : list string := ["coords"; "coords_frac"; "stress"; "forces"; "velocity"; "cell"; "cryst_const"; "pressure"; "volume"; "etot"; "ekin"; "temperature"; "time"]%string.
Definition other_attrs : list string :=
  ["symbols"; "mass"; "mass_unique"; "natoms"; "nspecies"; "ntypat"; "order"; "symbols_unique"; "typat"; "znucl"; "znucl_unique"; "nstep"; "timestep"]%string.
(** [copied] is an order in which python walks through its set. *)
Definition set_order (copied : list string) : Prop := forall a, In a copied <-> not_nstep a = true.
Lemma time_attrs_nodup : NoDup attrs_nstep.
Proof. unfold attrs_nstep. cbn. repeat (constructor; [cbn; intuition discriminate|]). constructor. Qed.
Lemma smooth_traj_spec X copied (self out : Traj.obj (list R) X R) kern meth : set_order copied -> smooth_traj X copied self kern meth = Some out -> forall a,
  (In a attrs_nstep -> match self a with None => out a = None | Some v => exists l l', v = Arr l /\ smoothed meth l kern = Some l' /\ out a = Some (Arr l') end) /\
  (not_nstep a = true -> out a = self a).
Proof.
  intros O H a. unfold smooth_traj in H. destruct (fold_left _ attrs_nstep _) as [o|] eqn:E; [|discriminate]. injection H as <-.
  destruct (loop_spec X kern meth self attrs_nstep _ _ time_attrs_nodup E a) as [_ L]. destruct (copy_spec X self copied o a) as [C1 C2]. split.
  - intros I. assert (N : ~ In a copied).
    { intros J. apply O in J. unfold not_nstep in J. apply andb_true_iff in J. destruct J as [_ J]. apply negb_true_iff in J. unfold Traj.mem in J.
      assert (existsb (String.eqb a) attrs_nstep = true) by (apply existsb_exists; exists a; split; [exact I|apply String.eqb_refl]). congruence. }
    rewrite (C2 N). specialize (L I). destruct (self a); [exact L|]. rewrite L. reflexivity.
  - intros J. apply C1. now apply O.
Qed.

(** Every number that depends on time becomes its mean over a window of time steps, weighted
    with the normalised kernel and mirrored at both ends; all else is copied. *)
Theorem C76_values X copied (self out : Traj.obj (list R) X R) kern meth : set_order copied -> kern <> [] ->
  (forall a l, In a time_attrs -> self a = Some (Arr l) -> rectangular l) -> smooth_traj X copied self kern meth = Some out ->
  (forall a, In a time_attrs -> match self a with
     | None => out a = None
     | Some v => exists l l', v = Arr l /\ out a = Some (Arr l') /\ length l' = length l /\
         forall i, (i < length l)%nat -> length (nth i l' []) = length (nth i l []) /\ forall c, (c < length (nth i l []))%nat ->
           nth c (nth i l' []) 0 = window_sum "m" (map (fun f => nth c f 0) l) (weight kern true) (length kern) i
     end) /\
  (forall a, In a other_attrs -> out a = self a).
Proof.
  intros O K RE H. pose proof (smooth_traj_spec _ _ _ _ _ _ O H) as S. assert (HK : (0 < length kern)%nat) by (destruct kern; [congruence|cbn; lia]). split.
  - intros a Ha. assert (Ia : In a attrs_nstep) by exact Ha. destruct (S a) as [S1 _]. specialize (S1 Ia). destruct (self a) as [v|] eqn:Ea; [|exact S1].
    destruct S1 as (l & l' & -> & E & R'). destruct (RE a l Ha Ea) as (NE & n & Hn & HF).
    assert (B : smooth_broadcast l kern = Some l').
    { unfold smoothed in E. destruct (meth =? 1)%Z; [rewrite <- (methods_agree l kern n) by auto; exact E|]. destruct (meth =? 2)%Z; [exact E|discriminate]. }
    pose proof (smooth2_col l kern "m" true n NE Hn HF) as Q. unfold smooth_broadcast in B. rewrite B in Q. destruct Q as (L & F & C).
    exists l, l'. split; [reflexivity|]. split; [exact R'|]. split; [exact L|]. intros i Hi.
    assert (Lf : length (nth i l []) = n) by (apply HF, nth_In, Hi). rewrite Lf. split; [apply F, nth_In; rewrite L; exact Hi|]. intros c Hc.
    rewrite <- column_nth. specialize (C c Hc). assert (HN : (0 < length (column c l))%nat) by (rewrite column_length; destruct l; [congruence|cbn; lia]).
    destruct (smooth_some _ _ _ _ _ HN HK C) as [He Hs]. rewrite smooth_spec in C by auto. injection C as C. rewrite <- C, column_length.
    apply (nth_map_seq _ (window_sum "m" (column c l) (weight kern true) (length kern))). exact Hi.
  - intros a Ha. apply S. cbn in Ha. intuition (subst; reflexivity).
Qed.
(** Both methods give the same trajectory. *)
Theorem C76_methods X copied (self : Traj.obj (list R) X R) kern :
  (forall a l, In a time_attrs -> self a = Some (Arr l) -> rectangular l) -> smooth_traj X copied self kern 1 = smooth_traj X copied self kern 2.
Proof.
  intros RE. unfold smooth_traj. f_equal.
  assert (G : forall names o, (forall a, In a names -> In a time_attrs) -> fold_left (smooth_step X kern 1 self) names o = fold_left (smooth_step X kern 2 self) names o).
  { induction names as [|b names IH]; intros o HN; [reflexivity|]. cbn [fold_left].
    assert (E : smooth_step X kern 1 self o b = smooth_step X kern 2 self o b).
    { unfold smooth_step. destruct o as [o|]; [|reflexivity]. destruct (self b) as [v|] eqn:Eb; [|reflexivity]. destruct v as [l| | | |]; try reflexivity.
      destruct (RE b l (HN b (or_introl eq_refl)) Eb) as (NE & n & Hn & HF). cbn [Z.eqb Pos.eqb]. now rewrite (methods_agree l kern n). }
    rewrite E. apply IH. intros a Ha. apply HN. now right. }
  apply G. auto.
Qed.
(** It succeeds with method 1 or 2 and a kernel that does not sum to zero; an unknown method is
    noticed only if there is something to smooth. *)
Theorem C76_defined X copied (self : Traj.obj (list R) X R) kern meth : kern <> [] -> set_order copied ->
  (forall a v, In a time_attrs -> self a = Some v -> exists l, v = Arr l /\ rectangular l) ->
  ((exists out, smooth_traj X copied self kern meth = Some out) <->
   (forall a, In a time_attrs -> self a = None) \/ ((meth = 1 \/ meth = 2)%Z /\ VacfSpec.total (length kern) (fun k => nth k kern 0) <> 0)).
Proof.
  intros K O RE. assert (HK : (0 < length kern)%nat) by (destruct kern; [congruence|cbn; lia]). rewrite total_rsum.
  assert (D : forall l, rectangular l -> (exists l', smoothed meth l kern = Some l') <-> ((meth = 1 \/ meth = 2)%Z /\ rsum kern <> 0)).
  { intros l (NE & n & Hn & HF). assert (EQ : smoothed meth l kern = if ((meth =? 1) || (meth =? 2))%Z then smooth_broadcast l kern else None).
    { unfold smoothed. destruct (meth =? 1)%Z; [apply (methods_agree l kern n); auto|]. reflexivity. }
    rewrite EQ. pose proof (smooth2_col l kern "m" true n NE Hn HF) as Q. unfold smooth_broadcast.
    assert (HN : (0 < length (column 0 l))%nat) by (rewrite column_length; destruct l; [congruence|cbn; lia]).
    destruct (Z.eqb_spec meth 1) as [->|N1]; [|destruct (Z.eqb_spec meth 2) as [->|N2]]; cbn [orb];
      try (destruct (smooth2 l _ "m" true) as [l'|]; [|specialize (Q 0%nat Hn)];
        [destruct Q as (_ & _ & C); specialize (C 0%nat Hn); destruct (smooth_some _ _ _ _ _ HN HK C) as [_ Hs]; split; [intros _; split; [auto|now apply Hs]|intros _; eexists; reflexivity]
        |split; [intros (? & A); discriminate|intros [_ A]; rewrite smooth_spec in Q by auto; discriminate]]).
    split; [intros (? & A); discriminate|intros [[A|A] _]; contradiction]. }
  split.
  - intros (out & H). destruct (existsb (fun a => match self a with None => false | Some _ => true end) time_attrs) eqn:E.
    + right. apply existsb_exists in E. destruct E as (a & Ha & E). destruct (smooth_traj_spec _ _ _ _ _ _ O H a) as [S _]. specialize (S Ha).
      destruct (self a) as [v|] eqn:Ea; [|discriminate]. destruct S as (l & l' & -> & S & _). destruct (RE a _ Ha Ea) as (l2 & E2 & Rl). injection E2 as <-. apply (D l Rl). now exists l'.
    + left. intros a Ha. destruct (self a) eqn:Ea; [|reflexivity]. exfalso. assert (X' : existsb (fun a => match self a with None => false | Some _ => true end) time_attrs = true); [|congruence].
      apply existsb_exists. exists a. split; [exact Ha|]. now rewrite Ea.
  - intros H. unfold smooth_traj. destruct (loop_some X kern meth self attrs_nstep Traj.none) as (r & E).
    + intros a Ha. destruct (self a) as [v|] eqn:Ea; [|exact I]. destruct H as [H|H]; [rewrite (H a Ha) in Ea; discriminate|].
      destruct (RE a v Ha Ea) as (l & -> & Rl). apply (D l Rl) in H. destruct H as (l' & H). now exists l, l'.
    + rewrite E. eexists. reflexivity.
Qed.
(** As long as the cell is the same in all frames, Cartesian and fractional coordinates of the
    smoothed frames belong together and the cell is kept. *)
Lemma flat_nth l i c : (c < 3)%nat -> nth (3 * i + c) (flat l) 0 = match c with 0%nat => vx | 1%nat => vy | _ => vz end (nth i l (Vec 0 0 0)).
Proof.
  intros Hc. revert i. induction l as [|v l IH]; intros i.
  - cbn [flat flat_map]. destruct i, c as [|[|[|]]]; cbn; try reflexivity; lia.
  - destruct i as [|i].
    + cbn [flat flat_map app]. destruct c as [|[|[|]]]; try reflexivity; lia.
    + replace (3 * S i + c)%nat with (3 + (3 * i + c))%nat by lia. cbn [flat flat_map app nth Nat.add]. apply IH.
Qed.
Lemma flat_length l : length (flat l) = (3 * length l)%nat.
Proof. induction l as [|v l IH]; [reflexivity|]. cbn [flat flat_map app length]. fold (flat l). lia. Qed.
Lemma unflatten r n : length r = (3 * n)%nat -> exists l, r = flat l /\ length l = n.
Proof.
  revert r. induction n as [|n IH]; intros r L; [exists []; destruct r; [split; reflexivity|discriminate]|].
  destruct r as [|x [|y [|z r]]]; cbn in L; try lia. destruct (IH r) as (l & -> & E); [lia|]. exists (Vec x y z :: l). split; [reflexivity|cbn; now rewrite E].
Qed.
Lemma to_cart_nth h s i : nth i (to_cart h s) (Vec 0 0 0) = vecmat (nth i s (Vec 0 0 0)) h.
Proof.
  unfold to_cart. destruct (Nat.lt_ge_cases i (length s)) as [L|L].
  - rewrite (nth_indep _ (Vec 0 0 0) ((fun x => vecmat x h) (Vec 0 0 0))) by (rewrite map_length; exact L). apply (map_nth (fun x => vecmat x h)).
  - rewrite !nth_overflow by (rewrite ?map_length; exact L). unfold vecmat, vadd, Vec3.scale. cbn. f_equal; ring.
Qed.
Theorem C76_consistent X copied (self out : Traj.obj (list R) X R) kern meth fracs h n : set_order copied -> kern <> [] -> (0 < n)%nat -> fracs <> [] ->
  (length kern <= 2 * length fracs - 1)%nat -> (forall s, In s fracs -> length s = n) ->
  (forall a l, In a time_attrs -> self a = Some (Arr l) -> rectangular l) -> smooth_traj X copied self kern meth = Some out ->
  self "coords_frac"%string = Some (Arr (map flat fracs)) -> self "coords"%string = Some (Arr (map (fun s => flat (to_cart h s)) fracs)) ->
  self "cell"%string = Some (Arr (map (fun _ => flat_cell h) fracs)) ->
  exists fracs', length fracs' = length fracs /\ out "coords_frac"%string = Some (Arr (map flat fracs')) /\
    out "coords"%string = Some (Arr (map (fun s => flat (to_cart h s)) fracs')) /\ out "cell"%string = Some (Arr (map (fun _ => flat_cell h) fracs')).
Proof.
  intros O K Hn NE LK LS RE H F C Hc. destruct (C76_values _ _ _ _ _ _ O K RE H) as [V _].
  pose proof (V "coords_frac"%string ltac:(cbn; tauto)) as V1. rewrite F in V1. destruct V1 as (l1 & f' & E1 & O1 & L1 & V1). injection E1 as <-.
  pose proof (V "coords"%string ltac:(cbn; tauto)) as V2. rewrite C in V2. destruct V2 as (l2 & c' & E2 & O2 & L2 & V2). injection E2 as <-.
  pose proof (smooth_traj_spec _ _ _ _ _ _ O H "cell"%string) as [V3 _]. specialize (V3 ltac:(cbn; tauto)). rewrite Hc in V3. destruct V3 as (l3 & h' & E3 & S3 & O3). injection E3 as <-.
  rewrite map_length in *. assert (HK : (0 < length kern)%nat) by (destruct kern; [congruence|cbn; lia]).
  assert (N1 : forall i, (i < length fracs)%nat -> nth i (map flat fracs) [] = flat (nth i fracs [])) by (intros i Hi; rewrite <- (map_nth flat); reflexivity).
  assert (N2 : forall i, (i < length fracs)%nat -> nth i (map (fun s => flat (to_cart h s)) fracs) [] = flat (to_cart h (nth i fracs []))) by (intros i Hi; rewrite <- (map_nth (fun s => flat (to_cart h s))); reflexivity).
  assert (U : exists fracs', f' = map flat fracs' /\ forall s, In s fracs' -> length s = n).
  { assert (A : forall f, In f f' -> length f = (3 * n)%nat).
    { intros f Hf. destruct (In_nth _ _ [] Hf) as (i & Hi & <-). rewrite L1 in Hi. destruct (V1 i Hi) as [W _]. rewrite W, N1 by exact Hi. rewrite flat_length, LS; [reflexivity|]. apply nth_In, Hi. }
    clear -A. induction f' as [|f f' IH]; [exists []; split; [reflexivity|intros s []]|]. destruct (IH (fun g Hg => A g (or_intror Hg))) as (t & -> & Ht).
    destruct (unflatten f n (A f (or_introl eq_refl))) as (l & -> & El). exists (l :: t). split; [reflexivity|]. intros s [<-|Hs]; auto. }
  destruct U as (fracs' & -> & LS'). rewrite map_length in L1. exists fracs'. split; [exact L1|]. split; [exact O1|]. split.
  - rewrite O2. f_equal. f_equal. apply (nth_ext _ _ [] []); [rewrite map_length; congruence|]. rewrite L2. intros i Hi.
    assert (M1 : nth i (map (fun s => flat (to_cart h s)) fracs') [] = flat (to_cart h (nth i fracs' []))) by (rewrite <- (map_nth (fun s => flat (to_cart h s)) fracs' [] i); reflexivity). rewrite M1. clear M1.
    destruct (V2 i Hi) as [W2 W2']. destruct (V1 i Hi) as [W1 W1']. rewrite N2 in W2, W2' by exact Hi. rewrite N1 in W1, W1' by exact Hi.
    assert (Ln : length (nth i fracs []) = n) by (apply LS, nth_In, Hi). assert (Ln' : length (nth i fracs' []) = n) by (apply LS', nth_In; lia).
    rewrite flat_length in W1, W1', W2, W2'. unfold to_cart in W2, W2'. rewrite map_length in W2, W2'. rewrite Ln in W1, W1', W2, W2'.
    apply (nth_ext _ _ 0 0); [rewrite W2, flat_length; unfold to_cart; rewrite map_length, Ln'; reflexivity|]. rewrite W2. intros k Hk.
    pose proof (Nat.div_mod k 3 ltac:(lia)) as DM. pose proof (Nat.mod_upper_bound k 3 ltac:(lia)) as B. set (a := (k / 3)%nat) in *. set (c := (k mod 3)%nat) in *.
    assert (Ha : (a < n)%nat) by lia. rewrite W2' by exact Hk. rewrite DM at 1. rewrite flat_nth by exact B. rewrite to_cart_nth.
    set (col := fun d : nat => map (fun f => nth (3 * a + d) f 0) (map flat fracs)).
    set (pc := fun r : vec => match c with 0%nat => vx | 1%nat => vy | _ => vz end r).
    rewrite (window_linear _ (col 0%nat) (col 1%nat) (col 2%nat) (pc (ra h)) (pc (rb h)) (pc (rc h))).
    + unfold col. rewrite <- !W1' by lia. assert (FI : nth i (map flat fracs') [] = flat (nth i fracs' [])) by (rewrite <- (map_nth flat); reflexivity). rewrite FI, !flat_nth by lia.
      unfold pc, vecmat, vadd, Vec3.scale. destruct c as [|[|]]; cbn [vx vy vz]; ring.
    + unfold col. now rewrite !map_length.
    + unfold col. now rewrite !map_length.
    + unfold col. now rewrite !map_length.
    + intros j. unfold col. rewrite !map_map.
      destruct (Nat.lt_ge_cases j (length fracs)) as [Lj|Lj].
      * assert (M : forall g : list vec -> R, nth j (map g fracs) 0 = g (nth j fracs [])) by (intros g; rewrite (nth_indep _ 0 (g [])) by (rewrite map_length; exact Lj); apply map_nth).
        rewrite (M (fun s => nth k (flat (map (fun v => vecmat v h) s)) 0)), !(M (fun s => nth _ (flat s) 0)). rewrite DM. change (map (fun v => vecmat v h)) with (to_cart h).
        rewrite !flat_nth by lia. rewrite to_cart_nth. unfold pc, vecmat, vadd, Vec3.scale. destruct c as [|[|]]; cbn [vx vy vz]; ring.
      * rewrite !nth_overflow by (rewrite map_length; exact Lj). ring.
  - rewrite O3. f_equal. f_equal. destruct (RE "cell"%string _ ltac:(cbn; tauto) Hc) as (NE3 & n3 & Hn3 & HF3).
    assert (B : smooth_broadcast (map (fun _ => flat_cell h) fracs) kern = Some h').
    { unfold smoothed in S3. destruct (meth =? 1)%Z; [rewrite <- (methods_agree _ kern n3) by auto; exact S3|]. destruct (meth =? 2)%Z; [exact S3|discriminate]. }
    pose proof (smooth2_col _ kern "m" true n3 NE3 Hn3 HF3) as Q. unfold smooth_broadcast in B. rewrite B in Q. destruct Q as (L3 & F3 & C3). rewrite map_length in L3.
    assert (N9 : n3 = 9%nat) by (destruct fracs as [|s fracs]; [congruence|]; rewrite <- (HF3 (flat_cell h)) by (now left); reflexivity).
    apply (nth_ext _ _ [] (flat_cell h)); [rewrite map_length; congruence|]. rewrite L3. intros i Hi.
    rewrite (map_nth (fun _ => flat_cell h) fracs' [] i). assert (Lf : length (nth i h' []) = 9%nat) by (rewrite <- N9; apply F3, nth_In; lia).
    apply (nth_ext _ _ 0 0); [rewrite Lf; reflexivity|]. rewrite Lf. intros k Hk. rewrite <- column_nth.
    assert (E : column k h' = column k (map (fun _ => flat_cell h) fracs)).
    { eapply (smooth_constant _ kern "m" _ (nth k (flat_cell h) 0)); [| |apply C3; lia| |]; rewrite ?column_length, ?map_length; auto.
      - destruct fracs; [congruence|cbn; lia].
      - intros x Hx. unfold column in Hx. rewrite map_map in Hx. apply in_map_iff in Hx. destruct Hx as (? & <- & _). reflexivity. }
    rewrite E, column_nth. rewrite (nth_indep _ [] (flat_cell h)) by (rewrite map_length; exact Hi). rewrite (map_nth (fun _ : list vec => flat_cell h) fracs [] i). reflexivity.
Qed.
(** The time axis is smoothed as well and no longer fits timestep. *)
Definition copied1 : list string := filter not_nstep (attr_lst true).
Lemma copied1_order : set_order copied1.
Proof.
  intros a. unfold copied1. rewrite filter_In. split; [tauto|]. intros H. split; [|exact H]. unfold not_nstep in H. apply andb_true_iff in H. destruct H as [H _].
  apply existsb_exists in H. destruct H as (x & Hx & E). apply String.eqb_eq in E. now subst.
Qed.
Theorem C76_time_refuted : exists (self out : Traj.obj (list R) unit R), self "time"%string = Some (Arr [[0]; [1]; [2]]) /\ self "timestep"%string = Some (Num 1) /\
  smooth_traj unit copied1 self [1; 1; 1] 1 = Some out /\ out "timestep"%string = Some (Num 1) /\ out "time"%string = Some (Arr [[2 / 3]; [1]; [4 / 3]]).
Proof.
  set (self := (fun a => if (a =? "time")%string then Some (Arr [[0]; [1]; [2]]) else if (a =? "timestep")%string then Some (Num 1) else None) : Traj.obj (list R) unit R).
  assert (RT : rectangular [[0]; [1]; [2]]) by (split; [discriminate|]; exists 1%nat; split; [lia|]; cbn; intuition (subst; reflexivity)).
  assert (D : forall a v, In a time_attrs -> self a = Some v -> exists l, v = Arr l /\ rectangular l).
  { intros a v Ha E. unfold self in E. destruct (a =? "time")%string; [injection E as <-; eauto|]. destruct (String.eqb_spec a "timestep"); [|discriminate].
    subst a. exfalso. cbn in Ha. intuition discriminate. }
  destruct (proj2 (C76_defined unit copied1 self [1; 1; 1] 1 ltac:(discriminate) copied1_order D)) as (out & E).
  { right. split; [now left|]. cbn. lra. }
  assert (RE : forall a l, In a time_attrs -> self a = Some (Arr l) -> rectangular l) by (intros a l Ha El; destruct (D a _ Ha El) as (l2 & E2 & R2); now injection E2 as <-).
  exists self, out. split; [reflexivity|]. split; [reflexivity|]. split; [exact E|].
  destruct (C76_values unit copied1 self out [1; 1; 1] 1 copied1_order ltac:(discriminate) RE E) as [V W]. split; [apply (W "timestep"%string); cbn; tauto|].
  specialize (V "time"%string ltac:(cbn; tauto)). change (self "time"%string) with (Some (Arr (X:=unit) (T:=R) [[0]; [1]; [2]])) in V. destruct V as (l & l' & El & -> & L & V). injection El as <-.
  f_equal. f_equal. destruct l' as [|a [|b [|c [|]]]]; try discriminate L.
  pose proof (V 0%nat ltac:(cbn; lia)) as [A1 A2]. pose proof (V 1%nat ltac:(cbn; lia)) as [B1 B2]. pose proof (V 2%nat ltac:(cbn; lia)) as [D1 D2].
  destruct a as [|x [|]]; try discriminate A1. destruct b as [|y [|]]; try discriminate B1. destruct c as [|z [|]]; try discriminate D1.
  specialize (A2 0%nat ltac:(cbn; lia)). specialize (B2 0%nat ltac:(cbn; lia)). specialize (D2 0%nat ltac:(cbn; lia)).
  unfold window_sum, weight, continued, mirrored, item in A2, B2, D2. cbn in A2, B2, D2. change (Pos.to_nat 1) with 1%nat in A2, B2, D2. change (Pos.to_nat 2) with 2%nat in A2, B2, D2. cbv iota in A2, B2, D2. subst x y z. repeat (apply (f_equal2 cons); [apply (f_equal2 cons); [field|reflexivity]|]). reflexivity.
Qed.
(** Integer arrays of two or three dimensions lose their fractions with method 1. *)
Theorem C76_int_refuted : smooth_columns_int [[0%Z]; [1%Z]; [0%Z]] [1; 1; 1] = Some [[0%Z]; [0%Z]; [0%Z]] /\
  smooth_broadcast (map (map IZR) [[0%Z]; [1%Z]; [0%Z]]) [1; 1; 1] = Some [[2 / 3]; [1 / 3]; [2 / 3]].
Proof.
  assert (S : smooth [0; 1; 0] [1; 1; 1] "m" true = Some [2 / 3; 1 / 3; 2 / 3]).
  { rewrite smooth_spec; try (cbn; lia); [|now left|intros _; unfold rsum; cbn; lra]. f_equal. cbn [List.length seq map]. unfold window_sum, weight, continued, mirrored, item. cbn. change (Pos.to_nat 1) with 1%nat. change (Pos.to_nat 2) with 2%nat. cbv iota.
    repeat (apply (f_equal2 cons); [field|]). reflexivity. }
  assert (C : smooth_columns (map (map IZR) [[0%Z]; [1%Z]; [0%Z]]) [1; 1; 1] = Some [[2 / 3]; [1 / 3]; [2 / 3]]).
  { unfold smooth_columns. cbn [map ncol hd List.length seq column nth]. unfold column. cbn [map nth]. rewrite S. reflexivity. }
  split.
  - unfold smooth_columns_int. rewrite C. cbn [option_map map].
    assert (T : forall x, 0 <= x < 1 -> trunc x = 0%Z).
    { intros x Hx. unfold trunc. destruct (Rle_dec 0 x) as [|N]; [|lra]. unfold Int_part. assert (E : up x = 1%Z); [|rewrite E; reflexivity]. symmetry. apply tech_up; lra. }
    rewrite !T by lra. reflexivity.
  - rewrite <- C. symmetry. apply (methods_agree _ _ 1); [discriminate|lia|]. cbn. intuition (subst; reflexivity).
Qed.

(** One atom in cubic cells. *)
Definition cubic (a : R) : mat := Mat (Vec a 0 0) (Vec 0 a 0) (Vec 0 0 a).
Definition traj3 (fracs : list (list vec)) (cells : list mat) : Traj.obj (list R) unit R := fun a =>
  if (a =? "coords_frac")%string then Some (Arr (map flat fracs))
  else if (a =? "coords")%string then Some (Arr (map (fun sh => flat (to_cart (snd sh) (fst sh))) (combine fracs cells)))
  else if (a =? "cell")%string then Some (Arr (map flat_cell cells)) else None.
Lemma traj3_rect (s1 s2 s3 : vec) (h1 h2 h3 : mat) a l : traj3 [[s1]; [s2]; [s3]] [h1; h2; h3] a = Some (Arr l) -> rectangular l.
Proof.
  unfold traj3. destruct (a =? "coords_frac")%string; [|destruct (a =? "coords")%string; [|destruct (a =? "cell")%string; [|discriminate]]];
    intros E; injection E as <-; (split; [discriminate|]); [exists 3%nat|exists 3%nat|exists 9%nat]; (split; [lia|]); cbn; intuition (subst; reflexivity).
Qed.
Lemma traj3_smooth s1 s2 s3 h1 h2 h3 : exists out, smooth_traj unit copied1 (traj3 [[s1]; [s2]; [s3]] [h1; h2; h3]) [1; 1; 1] 2 = Some out.
Proof.
  apply (C76_defined unit copied1 _ [1; 1; 1] 2 ltac:(discriminate) copied1_order).
  - intros a v _ E. assert (G : exists l, v = Arr l).
    { revert E. unfold traj3. destruct (a =? "coords_frac")%string; [|destruct (a =? "coords")%string; [|destruct (a =? "cell")%string; [|discriminate]]]; intros E; injection E as <-; eauto. }
    destruct G as (l & ->). exists l. split; [reflexivity|]. exact (traj3_rect _ _ _ _ _ _ _ _ E).
  - right. split; [now right|]. cbn. lra.
Qed.
(** With a cell that changes, the smoothed coordinates are not those of the smoothed cell: the
    atom at 1/3 of a cell of size 5/3 is given as 2/3. *)
Theorem C76_variable_cell_refuted : exists out c f h,
  smooth_traj unit copied1 (traj3 [[Vec 0 0 0]; [Vec (1 / 2) 0 0]; [Vec 0 0 0]] [cubic 1; cubic 2; cubic 1]) [1; 1; 1] 2 = Some out /\
  out "coords"%string = Some (Arr c) /\ out "coords_frac"%string = Some (Arr f) /\ out "cell"%string = Some (Arr h) /\
  nth 0 (nth 0 c []) 0 = 2 / 3 /\ nth 0 (nth 0 f []) 0 = 1 / 3 /\ nth 0 (nth 0 h []) 0 = 5 / 3 /\ nth 3 (nth 0 h []) 0 = 0 /\ nth 6 (nth 0 h []) 0 = 0.
Proof.
  destruct (traj3_smooth (Vec 0 0 0) (Vec (1 / 2) 0 0) (Vec 0 0 0) (cubic 1) (cubic 2) (cubic 1)) as (out & E).
  destruct (C76_values unit copied1 _ _ [1; 1; 1] 2 copied1_order ltac:(discriminate) (fun a l _ H => traj3_rect _ _ _ _ _ _ a l H) E) as [V _].
  pose proof (V "coords"%string ltac:(cbn; tauto)) as V1. pose proof (V "coords_frac"%string ltac:(cbn; tauto)) as V2. pose proof (V "cell"%string ltac:(cbn; tauto)) as V3.
  unfold traj3 in V1, V2, V3. cbn [String.eqb Ascii.eqb Bool.eqb] in V1, V2, V3.
  destruct V1 as (l1 & c & E1 & O1 & _ & V1). destruct V2 as (l2 & f & E2 & O2 & _ & V2). destruct V3 as (l3 & h & E3 & O3 & _ & V3). injection E1 as <-. injection E2 as <-. injection E3 as <-.
  exists out, c, f, h. split; [exact E|]. split; [exact O1|]. split; [exact O2|]. split; [exact O3|].
  destruct (V1 0%nat ltac:(cbn; lia)) as [_ W1]. destruct (V2 0%nat ltac:(cbn; lia)) as [_ W2]. destruct (V3 0%nat ltac:(cbn; lia)) as [_ W3].
  rewrite (W1 0%nat), (W2 0%nat), (W3 0%nat), (W3 3%nat), (W3 6%nat) by (cbn; lia).
  unfold window_sum, weight, continued, mirrored, item. cbn. change (Pos.to_nat 1) with 1%nat. change (Pos.to_nat 2) with 2%nat. cbv iota. repeat split; field.
Qed.
(** With a constant cell they are. *)
Example C76_case : exists out fracs', smooth_traj unit copied1 (traj3 [[Vec 0 0 0]; [Vec (1 / 2) 0 0]; [Vec 0 0 0]] [cubic 2; cubic 2; cubic 2]) [1; 1; 1] 2 = Some out /\
  length fracs' = 3%nat /\ out "coords_frac"%string = Some (Arr (map flat fracs')) /\ out "coords"%string = Some (Arr (map (fun s => flat (to_cart (cubic 2) s)) fracs')).
Proof.
  destruct (traj3_smooth (Vec 0 0 0) (Vec (1 / 2) 0 0) (Vec 0 0 0) (cubic 2) (cubic 2) (cubic 2)) as (out & E).
  destruct (C76_consistent unit copied1 _ _ [1; 1; 1] 2 [[Vec 0 0 0]; [Vec (1 / 2) 0 0]; [Vec 0 0 0]] (cubic 2) 1 copied1_order ltac:(discriminate) ltac:(lia) ltac:(discriminate) ltac:(cbn; lia)
    ltac:(cbn; intuition (subst; reflexivity)) (fun a l _ H => traj3_rect _ _ _ _ _ _ a l H) E eq_refl eq_refl eq_refl) as (fracs' & L & A & B & _).
  exists out, fracs'. auto.
Qed.

Print Assumptions C76_values.
Print Assumptions C76_methods.
Print Assumptions C76_defined.
Print Assumptions C76_consistent.
Print Assumptions C76_time_refuted.
Print Assumptions C76_int_refuted.
Print Assumptions C76_variable_cell_refuted.
