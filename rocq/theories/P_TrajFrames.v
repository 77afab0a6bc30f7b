(** C106 Frames of a trajectory are structures. *)
From Coq Require Import List Reals Arith Bool Lia Lra.
From Verif Require Import Vec3 Cells TrajFrames TrajFramesSpec.
Import ListNotations.
Local Notation length := List.length.
Local Open Scope R_scope.

Lemma nth_error_repeat' {A} (x : A) n i : (i < n)%nat -> nth_error (repeat x n) i = Some x.
Proof. revert i. induction n as [|n IH]; intros [|i] H; cbn; try lia; [reflexivity|]. apply IH. lia. Qed.
Lemma extend_ok {A} (a : tarr A) n : fits a n ->
  exists l, extend (Some n) a = Some l /\ length l = n /\ (forall i, (i < n)%nat -> nth_error l i = item a i) /\ extend (Some n) (Series l) = Some l.
Proof.
  assert (E : forall l : list A, length l = n -> extend (Some n) (Series l) = Some l).
  { intros [|x [|y l]] L; [reflexivity| |reflexivity]. cbn in L. subst n. reflexivity. }
  destruct a as [x|l]; cbn [fits]; intros F.
  - exists (repeat x n). cbn [extend option_map]. split; [reflexivity|]. split; [apply repeat_length|]. split; [intros; now apply nth_error_repeat'|]. apply E, repeat_length.
  - destruct l as [|x [|y l]].
    + destruct F as [F|F]; [discriminate|]. exists []. cbn. split; [reflexivity|]. split; [exact F|]. split; [intros i Hi; cbn in F; lia|reflexivity].
    + exists (repeat x n). cbn [extend option_map]. split; [reflexivity|]. split; [apply repeat_length|]. split; [intros; now apply nth_error_repeat'|]. apply E, repeat_length.
    + destruct F as [F|F]; [discriminate|]. exists (x :: y :: l). split; [reflexivity|]. split; [exact F|]. split; [reflexivity|]. now apply E.
Qed.
Lemma map2o_nth {A B C} (f : A -> B -> option C) l m r i x y : map2o f l m = Some r -> nth_error l i = Some x -> nth_error m i = Some y ->
  exists z, f x y = Some z /\ nth_error r i = Some z.
Proof.
  revert m r i. induction l as [|a l IH]; intros [|b m] r [|i] E X Y; try discriminate; cbn in *.
  - injection X as ->. injection Y as ->. destruct (f x y) as [z|]; [|discriminate]. destruct (map2o f l m); [|discriminate]. injection E as <-. eauto.
  - destruct (f a b); [|discriminate]. destruct (map2o f l m) as [r'|] eqn:E'; [|discriminate]. injection E as <-. cbn. eauto.
Qed.
Lemma nstep_of g n : all_steps g n -> get_nstep g = Some n.
Proof.
  intros (_ & _ & C & F & _ & [N|N]); unfold get_nstep.
  - destruct (t_coords g) as [x|]; [|congruence]. cbn. f_equal. auto.
  - destruct (t_coords g) as [x|]; cbn; [f_equal; auto|]. destruct (t_frac g) as [x|]; [|congruence]. cbn. f_equal. auto.
Qed.
(** the cells and constants of all frames *)
Lemma by_other_ok {A B} (f : B -> A) (a : option (tarr A)) (b : option (tarr B)) n :
  (forall x, a = Some x -> fits x n) -> (forall x, b = Some x -> fits x n) ->
  exists o, get_by_other (Some n) f (option_map (extend_given (Some n)) a) (option_map (extend_given (Some n)) b) = Some (option_map Series o) /\
    (forall l, o = Some l -> length l = n) /\
    forall i, (i < n)%nat -> bind o (fun l => nth_error l i) = or_else (bind a (fun x => item x i)) (option_map f (bind b (fun x => item x i))).
Proof.
  intros FA FB. destruct a as [a|]; cbn [option_map].
  - destruct (extend_ok a n (FA a eq_refl)) as (l & E & L & N & _). exists (Some l). unfold extend_given. rewrite E. cbn [get_by_other option_map].
    split; [reflexivity|]. split; [intros ? [= <-]; exact L|]. intros i Hi. cbn [bind]. rewrite <- (N i Hi).
    destruct (nth_error l i) eqn:X; [reflexivity|]. apply nth_error_None in X. lia.
  - destruct b as [b|]; cbn [option_map get_by_other].
    + destruct (extend_ok b n (FB b eq_refl)) as (l & E & L & N & E2). exists (Some (map f l)). unfold extend_given. rewrite E, E2. cbn [option_map].
      split; [reflexivity|]. split; [intros ? [= <-]; now rewrite map_length|]. intros i Hi. cbn [bind or_else]. rewrite <- (N i Hi). apply nth_error_map.
    + exists None. split; [reflexivity|]. split; [discriminate|reflexivity].
Qed.
Lemma trans_ok f a other (cell : option (list mat)) natoms r n i : (i < n)%nat ->
  (forall x, a = Some x -> length (frames x) = n) -> (forall x, other = Some x -> length (frames x) = n) -> (forall l, cell = Some l -> length l = n) ->
  (other <> None -> natoms <> None) ->
  get_trans f a other (option_map Series cell) natoms = Some r ->
  match bind a (fun x => nth_error (frames x) i) with Some x => Some (Some x) | None =>
    match bind other (fun x => nth_error (frames x) i), bind cell (fun l => nth_error l i) with Some x, Some c => option_map Some (f x c) | _, _ => Some None end end
  = Some (bind r (fun x => nth_error (frames x) i)).
Proof.
  intros Hi LA LO LC NN E. unfold get_trans in E. destruct a as [a|].
  - injection E as <-. cbn [bind]. destruct (nth_error (frames a) i) eqn:X; [reflexivity|]. apply nth_error_None in X. rewrite (LA a eq_refl) in X. lia.
  - cbn [bind]. destruct other as [o|]; [|injection E as <-; reflexivity]. cbn [bind].
    destruct (nth_error (frames o) i) as [x|] eqn:X; [|apply nth_error_None in X; rewrite (LO o eq_refl) in X; lia].
    destruct cell as [l|]; cbn [option_map] in E; [|injection E as <-; reflexivity]. cbn [bind].
    destruct (nth_error l i) as [c|] eqn:Y; [|apply nth_error_None in Y; rewrite (LC l eq_refl) in Y; lia].
    destruct natoms as [m|]; [|exfalso; now apply NN]. destruct (shape_ok o m (Series l)); [|discriminate]. unfold trans_traj in E.
    destruct (map2o f (frames o) l) as [fr|] eqn:M; [|discriminate]. cbn in E. injection E as <-. cbn [bind frames].
    destruct (map2o_nth _ _ _ _ _ _ _ M X Y) as (z & Z & R). rewrite Z, R. reflexivity.
Qed.
Lemma natoms_of g : (t_coords g <> None \/ t_frac g <> None) -> get_natoms g <> None.
Proof.
  intros H. unfold get_natoms. destruct (t_nsym g), (t_coords g), (t_frac g); cbn; try discriminate. destruct H; congruence.
Qed.

(** Taking a frame and computing the attributes can be exchanged: the frame i of the attributes
    of a trajectory (cell, constants, positions, volume, pressure) are the attributes of the
    structure made from what was given for this frame *)
Theorem C106_frames g t n i : all_steps g n -> (i < n)%nat -> make_traj g = Some t ->
  make_struct (frame_given g i) = Some (frame_of t i).
Proof.
  intros W Hi E. unfold make_traj in E. rewrite (nstep_of g n W) in E. pose proof W as (W1 & W2 & W3 & W4 & W5 & W6).
  destruct (by_other_ok cc2cell (t_cell g) (t_cc g) n W1 W2) as (cells & EC & LC & NC). rewrite EC in E.
  destruct (by_other_ok cell2cc (t_cc g) (t_cell g) n W2 W1) as (ccs & EK & LK & NK). rewrite EK in E.
  destruct (get_trans (fun x c => Some (frac2cart x c)) _ _ _ _) as [coords|] eqn:T1; [|discriminate].
  destruct (get_trans cart2frac _ _ _ _) as [frac|] eqn:T2; [|discriminate].
  apply (trans_ok _ _ _ _ _ _ n i Hi W3 W4 LC (fun _ => natoms_of g W6)) in T1.
  apply (trans_ok _ _ _ _ _ _ n i Hi W4 W3 LC (fun _ => natoms_of g W6)) in T2.
  assert (V : exists vol, match option_map Series cells with Some c => option_map Some (loop3d volume_cell c) | None => Some None end = Some vol /\
     bind vol (fun l => nth_error l i) = option_map volume_cell (bind cells (fun l => nth_error l i))).
  { destruct cells as [l|]; cbn; eexists; (split; [reflexivity|]); cbn; [apply nth_error_map|reflexivity]. }
  destruct V as (vol & EV & NV). rewrite EV in E.
  assert (SC : forall A (o : option (list A)), series (option_map Series o) = Some o) by (intros A [o|]; reflexivity). rewrite !SC in E. injection E as <-.
  unfold make_struct, frame_given, frame_of.
  cbn [s_cell s_cc s_coords s_frac s_stress u_cell u_cc u_coords u_frac u_volume u_pressure].
  rewrite <- !(NC i Hi), <- !(NK i Hi), T2, NV. f_equal. f_equal.
  - destruct (bind (t_coords g) (fun x => nth_error (frames x) i)); cbn [or_else]; [now injection T1 as ->|].
    destruct (bind (t_frac g) (fun x => nth_error (frames x) i)), (bind cells (fun l => nth_error l i)); cbn in T1; injection T1 as ->; reflexivity.
  - destruct (t_stress g); cbn; [symmetry; apply nth_error_map|reflexivity].
Qed.
(** all attributes have n frames *)
Theorem C106_lengths g t n : all_steps g n -> make_traj g = Some t ->
  u_nstep t = Some n /\ (forall l, u_cell t = Some l -> length l = n) /\ (forall l, u_cc t = Some l -> length l = n) /\
  (forall l, u_volume t = Some l -> length l = n) /\ (forall l, u_pressure t = Some l -> length l = n) /\ (forall l, u_time t = Some l -> length l = n).
Proof.
  intros W E. unfold make_traj in E. rewrite (nstep_of g n W) in E. pose proof W as (W1 & W2 & W3 & W4 & W5 & W6).
  destruct (by_other_ok cc2cell (t_cell g) (t_cc g) n W1 W2) as (cells & EC & LC & NC). rewrite EC in E.
  destruct (by_other_ok cell2cc (t_cc g) (t_cell g) n W2 W1) as (ccs & EK & LK & NK). rewrite EK in E.
  destruct (get_trans (fun x c => Some (frac2cart x c)) _ _ _ _) as [coords|]; [|discriminate].
  destruct (get_trans cart2frac _ _ _ _) as [frac|]; [|discriminate].
  destruct (match option_map Series cells with Some c => option_map Some (loop3d volume_cell c) | None => Some None end) as [vol|] eqn:V; [|discriminate].
  assert (SC : forall A (o : option (list A)), series (option_map Series o) = Some o) by (intros A [o|]; reflexivity). rewrite !SC in E. injection E as <-.
  cbn [u_nstep u_cell u_cc u_volume u_pressure u_time]. split; [reflexivity|]. split; [exact LC|]. split; [exact LK|]. split; [|split].
  - intros l ->. destruct cells as [m|]; cbn in V; [|discriminate]. injection V as <-. rewrite map_length. auto.
  - intros l H. destruct (t_stress g) as [s|]; cbn in H; [|discriminate]. injection H as <-. rewrite map_length. auto.
  - intros l H. destruct (t_timestep g); cbn in H; [|discriminate]. injection H as <-. unfold linspace. now rewrite map_length, seq_length.
Qed.
(** step i is at the time i * timestep *)
Theorem C106_time g t n dt i : all_steps g n -> make_traj g = Some t -> t_timestep g = Some dt -> (i < n)%nat ->
  exists l, u_time t = Some l /\ nth_error l i = Some (INR i * dt).
Proof.
  intros W E D Hi. assert (X : u_time t = get_time (t_timestep g) (Some n)).
  { unfold make_traj in E. rewrite (nstep_of g n W) in E.
    repeat match type of E with context[match ?x with Some _ => _ | None => _ end] => destruct x; try discriminate end; injection E as <-; reflexivity. }
  rewrite X, D. cbn [get_time]. eexists. split; [reflexivity|]. unfold linspace. rewrite nth_error_map.
  rewrite (nth_error_nth' (seq 0 n) 0%nat) by (rewrite seq_length; lia). rewrite seq_nth by lia. cbn [option_map Nat.add]. f_equal.
  destruct n as [|n]; [lia|]. replace (S n - 1)%nat with n by lia. rewrite S_INR. destruct n as [|n].
  - assert (i = 0)%nat by lia. subst i. cbn. ring.
  - field. apply not_0_INR. lia.
Qed.
(** one cell (with or without a time axis of length 1) is the cell of every step *)
Theorem C106_one_cell g t n m : all_steps g n -> make_traj g = Some t -> t_cell g = Some (Single m) \/ t_cell g = Some (Series [m]) ->
  u_cell t = Some (repeat m n) /\ u_volume t = Some (repeat (Rabs (det m)) n).
Proof.
  intros W E C. unfold make_traj in E. rewrite (nstep_of g n W) in E.
  assert (X : option_map (extend_given (Some n)) (t_cell g) = Some (Series (repeat m n))) by (destruct C as [-> | ->]; reflexivity).
  rewrite X in E. cbn [get_by_other] in E.
  destruct (option_map (extend_given (Some n)) (t_cc g)) as [k|]; cbn [get_by_other] in E.
  - destruct (get_trans (fun x c => Some (frac2cart x c)) _ _ _ _); [|discriminate]. destruct (get_trans cart2frac _ _ _ _); [|discriminate]. cbn [loop3d option_map series] in E.
    destruct k; [discriminate|]. injection E as <-. cbn [u_cell u_volume]. split; [reflexivity|]. f_equal.
    clear. induction n as [|n IH]; [reflexivity|]. cbn. now rewrite IH.
  - destruct (extend (Some n) (Series (repeat m n))) as [l|]; [|discriminate].
    destruct (get_trans (fun x c => Some (frac2cart x c)) _ _ _ _); [|discriminate]. destruct (get_trans cart2frac _ _ _ _); [|discriminate]. cbn [loop3d option_map series] in E.
    injection E as <-. cbn [u_cell u_volume]. split; [reflexivity|]. f_equal.
    clear. induction n as [|n IH]; [reflexivity|]. cbn. now rewrite IH.
Qed.
(** when the data fits together and the cells are regular, the trajectory can be made *)
Theorem C106_succeeds g n : all_steps g n -> (forall x, t_coords g = Some x -> get_natoms g = Some (natoms3 x)) ->
  (forall x, t_frac g = Some x -> get_natoms g = Some (natoms3 x)) ->
  (forall i c, (i < n)%nat -> or_else (s_cell (frame_given g i)) (option_map cc2cell (s_cc (frame_given g i))) = Some c -> det c <> 0) ->
  exists t, make_traj g = Some t.
Proof.
  intros W NX NF R. unfold make_traj. rewrite (nstep_of g n W). pose proof W as (W1 & W2 & W3 & W4 & W5 & W6).
  destruct (by_other_ok cc2cell (t_cell g) (t_cc g) n W1 W2) as (cells & EC & LC & NC). rewrite EC.
  destruct (by_other_ok cell2cc (t_cc g) (t_cell g) n W2 W1) as (ccs & EK & LK & NK). rewrite EK.
  assert (REG : forall l c, cells = Some l -> In c l -> det c <> 0).
  { intros l c -> I. apply In_nth_error in I as [i I]. assert (Hi : (i < n)%nat) by (rewrite <- (LC l eq_refl); apply nth_error_Some; congruence).
    apply (R i); [exact Hi|]. cbn [frame_given s_cell s_cc]. rewrite <- (NC i Hi). exact I. }
  assert (TR : forall f a other, (forall l c x, cells = Some l -> In c l -> exists y, f x c = Some y) ->
    (forall x, other = Some x -> get_natoms g = Some (natoms3 x) /\ length (frames x) = n) ->
    exists r, get_trans f a other (option_map Series cells) (get_natoms g) = Some r).
  { intros f a other HF HO. unfold get_trans. destruct a; [eauto|]. destruct other as [o|]; [|eauto]. destruct (HO o eq_refl) as [N L].
    destruct cells as [l|]; cbn [option_map]; [|eauto]. rewrite N. unfold shape_ok. rewrite Nat.eqb_refl, (LC l eq_refl), L, Nat.eqb_refl. cbn [andb trans_traj].
    assert (M : forall fr m, (forall c, In c m -> In c l) -> exists r, map2o f fr m = Some r).
    { induction fr as [|x fr IH]; intros [|c m] S; cbn; eauto. destruct (HF l c x eq_refl (S c (or_introl eq_refl))) as [y ->].
      destruct (IH m) as [r ->]; [intros; apply S; right; assumption|]. eauto. }
    destruct (M (frames o) l (fun _ H => H)) as [r ->]. cbn. eauto. }
  destruct (TR (fun x c => Some (frac2cart x c)) (t_coords g) (t_frac g)) as [r1 ->]; [eauto|intros x Hx; auto|].
  destruct (TR cart2frac (t_frac g) (t_coords g)) as [r2 ->]; [|intros x Hx; auto|].
  { intros l c x Hl Hc. unfold cart2frac. destruct (Req_EM_T (det c) 0); [exfalso; eapply REG; eauto|eauto]. }
  assert (SC : forall A (o : option (list A)), series (option_map Series o) = Some o) by (intros A [o|]; reflexivity). rewrite !SC.
  destruct cells; cbn; eauto.
Qed.
(** number of cells other than 1 and the number of steps: refused if positions must be converted... *)
Theorem C106_mismatch g n cells : get_nstep g = Some n -> t_cell g = Some (Series cells) -> length cells <> 1%nat -> length cells <> n ->
  (t_coords g = None \/ t_frac g = None) -> make_traj g = None.
Proof.
  intros N C L1 Ln H. unfold make_traj. rewrite N, C. cbn [option_map].
  assert (E : extend_given (Some n) (Series cells) = Series cells) by (destruct cells as [|x [|y l]]; cbn in *; congruence). rewrite E.
  assert (E1 : extend (Some n) (Series cells) = Some cells) by (destruct cells as [|x [|y l]]; cbn in *; congruence).
  destruct (get_by_other (Some n) cell2cc _ (Some (Series cells))) as [ccs|]; [|reflexivity]. cbn [get_by_other].
  assert (NA : get_natoms g <> None). { apply natoms_of. unfold get_nstep in N. destruct (t_coords g); [left; discriminate|]. destruct (t_frac g); [right; discriminate|discriminate]. }
  destruct (get_natoms g) as [m|]; [|congruence]. unfold get_nstep in N.
  destruct (t_coords g) as [x|] eqn:X, (t_frac g) as [f|] eqn:F; cbn in N; try discriminate N; injection N as <-.
  - destruct H; discriminate.
  - cbn [get_trans]. unfold shape_ok. apply Nat.eqb_neq in Ln. rewrite Ln, andb_false_r. reflexivity.
  - cbn [get_trans]. unfold shape_ok. apply Nat.eqb_neq in Ln. rewrite Ln, andb_false_r. reflexivity.
Qed.
(** ...but accepted if both kinds of positions are given: two volumes for three steps *)
Definition cube106 (a : R) : mat := Mat (Vec a 0 0) (Vec 0 a 0) (Vec 0 0 a).
Definition still106 : arr3 := Arr3 1 [[Vec 0 0 0]; [Vec 0 0 0]; [Vec 0 0 0]].
Theorem C106_mismatch_refuted : exists g t, t_cell g = Some (Series [cube106 1; cube106 2]) /\ make_traj g = Some t /\
  u_nstep t = Some 3%nat /\ u_volume t = Some [1; 8].
Proof.
  exists (TGiven (Some (Series [cube106 1; cube106 2])) None (Some still106) (Some still106) None None None). eexists.
  split; [reflexivity|]. split; [reflexivity|]. split; [reflexivity|]. cbn. unfold volume_cell, cube106, det, dot, cross; cbn. f_equal.
  f_equal; [|f_equal]; [replace (_ + _ + _) with 1 by ring|replace (_ + _ + _) with 8 by ring]; apply Rabs_right; lra.
Qed.
(** a cell without time axis and without positions is refused *)
Theorem C106_no_positions g m : t_cell g = Some (Single m) -> t_coords g = None -> t_frac g = None -> make_traj g = None.
Proof.
  intros C X F. unfold make_traj, get_nstep. rewrite C, X, F. cbn. destruct (t_cc g) as [k|]; cbn; reflexivity.
Qed.

(** pressure: a third of the trace, the same in every rotated frame of reference *)
Definition transpose106 (m : mat) : mat := Mat (Vec (vx (ra m)) (vx (rb m)) (vx (rc m))) (Vec (vy (ra m)) (vy (rb m)) (vy (rc m))) (Vec (vz (ra m)) (vz (rb m)) (vz (rc m))).
Definition matmat106 (m k : mat) : mat := Mat (vecmat (ra m) k) (vecmat (rb m) k) (vecmat (rc m) k).
Theorem C106_pressure_rotated rot s : matmat106 (transpose106 rot) rot = Mat (Vec 1 0 0) (Vec 0 1 0) (Vec 0 0 1) ->
  third_trace (matmat106 (matmat106 rot s) (transpose106 rot)) = third_trace s.
Proof.
  destruct rot as [[a b c] [d e f] [g h k]], s as [[p q r] [u v w] [x y z]].
  unfold matmat106, transpose106, third_trace, vecmat, vadd, Vec3.scale; cbn. intros H. injection H as H1 H2 H3 H4 H5 H6 H7 H8 H9.
  f_equal. transitivity (p * (a*a + d*d + g*g) + q * (a*b+d*e+g*h) + r * (a*c+d*f+g*k) + u * (b*a+e*d+h*g) + v * (b*b+e*e+h*h) + w * (b*c+e*f+h*k)
    + x * (c*a+f*d+k*g) + y * (c*b+f*e+k*h) + z * (c*c+f*f+k*k)); [ring|]. rewrite H1, H2, H3, H4, H5, H6, H7, H8, H9. ring.
Qed.
Theorem C106_pressure_hydrostatic p : third_trace (cube106 p) = p.
Proof. unfold third_trace, cube106; cbn. field. Qed.

(** a rotation by 90 degrees about z *)
Example rotation106 : matmat106 (transpose106 (Mat (Vec 0 1 0) (Vec (-1) 0 0) (Vec 0 0 1))) (Mat (Vec 0 1 0) (Vec (-1) 0 0) (Vec 0 0 1)) = Mat (Vec 1 0 0) (Vec 0 1 0) (Vec 0 0 1).
Proof. unfold matmat106, transpose106, vecmat, vadd, Vec3.scale; cbn. repeat f_equal; ring. Qed.
(** fractional coordinates are such that the Cartesian ones come back *)
Theorem C106_solved x cell y : cart2frac x cell = Some y -> frac2cart y cell = x.
Proof.
  unfold cart2frac, frac2cart. destruct (Req_EM_T (det cell) 0) as [|N]; [discriminate|]. intros [= <-]. rewrite map_map.
  transitivity (map (fun v => v) x); [|apply map_id]. apply map_ext. intros [p q r]. destruct cell as [[a b c] [d e f] [g h k]].
  unfold solve3, vecmat, vadd, Vec3.scale, det, dot, cross in *; cbn in *. f_equal; field; exact N.
Qed.

(** three steps with one cell *)
Example case106 : let g := TGiven (Some (Single (cube106 2))) None None (Some still106) (Some [cube106 1; cube106 2; cube106 3]) (Some 5) (Some 1%nat) in
  all_steps g 3 /\ exists t, make_traj g = Some t /\ u_nstep t = Some 3%nat.
Proof.
  cbv zeta. split.
  - repeat split; cbn; try (intros ? [= <-]); try discriminate; cbn; auto. right. discriminate.
  - eexists. split; reflexivity.
Qed.

Print Assumptions C106_frames. Print Assumptions C106_lengths. Print Assumptions C106_time. Print Assumptions C106_one_cell. Print Assumptions C106_succeeds.
Print Assumptions C106_mismatch. Print Assumptions C106_mismatch_refuted. Print Assumptions C106_no_positions.
Print Assumptions C106_solved. Print Assumptions C106_pressure_rotated. Print Assumptions C106_pressure_hydrostatic.
