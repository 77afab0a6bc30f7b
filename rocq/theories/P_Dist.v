(** C71, C72: distance matrices under OpenMP, and angles. *)
From Coq Require Import Reals List Arith Bool ZArith Lra Lia Permutation.
From Verif Require Import Vec3 Wrap WrapSpec WrapProofs RpdfProofs OmpPriv OmpPrivProofs Dist DistSpec DistProofs DistTraj AngleProofs.
Import ListNotations.
Open Scope R_scope.

(** ** C71 *)
(** distances: every entry, for any number of atoms and whatever np.empty returned. *)
Theorem C71_distances s0 coords cell natoms pbc squared i j : (i < natoms)%nat -> (j < natoms)%nat ->
  let '(dists, distvecs, distvecs_frac) := distances s0 coords cell natoms pbc squared in
  exists w f, vector_between pbc cell (coords i) (coords j) w /\
    (if pbc then centred3 (vsub (coords i) (coords j)) f else f = vsub (coords i) (coords j)) /\
    dists (i, j) = (if squared then length_sq w else norm w) /\
    distvecs ((i, j), 0%nat) = vx w /\ distvecs ((i, j), 1%nat) = vy w /\ distvecs ((i, j), 2%nat) = vz w /\
    distvecs_frac ((i, j), 0%nat) = vx f /\ distvecs_frac ((i, j), 1%nat) = vy f /\ distvecs_frac ((i, j), 2%nat) = vz f.
Proof. exact (distances_spec s0 coords cell natoms pbc squared i j). Qed.
(** distances_traj gives for every frame the matrix that distances gives for the frame,
    for every number of threads, assignment of frames to threads and interleaving. *)
Theorem C71_trajectory coords cell pbc nstep natoms res istep i j : distances_traj coords cell pbc nstep natoms res ->
  (istep < nstep)%nat -> (i < natoms)%nat -> (j < natoms)%nat ->
  forall s0, res (istep, (i, j)) = fst (fst (distances s0 (coords istep) (cell istep) natoms pbc false)) (i, j).
Proof. exact (traj_spec coords cell pbc nstep natoms res istep i j). Qed.
(** Whatever the assignment of the frames to the threads, the loop runs to its end. *)
Theorem C71_runs coords cell pbc nstep natoms dists assign : Permutation (concat (map fst assign)) (seq 0 nstep) ->
  exists c, psteps eqbt (pstart dists (traj_body coords cell pbc natoms) assign) c /\ pfinished c /\
    distances_traj coords cell pbc nstep natoms (pmem c).
Proof.
  intros P. destruct (private_runs eqbt nstep (traj_body coords cell pbc natoms) dists assign P) as (c & H1 & H2 & H3).
  exists c. split; [exact H1|]. split; [exact H2|]. exists dists. exact H3.
Qed.
(** Without the private clause the first frame can get the distances of the second one. *)
Theorem C71_private_needed coords cell pbc natoms : exists res, distances_traj_noprivate coords cell pbc 2 natoms res /\
  forall i j s0, (i < natoms)%nat -> (j < natoms)%nat ->
    res (0%nat, (i, j)) = fst (fst (distances s0 (coords 1%nat) (cell 1%nat) natoms pbc false)) (i, j).
Proof.
  destruct (noprivate_wrong coords cell pbc natoms) as (res & H & E). exists res. split; [exact H|]. intros i j s0 Hi Hj.
  rewrite (E i j Hi Hj), dist_entry by assumption. reflexivity.
Qed.
(** num.distsq, for every schedule; points of different dimensions are refused. *)
Theorem C71_distsq x nx ndim y ny res : distsq x nx ndim y ny ndim res ->
  exists d, res = Some d /\ forall i j, (i < nx)%nat -> (j < ny)%nat ->
    d (i, j) = fold_right Rplus 0 (map (fun k => (x i k - y j k) ^ 2) (seq 0 ndim)).
Proof. intros H. apply distsq_spec in H. rewrite Nat.eqb_refl in H. exact H. Qed.
Theorem C71_distsq_refused x nx ndimx y ny ndimy res : ndimx <> ndimy -> distsq x nx ndimx y ny ndimy res -> res = None.
Proof. intros N H. apply distsq_spec in H. apply Nat.eqb_neq in N. rewrite N in H. exact H. Qed.
Theorem C71_distsq_runs x nx ndim y ny : exists d, distsq x nx ndim y ny ndim (Some d).
Proof. exact (distsq_exists x nx ndim y ny). Qed.
(** Without pbc the distances are a metric. *)
Theorem C71_metric s0 coords cell natoms i j k : (i < natoms)%nat -> (j < natoms)%nat -> (k < natoms)%nat ->
  let d := fst (fst (distances s0 coords cell natoms false false)) in
  d (i, i) = 0 /\ d (i, j) = d (j, i) /\ d (i, k) <= d (i, j) + d (j, k).
Proof.
  intros Hi Hj Hk d.
  assert (D : forall a b, (a < natoms)%nat -> (b < natoms)%nat -> d (a, b) = norm (vecmat (vsub (coords a) (coords b)) cell)).
  { intros a b Ha Hb. unfold d. rewrite dist_entry by assumption. reflexivity. }
  rewrite !D by assumption. split; [|split].
  - unfold norm. rewrite <- sqrt_0. f_equal. unfold dot, vecmat, vadd, Vec3.scale, vsub. cbn. ring.
  - unfold norm. f_equal. unfold dot, vecmat, vadd, Vec3.scale, vsub. cbn. ring.
  - eapply Rle_trans; [|apply norm_triangle]. rewrite <- vecmat_add. right. f_equal. f_equal. unfold vadd, vsub. cbn. f_equal; ring.
Qed.

(** Two frames of two atoms; in the second frame they are farther apart. *)
Example C71_case :
  let coords := fun t i => match i with 0%nat => Vec 0 0 0 | _ => Vec (match t with 0%nat => 1/4 | _ => 3/4 end) 0 0 end in
  let cell := fun _ : nat => Mat (Vec 4 0 0) (Vec 0 4 0) (Vec 0 0 4) in
  exists res, distances_traj coords cell false 2 2 res /\ res (0%nat, (0%nat, 1%nat)) = 1 /\ res (1%nat, (0%nat, 1%nat)) = 3 /\
  exists bad, distances_traj_noprivate coords cell false 2 2 bad /\ bad (0%nat, (0%nat, 1%nat)) = 3.
Proof.
  intros coords cell. destruct (traj_exists coords cell false 2 2) as (res & H).
  set (z := Scratch (fun _ => 0) (fun _ => 0) (fun _ => 0)).
  assert (D : forall t, fst (fst (distances z (coords t) (cell t) 2 false false)) (0%nat, 1%nat) = match t with 0%nat => 1 | _ => 3 end).
  { intros t. rewrite dist_entry by lia. unfold norm, frac_of.
    destruct t; unfold dot, vecmat, vadd, Vec3.scale, vsub; cbn.
    - match goal with |- sqrt ?e = _ => replace e with (1 * 1) by field end. apply sqrt_square. lra.
    - match goal with |- sqrt ?e = _ => replace e with (3 * 3) by field end. apply sqrt_square. lra. }
  exists res. split; [exact H|]. split; [|split].
  - rewrite (C71_trajectory _ _ _ _ _ _ 0 0 1 H ltac:(lia) ltac:(lia) ltac:(lia) z). apply (D 0%nat).
  - rewrite (C71_trajectory _ _ _ _ _ _ 1 0 1 H ltac:(lia) ltac:(lia) ltac:(lia) z). apply (D 1%nat).
  - destruct (C71_private_needed coords cell false 2) as (bad & Hb & E). exists bad. split; [exact Hb|].
    rewrite (E 0%nat 1%nat z) by lia. apply (D 1%nat).
Qed.

(** ** C72 *)
(** Entries of three different atoms: the cosine of the angle between the vectors, NaN when two
    of the atoms coincide. *)
Theorem C72_cosine s0 a0 coords cell natoms pbc mask_val a i j k w w' :
  angles s0 a0 coords cell natoms pbc mask_val false = Some a ->
  (i < natoms)%nat -> (j < natoms)%nat -> (k < natoms)%nat -> distinct3 i j k ->
  vector_between pbc cell (coords i) (coords j) w -> vector_between pbc cell (coords i) (coords k) w' ->
  a ((i, j), k) = if Req_EM_T (norm w * norm w') 0 then None else Some (cosine w w').
Proof.
  intros H Hi Hj Hk D Hw Hw'. rewrite (angle_entry _ _ _ _ _ _ _ false _ _ _ _ _ _ H Hi Hj Hk D Hw Hw' ltac:(discriminate)).
  destruct (Req_EM_T (norm w) 0) as [E|N], (Req_EM_T (norm w') 0) as [E'|N'], (Req_EM_T (norm w * norm w') 0) as [P|P]; auto.
  - exfalso. apply P. rewrite E. ring.
  - exfalso. apply P. rewrite E. ring.
  - exfalso. apply P. rewrite E'. ring.
  - apply Rmult_integral in P. tauto.
Qed.
(** In degrees: the angle, up to a change of the cosine by at most 2.2e-16 where it is almost
    1 or -1. The fill value must not be a cosine. *)
Theorem C72_degrees s0 a0 coords cell natoms pbc mask_val a i j k w w' :
  angles s0 a0 coords cell natoms pbc mask_val true = Some a ->
  (i < natoms)%nat -> (j < natoms)%nat -> (k < natoms)%nat -> distinct3 i j k ->
  vector_between pbc cell (coords i) (coords j) w -> vector_between pbc cell (coords i) (coords k) w' ->
  1 < Rabs mask_val -> norm w <> 0 -> norm w' <> 0 ->
  exists theta, a ((i, j), k) = Some (theta * 180 / PI) /\ 0 <= theta <= PI /\ Rabs (cos theta - cosine w w') <= 22 / 10 ^ 17 /\
    (Rabs (cosine w w') <= 1 - 22 / 10 ^ 17 -> cos theta = cosine w w').
Proof.
  intros H Hi Hj Hk D Hw Hw' HM N N'. pose proof (angle_entry _ _ _ _ _ _ _ true _ _ _ _ _ _ H Hi Hj Hk D Hw Hw' (fun _ => HM)) as E.
  destruct (Req_EM_T (norm w) 0) as [|_]; [contradiction|]. destruct (Req_EM_T (norm w') 0) as [|_]; [contradiction|].
  pose proof (cosine_bound w w' N N') as B. exists (acos (snap (cosine w w'))). split; [exact E|]. split; [apply acos_bound|].
  rewrite cos_acos by now apply snap_bound. split; [apply (snap_near _ B)|apply snap_id].
Qed.
Theorem C72_degrees_nan s0 a0 coords cell natoms pbc mask_val a i j k w w' :
  angles s0 a0 coords cell natoms pbc mask_val true = Some a ->
  (i < natoms)%nat -> (j < natoms)%nat -> (k < natoms)%nat -> distinct3 i j k ->
  vector_between pbc cell (coords i) (coords j) w -> vector_between pbc cell (coords i) (coords k) w' ->
  1 < Rabs mask_val -> norm w = 0 \/ norm w' = 0 -> a ((i, j), k) = None.
Proof.
  intros H Hi Hj Hk D Hw Hw' HM N. pose proof (angle_entry _ _ _ _ _ _ _ true _ _ _ _ _ _ H Hi Hj Hk D Hw Hw' (fun _ => HM)) as E.
  destruct (Req_EM_T (norm w) 0); [exact E|]. destruct (Req_EM_T (norm w') 0); [exact E|tauto].
Qed.
(** The recipe of the docstring: selecting by [anglesijk != mask_val] selects the triples of
    different atoms, natoms * (natoms-1) * (natoms-2) of them. *)
Theorem C72_selection s0 a0 coords cell natoms pbc mask_val deg a i j k :
  angles s0 a0 coords cell natoms pbc mask_val deg = Some a -> (deg = true -> 1 < Rabs mask_val) ->
  (i < natoms)%nat -> (j < natoms)%nat -> (k < natoms)%nat -> (a ((i, j), k) <> Some mask_val <-> distinct3 i j k).
Proof. intros H HM Hi Hj Hk. exact (angle_not_masked _ _ _ _ _ _ _ _ _ _ _ _ H Hi Hj Hk HM). Qed.
Theorem C72_count s0 a0 coords cell natoms pbc mask_val deg a :
  angles s0 a0 coords cell natoms pbc mask_val deg = Some a -> (deg = true -> 1 < Rabs mask_val) ->
  length (filter (fun k => fne (a k) mask_val) (loop_kji natoms natoms)) = (natoms * (natoms - 1) * (natoms - 2))%nat.
Proof.
  intros H HM. rewrite <- count_triples. f_equal. apply filter_ext_in'. intros [[i j] k] Hin. apply in_loop_kji in Hin.
  destruct Hin as (Hi & Hj & Hk). cbn [fst snd] in *. pose proof (angle_not_masked _ _ _ _ _ _ _ deg _ i j k H Hi Hj Hk HM) as S.
  apply eq_true_iff_eq. etransitivity; [|symmetry; exact (distinctb i j k)]. etransitivity; [|exact S].
  assert (G : forall v, fne v mask_val = true <-> v <> Some mask_val); [|exact (G _)].
  intros [x|]; [rewrite fne_spec; split; congruence|]. cbn. split; [discriminate|reflexivity].
Qed.
(** The entries without an angle hold the fill value, for every accepted fill value. *)
Theorem C72_filled s0 a0 coords cell natoms pbc mask_val deg a i j k :
  angles s0 a0 coords cell natoms pbc mask_val deg = Some a ->
  (i < natoms)%nat -> (j < natoms)%nat -> (k < natoms)%nat -> ~ distinct3 i j k -> a ((i, j), k) = Some mask_val.
Proof. exact (angle_masked _ _ _ _ _ _ _ deg a i j k). Qed.
Theorem C72_refused s0 a0 coords cell natoms pbc mask_val deg :
  angles s0 a0 coords cell natoms pbc mask_val deg = None <-> if deg then 0 <= mask_val <= 180 else -1 <= mask_val <= 1.
Proof. exact (angles_none s0 a0 coords cell natoms pbc mask_val deg). Qed.
(** The order of the two outer atoms does not matter. *)
Theorem C72_symmetric s0 a0 coords cell natoms pbc mask_val deg a i j k :
  angles s0 a0 coords cell natoms pbc mask_val deg = Some a -> (deg = true -> 1 < Rabs mask_val) ->
  (i < natoms)%nat -> (j < natoms)%nat -> (k < natoms)%nat -> a ((i, j), k) = a ((i, k), j).
Proof.
  intros H HM Hi Hj Hk. destruct (negb (i =? j)%nat && negb (i =? k)%nat && negb (j =? k)%nat) eqn:Db.
  - apply distinctb in Db. assert (D' : distinct3 i k j) by (unfold distinct3 in *; intuition).
    rewrite (angle_entry _ _ _ _ _ _ _ deg _ _ _ _ _ _ H Hi Hj Hk Db (between_frac _ _ _ _) (between_frac _ _ _ _) HM).
    rewrite (angle_entry _ _ _ _ _ _ _ deg _ _ _ _ _ _ H Hi Hk Hj D' (between_frac _ _ _ _) (between_frac _ _ _ _) HM).
    set (w := vecmat _ cell). set (w' := vecmat _ cell).
    assert (E : cosine w w' = cosine w' w) by (unfold cosine; apply (f_equal2 Rdiv); [unfold dot; ring|ring]).
    rewrite E. destruct (Req_EM_T (norm w) 0), (Req_EM_T (norm w') 0); reflexivity.
  - assert (N : ~ distinct3 i j k) by (intros D; apply distinctb in D; congruence).
    assert (N' : ~ distinct3 i k j) by (unfold distinct3 in *; intuition).
    rewrite (angle_masked _ _ _ _ _ _ _ _ _ _ _ _ H Hi Hj Hk N). symmetry. exact (angle_masked _ _ _ _ _ _ _ _ _ _ _ _ H Hi Hk Hj N').
Qed.
(** Without pbc the three angles of a triangle of atoms add up to 180 degrees. *)
Theorem C72_triangle s0 a0 coords cell natoms mask_val a i j k w w' :
  angles s0 a0 coords cell natoms false mask_val true = Some a -> 1 < Rabs mask_val ->
  (i < natoms)%nat -> (j < natoms)%nat -> (k < natoms)%nat -> distinct3 i j k ->
  w = vecmat (vsub (coords i) (coords j)) cell -> w' = vecmat (vsub (coords i) (coords k)) cell ->
  norm w <> 0 -> norm w' <> 0 -> norm (vsub w' w) <> 0 ->
  Rabs (cosine w w') <= 1 - 22 / 10 ^ 17 -> Rabs (cosine (vsub (Vec 0 0 0) w) (vsub w' w)) <= 1 - 22 / 10 ^ 17 ->
  Rabs (cosine (vsub (Vec 0 0 0) w') (vsub w w')) <= 1 - 22 / 10 ^ 17 ->
  exists x y z, a ((i, j), k) = Some x /\ a ((j, i), k) = Some y /\ a ((k, i), j) = Some z /\ x + y + z = 180.
Proof.
  intros H HM Hi Hj Hk D -> -> N1 N2 N3 C1 C2 C3.
  set (w := vecmat (vsub (coords i) (coords j)) cell) in *. set (w' := vecmat (vsub (coords i) (coords k)) cell) in *.
  assert (VB : forall p q v, v = vecmat (vsub (coords p) (coords q)) cell -> vector_between false cell (coords p) (coords q) v).
  { intros p q v ->. exists (vsub (coords p) (coords q)). auto. }
  assert (E1 : vsub (Vec 0 0 0) w = vecmat (vsub (coords j) (coords i)) cell) by (unfold w, vecmat, vadd, Vec3.scale, vsub; cbn; f_equal; ring).
  assert (E2 : vsub (Vec 0 0 0) w' = vecmat (vsub (coords k) (coords i)) cell) by (unfold w', vecmat, vadd, Vec3.scale, vsub; cbn; f_equal; ring).
  assert (E3 : vsub w' w = vecmat (vsub (coords j) (coords k)) cell) by (unfold w, w', vecmat, vadd, Vec3.scale, vsub; cbn; f_equal; ring).
  assert (E4 : vsub w w' = vecmat (vsub (coords k) (coords j)) cell) by (unfold w, w', vecmat, vadd, Vec3.scale, vsub; cbn; f_equal; ring).
  assert (O : forall v, norm (vsub (Vec 0 0 0) v) = norm v) by (intros v; unfold norm; f_equal; unfold dot, vsub; cbn; ring).
  assert (O4 : norm (vsub w w') = norm (vsub w' w)) by (unfold norm; f_equal; unfold dot, vsub; cbn; ring).
  assert (D1 : distinct3 j i k) by (unfold distinct3 in *; intuition). assert (D2 : distinct3 k i j) by (unfold distinct3 in *; intuition).
  pose proof (angle_entry _ _ _ _ _ _ _ true _ _ _ _ _ _ H Hi Hj Hk D (VB i j w eq_refl) (VB i k w' eq_refl) (fun _ => HM)) as A1.
  pose proof (angle_entry _ _ _ _ _ _ _ true _ _ _ _ _ _ H Hj Hi Hk D1 (VB j i _ E1) (VB j k _ E3) (fun _ => HM)) as A2.
  pose proof (angle_entry _ _ _ _ _ _ _ true _ _ _ _ _ _ H Hk Hi Hj D2 (VB k i _ E2) (VB k j _ E4) (fun _ => HM)) as A3.
  rewrite !O in A2, A3. rewrite O4 in A3. clear O4. 
  destruct (Req_EM_T (norm w) 0) as [|_]; [contradiction|]. destruct (Req_EM_T (norm w') 0) as [|_]; [contradiction|].
  destruct (Req_EM_T (norm (vsub w' w)) 0) as [|_]; [contradiction|].
  do 3 eexists. split; [exact A1|]. split; [exact A2|]. split; [exact A3|].
  rewrite !snap_id by assumption.
  assert (L : Rabs (cosine w w') < 1) by (pose proof eps_pos; unfold eps in *; lra).
  pose proof (triangle_angles w w' N1 N2 N3 L) as T. cbv zeta beta in T.
  replace (vsub (Vec 0 0 0) (vsub w' w)) with (vsub w w') in T by (unfold vsub; cbn; f_equal; ring).
  pose proof PI_RGT_0 as HP.
  match goal with |- ?p * 180 / PI + ?q * 180 / PI + ?r * 180 / PI = 180 =>
    replace (p * 180 / PI + q * 180 / PI + r * 180 / PI) with ((p + q + r) * 180 / PI) by (field; lra); replace (p + q + r) with PI by (symmetry; exact T) end.
  field. lra.
Qed.
(** With deg=True a fill value in [-1,0) is accepted although cosines can have this value:
    the angle of atoms on a line (180 degrees) is then lost. *)
Theorem C72_mask_refuted : exists s0 a0 coords cell a, angles s0 a0 coords cell 3 false (-1) true = Some a /\
  distinct3 0 1 2 /\ a ((0%nat, 1%nat), 2%nat) = Some (-1).
Proof.
  set (coords := fun i => match i with 0%nat => Vec 0 0 0 | 1%nat => Vec 1 0 0 | _ => Vec (-1) 0 0 end).
  set (cell := Mat (Vec 1 0 0) (Vec 0 1 0) (Vec 0 0 1)). set (s0 := Scratch (fun _ => 0) (fun _ => 0) (fun _ => 0)). set (a0 := fun _ : key3 => @None R).
  exists s0, a0, coords, cell.
  destruct (angles s0 a0 coords cell 3 false (-1) true) as [a|] eqn:E.
  2:{ apply angles_none in E. unfold refused in E. lra. }
  exists a. split; [reflexivity|]. split; [unfold distinct3; lia|].
  destruct (angles_some _ _ _ _ _ _ _ _ _ E) as (_ & b & Hb & ->). apply to_deg_masked. rewrite Hb by lia. cbn [Nat.eqb negb andb].
  assert (W1 : vecmat (frac_of false (coords 0%nat) (coords 1%nat)) cell = Vec (-1) 0 0) by (unfold vecmat, vadd, Vec3.scale, vsub; cbn; f_equal; ring).
  assert (W2 : vecmat (frac_of false (coords 0%nat) (coords 2%nat)) cell = Vec 1 0 0) by (unfold vecmat, vadd, Vec3.scale, vsub; cbn; f_equal; ring).
  rewrite W1, W2.
  assert (N1 : norm (Vec (-1) 0 0) = 1) by (unfold norm, dot; cbn; replace (-1 * -1 + 0 * 0 + 0 * 0) with (1 * 1) by ring; apply sqrt_square; lra).
  assert (N2 : norm (Vec 1 0 0) = 1) by (unfold norm, dot; cbn; replace (1 * 1 + 0 * 0 + 0 * 0) with (1 * 1) by ring; apply sqrt_square; lra).
  unfold cosine. rewrite N1, N2. destruct (Req_EM_T 1 0); [lra|]. f_equal. unfold dot. cbn. field.
Qed.
(** Water-like triple with a right angle at atom 0: 90 degrees, and the fill value elsewhere. *)
Example C72_case : exists s0 a0 coords cell a, angles s0 a0 coords cell 3 false 999 true = Some a /\
  a ((0%nat, 1%nat), 2%nat) = Some 90 /\ a ((0%nat, 1%nat), 1%nat) = Some 999.
Proof.
  set (coords := fun i => match i with 0%nat => Vec 0 0 0 | 1%nat => Vec 1 0 0 | _ => Vec 0 1 0 end).
  set (cell := Mat (Vec 1 0 0) (Vec 0 1 0) (Vec 0 0 1)). set (s0 := Scratch (fun _ => 0) (fun _ => 0) (fun _ => 0)). set (a0 := fun _ : key3 => @None R).
  exists s0, a0, coords, cell.
  destruct (angles s0 a0 coords cell 3 false 999 true) as [a|] eqn:E.
  2:{ apply angles_none in E. unfold refused in E. lra. }
  exists a. split; [reflexivity|]. split; [|apply (C72_filled _ _ _ _ _ _ _ _ _ 0 1 1 E); unfold distinct3; lia].
  assert (HM : true = true -> 1 < Rabs 999) by (intros _; rewrite Rabs_right; lra).
  rewrite (angle_entry _ _ _ _ _ _ _ true _ 0 1 2 _ _ E ltac:(lia) ltac:(lia) ltac:(lia) ltac:(unfold distinct3; lia) (between_frac _ _ _ _) (between_frac _ _ _ _) HM).
  assert (W1 : vecmat (frac_of false (coords 0%nat) (coords 1%nat)) cell = Vec (-1) 0 0) by (unfold vecmat, vadd, Vec3.scale, vsub; cbn; f_equal; ring).
  assert (W2 : vecmat (frac_of false (coords 0%nat) (coords 2%nat)) cell = Vec 0 (-1) 0) by (unfold vecmat, vadd, Vec3.scale, vsub; cbn; f_equal; ring).
  rewrite W1, W2.
  assert (N1 : norm (Vec (-1) 0 0) = 1) by (unfold norm, dot; cbn; replace (-1 * -1 + 0 * 0 + 0 * 0) with (1 * 1) by ring; apply sqrt_square; lra).
  assert (N2 : norm (Vec 0 (-1) 0) = 1) by (unfold norm, dot; cbn; replace (0 * 0 + -1 * -1 + 0 * 0) with (1 * 1) by ring; apply sqrt_square; lra).
  assert (C0 : cosine (Vec (-1) 0 0) (Vec 0 (-1) 0) = 0) by (unfold cosine; rewrite N1, N2; unfold dot; cbn; field).
  rewrite N1, N2, C0. destruct (Req_EM_T 1 0); [lra|]. rewrite snap_id by (rewrite Rabs_R0; pose proof eps_pos; unfold ceps; lra).
  rewrite acos_0. f_equal. field. apply PI_neq0.
Qed.

Print Assumptions C71_distances.
Print Assumptions C71_trajectory.
Print Assumptions C71_runs.
Print Assumptions C71_private_needed.
Print Assumptions C71_distsq.
Print Assumptions C71_distsq_refused.
Print Assumptions C71_distsq_runs.
Print Assumptions C71_metric.
Print Assumptions C72_cosine.
Print Assumptions C72_degrees.
Print Assumptions C72_degrees_nan.
Print Assumptions C72_selection.
Print Assumptions C72_count.
Print Assumptions C72_filled.
Print Assumptions C72_refused.
Print Assumptions C72_symmetric.
Print Assumptions C72_triangle.
Print Assumptions C72_mask_refuted.
