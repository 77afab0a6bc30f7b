From Coq Require Import Reals List Arith Bool ZArith Lra Lia Psatz.
From Verif Require Import Vec3 Wrap WrapSpec WrapProofs RpdfProofs OmpPriv Dist DistSpec DistProofs DistTraj.
Import ListNotations.
Open Scope R_scope.

Lemma abs_between x a : Rabs x <= a -> - a <= x <= a.
Proof. unfold Rabs. destruct (Rcase_abs x); lra. Qed.
Definition fill_value (distvecs : key3 -> R) (dists : key2 -> R) (mask_val : R) (k : key3) : real :=
  let '((ii, jj), kk) := k in
  if negb (ii =? jj)%nat && negb (ii =? kk)%nat && negb (jj =? kk)%nat
  then fdiv (fdiv (Some (fold_left Rplus (map (fun c => distvecs ((ii, jj), c) * distvecs ((ii, kk), c)) axes) 0)) (dists (ii, jj))) (dists (ii, kk))
  else Some mask_val.
Lemma fold_left_ext {X Y} (f g : X -> Y -> X) L a : (forall a y, f a y = g a y) -> fold_left f L a = fold_left g L a.
Proof. intros E. revert a. induction L as [|y L IH]; intros a; [reflexivity|]. cbn. rewrite E. apply IH. Qed.
Lemma fill_entry dvs ds mask n a0 i j k : (i < n)%nat -> (j < n)%nat -> (k < n)%nat ->
  angles_fill dvs ds mask n a0 ((i, j), k) = fill_value dvs ds mask ((i, j), k).
Proof.
  intros Hi Hj Hk. unfold angles_fill.
  rewrite (fold_left_ext _ (fun a k => set eqb3 a k ((fun k (_ : real) => fill_value dvs ds mask k) k (a k)))).
  2:{ intros a [[ii jj] kk]. reflexivity. }
  rewrite (fold_set eqb3 eqb3_spec (fun k _ => fill_value dvs ds mask k)) by reflexivity.
  rewrite (proj2 (existsb_in eqb3 eqb3_spec _ _)); [reflexivity|]. apply in_loop_kji. auto.
Qed.

Lemma norm_nonneg v : 0 <= norm v. Proof. apply sqrt_pos. Qed.
Lemma norm_sq v : norm v * norm v = dot v v. Proof. apply sqrt_sqrt, dot_pos. Qed.
Lemma cosine_bound w w' : norm w <> 0 -> norm w' <> 0 -> -1 <= cosine w w' <= 1.
Proof.
  intros N N'. pose proof (norm_nonneg w). pose proof (norm_nonneg w'). unfold cosine.
  assert (P : 0 < norm w * norm w') by (apply Rmult_lt_0_compat; lra).
  pose proof (cauchy w w') as C. apply abs_between in C. split.
  - apply (Rmult_le_reg_r (norm w * norm w')); [exact P|]. unfold Rdiv. rewrite Rmult_assoc, Rinv_l by lra. lra.
  - apply (Rmult_le_reg_r (norm w * norm w')); [exact P|]. unfold Rdiv. rewrite Rmult_assoc, Rinv_l by lra. lra.
Qed.
Definition snap (c : R) : R := if Rlt_dec ceps c then 1 else if Rlt_dec c (- ceps) then -1 else c.
Lemma eps_pos : 0 < eps < 1 / 2.
Proof. unfold eps. split; [apply Rdiv_lt_0_compat; lra|]. apply (Rmult_lt_reg_r (10 ^ 17)); [lra|]. unfold Rdiv at 1. rewrite Rmult_assoc, Rinv_l; lra. Qed.
Lemma snap_bound c : -1 <= c <= 1 -> -1 <= snap c <= 1.
Proof. unfold snap. destruct (Rlt_dec ceps c), (Rlt_dec c (- ceps)); lra. Qed.
Lemma snap_near c : -1 <= c <= 1 -> Rabs (snap c - c) <= eps.
Proof.
  pose proof eps_pos. intros B. unfold snap. destruct (Rlt_dec ceps c) as [L|L]; [|destruct (Rlt_dec c (- ceps)) as [L'|L']]; unfold ceps in *; apply Rabs_le; lra.
Qed.
Lemma snap_id c : Rabs c <= ceps -> snap c = c.
Proof. intros B. apply abs_between in B. unfold snap. destruct (Rlt_dec ceps c); [lra|]. destruct (Rlt_dec c (- ceps)); [lra|reflexivity]. Qed.

Definition to_deg (mask : R) (a : key3 -> real) : key3 -> real :=
  where_ (fun x => fne x mask) (fun x => match x with Some x => match facos x with Some y => Some (y * 180 / PI) | None => None end | None => None end)
   (where_ (fun x => fne x mask && flt x (- ceps)) (fun _ => Some (-1)) (where_ (fun x => fne x mask && fgt x ceps) (fun _ => Some 1) a)).
Lemma fne_spec x y : fne (Some x) y = true <-> x <> y.
Proof. cbn. destruct (Req_EM_T x y); split; intros; try discriminate; try contradiction; auto. Qed.
Lemma fne_same y : fne (Some y) y = false.
Proof. cbn. now destruct (Req_EM_T y y). Qed.
Lemma to_deg_masked mask a k : a k = Some mask -> to_deg mask a k = Some mask.
Proof. intros E. unfold to_deg, where_. rewrite !E, !fne_same. cbn [andb]. rewrite ?fne_same. cbn [andb]. now rewrite ?fne_same. Qed.
Lemma to_deg_nan mask a k : a k = None -> to_deg mask a k = None.
Proof. intros E. unfold to_deg, where_. rewrite !E. cbn. rewrite ?E. reflexivity. Qed.
Lemma to_deg_val mask a k c : a k = Some c -> -1 <= c <= 1 -> 1 < Rabs mask -> to_deg mask a k = Some (acos (snap c) * 180 / PI).
Proof.
  intros E B M. pose proof eps_pos as HE.
  assert (NM : forall x, -1 <= x <= 1 -> fne (Some x) mask = true).
  { intros x Hx. apply fne_spec. intros ->. assert (Rabs mask <= 1) by (apply Rabs_le; lra). lra. }
  unfold to_deg. set (a1 := where_ _ _ a).
  assert (E1 : a1 k = Some (if Rlt_dec ceps c then 1 else c)).
  { unfold a1, where_. rewrite E, (NM c B). cbn. destruct (Rlt_dec ceps c); reflexivity. }
  clearbody a1. set (a2 := where_ _ _ a1).
  assert (E2 : a2 k = Some (snap c)).
  { unfold a2, where_, snap. rewrite E1. destruct (Rlt_dec ceps c).
    - rewrite (NM 1) by lra. cbn. destruct (Rlt_dec 1 (- ceps)); [unfold ceps in *; lra|reflexivity].
    - rewrite (NM c) by lra. cbn. destruct (Rlt_dec c (- ceps)); reflexivity. }
  clearbody a2. unfold where_. rewrite E2, NM by now apply snap_bound. unfold facos.
  destruct (Rle_dec (Rabs (snap c)) 1) as [|N]; [reflexivity|]. exfalso. apply N. apply Rabs_le. now apply snap_bound.
Qed.

Lemma distinctb i j k : negb (i =? j)%nat && negb (i =? k)%nat && negb (j =? k)%nat = true <-> distinct3 i j k.
Proof. unfold distinct3. rewrite !andb_true_iff, !negb_true_iff, !Nat.eqb_neq. tauto. Qed.
Section Angles.
  Variables (s0 : scratch) (a0 : key3 -> real) (coords : nat -> vec) (cell : mat) (natoms : nat) (pbc : bool) (mask_val : R).
  Let W i j := vecmat (frac_of pbc (coords i) (coords j)) cell.

  Lemma fill_spec i j k : (i < natoms)%nat -> (j < natoms)%nat -> (k < natoms)%nat ->
    let '(dists, distvecs, _) := distances s0 coords cell natoms pbc false in
    angles_fill distvecs dists mask_val natoms a0 ((i, j), k) =
      if negb (i =? j)%nat && negb (i =? k)%nat && negb (j =? k)%nat
      then if Req_EM_T (norm (W i j)) 0 then None else if Req_EM_T (norm (W i k)) 0 then None else Some (cosine (W i j) (W i k))
      else Some mask_val.
  Proof.
    intros Hi Hj Hk. unfold distances. change (fold_left (fun s f => f s) ?p s0) with (runs p s0).
    set (s := runs _ s0). cbn [fst snd].
    destruct (distsq_frac_spec coords cell pbc natoms s0 i j Hi Hj) as (_ & V1 & Q1).
    destruct (distsq_frac_spec coords cell pbc natoms s0 i k Hi Hk) as (_ & V2 & Q2).
    fold s in V1, Q1, V2, Q2. rewrite fill_entry by assumption. unfold fill_value.
    destruct (negb (i =? j)%nat && negb (i =? k)%nat && negb (j =? k)%nat); [|reflexivity].
    cbn [map axes fold_left]. rewrite !V1, !V2, Q1, Q2 by lia. unfold fdiv.
    replace (0 + _ + _ + _) with (dot (W i j) (W i k)) by (unfold W, dot, comp; ring).
    fold (norm (vecmat (frac_of pbc (coords i) (coords j)) cell)). fold (norm (vecmat (frac_of pbc (coords i) (coords k)) cell)).
    fold (W i j) (W i k). destruct (Req_EM_T (norm (W i j)) 0) as [|N]; [reflexivity|]. destruct (Req_EM_T (norm (W i k)) 0) as [|N']; [reflexivity|].
    unfold cosine. f_equal. field. auto.
  Qed.

  Definition refused (deg : bool) : Prop := if deg then 0 <= mask_val <= 180 else -1 <= mask_val <= 1.
  Lemma inside_b_spec lo hi x : inside_b lo hi x = true <-> lo <= x <= hi.
  Proof. unfold inside_b. destruct (Rle_dec lo x), (Rle_dec x hi); split; intros; try discriminate; auto; lra. Qed.
  Lemma angles_none deg : angles s0 a0 coords cell natoms pbc mask_val deg = None <-> refused deg.
  Proof.
    unfold angles, refused. destruct deg.
    - destruct (inside_b 0 180 mask_val) eqn:E.
      + apply inside_b_spec in E. split; auto.
      + split; [discriminate|]. intros H. apply inside_b_spec in H. congruence.
    - destruct (inside_b (-1) 1 mask_val) eqn:E.
      + apply inside_b_spec in E. split; auto.
      + split; [discriminate|]. intros H. apply inside_b_spec in H. congruence.
  Qed.
  Lemma angles_some deg a : angles s0 a0 coords cell natoms pbc mask_val deg = Some a ->
    ~ refused deg /\ exists b, (forall i j k, (i < natoms)%nat -> (j < natoms)%nat -> (k < natoms)%nat -> b ((i, j), k) =
      if negb (i =? j)%nat && negb (i =? k)%nat && negb (j =? k)%nat
      then if Req_EM_T (norm (W i j)) 0 then None else if Req_EM_T (norm (W i k)) 0 then None else Some (cosine (W i j) (W i k))
      else Some mask_val) /\ a = if deg then to_deg mask_val b else b.
  Proof.
    intros H. split; [rewrite <- angles_none; congruence|]. unfold angles in H.
    destruct (if deg then _ else _); [discriminate|]. pose proof fill_spec as F.
    destruct (distances s0 coords cell natoms pbc false) as [[ds dvs] x]. injection H as <-.
    exists (angles_fill dvs ds mask_val natoms a0). split; [exact F|]. unfold flib_angles. destruct deg; reflexivity.
  Qed.

  Lemma angle_masked deg a i j k : angles s0 a0 coords cell natoms pbc mask_val deg = Some a ->
    (i < natoms)%nat -> (j < natoms)%nat -> (k < natoms)%nat -> ~ distinct3 i j k -> a ((i, j), k) = Some mask_val.
  Proof.
    intros H Hi Hj Hk N. destruct (angles_some _ _ H) as (_ & b & Hb & ->).
    assert (E : b (i, j, k) = Some mask_val).
    { rewrite Hb by assumption. destruct (negb (i =? j)%nat && negb (i =? k)%nat && negb (j =? k)%nat) eqn:D; [|reflexivity].
      apply distinctb in D. contradiction. }
    destruct deg; [now apply to_deg_masked|exact E].
  Qed.
  Lemma angle_entry deg a i j k w w' : angles s0 a0 coords cell natoms pbc mask_val deg = Some a ->
    (i < natoms)%nat -> (j < natoms)%nat -> (k < natoms)%nat -> distinct3 i j k ->
    vector_between pbc cell (coords i) (coords j) w -> vector_between pbc cell (coords i) (coords k) w' ->
    (deg = true -> 1 < Rabs mask_val) ->
    a ((i, j), k) = if Req_EM_T (norm w) 0 then None else if Req_EM_T (norm w') 0 then None else
      Some (if deg then acos (snap (cosine w w')) * 180 / PI else cosine w w').
  Proof.
    intros H Hi Hj Hk D Hw Hw' HM. rewrite (between_unique _ _ _ _ _ _ Hw (between_frac _ _ _ _)), (between_unique _ _ _ _ _ _ Hw' (between_frac _ _ _ _)).
    fold (W i j) (W i k). destruct (angles_some _ _ H) as (_ & b & Hb & ->). specialize (Hb i j k Hi Hj Hk).
    rewrite (proj2 (distinctb i j k) D) in Hb.
    destruct (Req_EM_T (norm (W i j)) 0); [destruct deg; [now apply to_deg_nan|exact Hb]|].
    destruct (Req_EM_T (norm (W i k)) 0); [destruct deg; [now apply to_deg_nan|exact Hb]|].
    destruct deg; [|exact Hb]. apply to_deg_val; auto. now apply cosine_bound.
  Qed.
  Lemma angle_not_masked deg a i j k : angles s0 a0 coords cell natoms pbc mask_val deg = Some a ->
    (i < natoms)%nat -> (j < natoms)%nat -> (k < natoms)%nat -> (deg = true -> 1 < Rabs mask_val) ->
    (a ((i, j), k) <> Some mask_val <-> distinct3 i j k).
  Proof.
    intros H Hi Hj Hk HM. split.
    - intros N. destruct (negb (i =? j)%nat && negb (i =? k)%nat && negb (j =? k)%nat) eqn:D; [now apply distinctb|].
      exfalso. apply N. eapply angle_masked; eauto. intros D'. apply distinctb in D'. congruence.
    - intros D. destruct (angles_some _ _ H) as (NR & _). rewrite (angle_entry _ _ _ _ _ _ _ H Hi Hj Hk D (between_frac _ _ _ _) (between_frac _ _ _ _) HM).
      fold (W i j) (W i k). destruct (Req_EM_T (norm (W i j)) 0) as [|N1]; [discriminate|]. destruct (Req_EM_T (norm (W i k)) 0) as [|N2]; [discriminate|].
      intros E. injection E as E. apply NR. unfold refused. destruct deg.
      + rewrite <- E. pose proof (acos_bound (snap (cosine (W i j) (W i k)))) as [A B]. pose proof PI_RGT_0. split.
        * apply Rmult_le_pos; [lra|]. apply Rlt_le, Rinv_0_lt_compat. lra.
        * apply (Rmult_le_reg_r PI); [lra|]. unfold Rdiv. rewrite Rmult_assoc, Rinv_l by lra. lra.
      + rewrite <- E. now apply cosine_bound.
  Qed.
End Angles.

(** *** Counting the angles *)
Lemma filter_ext_in' {X} (f g : X -> bool) L : (forall x, In x L -> f x = g x) -> filter f L = filter g L.
Proof. induction L as [|x L IH]; intros H; [reflexivity|]. cbn. rewrite H by now left. rewrite IH by (intros; apply H; now right). reflexivity. Qed.
Lemma filter_flat_map {X Y} (f : Y -> bool) (g : X -> list Y) L : length (filter f (flat_map g L)) = list_sum (map (fun x => length (filter f (g x))) L).
Proof. induction L as [|x L IH]; [reflexivity|]. cbn. rewrite filter_app, app_length, IH. reflexivity. Qed.
Lemma filter_map_len {X Y} (f : Y -> bool) (g : X -> Y) L : length (filter f (map g L)) = length (filter (fun x => f (g x)) L).
Proof. induction L as [|x L IH]; [reflexivity|]. cbn. destruct (f (g x)); cbn; now rewrite IH. Qed.
Lemma sum_if k c n a : (list_sum (map (fun x => if x =? k then 0 else c) (seq a n)) = (if (a <=? k) && (k <? a + n) then (n - 1) * c else n * c))%nat.
Proof.
  revert a. induction n as [|n IH]; intros a; [now destruct (_ && _)|]. cbn [seq map list_sum fold_right]. fold (list_sum (map (fun x => if (x =? k)%nat then 0%nat else c) (seq (S a) n))).
  rewrite IH. destruct (Nat.leb_spec (S a) k), (Nat.ltb_spec k (S a + n)), (Nat.leb_spec a k), (Nat.ltb_spec k (a + S n)), (Nat.eqb_spec a k); cbn [andb]; try lia.
  destruct n; [lia|]. cbn. lia.
Qed.
Lemma count_one j k n a : j <> k -> (length (filter (fun i => negb (i =? j) && negb (i =? k)) (seq a n)) + (if (a <=? j) && (j <? a + n) then 1 else 0) + (if (a <=? k) && (k <? a + n) then 1 else 0) = n)%nat.
Proof.
  intros N. revert a. induction n as [|n IH]; intros a.
  - cbn [seq filter length]. destruct (Nat.leb_spec a j), (Nat.ltb_spec j (a + 0)), (Nat.leb_spec a k), (Nat.ltb_spec k (a + 0)); cbn [andb]; lia.
  - cbn [seq filter]. specialize (IH (S a)).
    destruct (Nat.leb_spec (S a) j), (Nat.ltb_spec j (S a + n)), (Nat.leb_spec (S a) k), (Nat.ltb_spec k (S a + n)),
      (Nat.leb_spec a j), (Nat.ltb_spec j (a + S n)), (Nat.leb_spec a k), (Nat.ltb_spec k (a + S n)), (Nat.eqb_spec a j), (Nat.eqb_spec a k); cbn [negb andb length] in *; lia.
Qed.
Lemma count_triples n :
  length (filter (fun k : key3 => negb (fst (fst k) =? snd (fst k))%nat && negb (fst (fst k) =? snd k)%nat && negb (snd (fst k) =? snd k)%nat) (loop_kji n n))
  = (n * (n - 1) * (n - 2))%nat.
Proof.
  unfold loop_kji. rewrite filter_flat_map.
  assert (E : forall kk, In kk (seq 0 n) -> length (filter (fun k : key3 => negb (fst (fst k) =? snd (fst k))%nat && negb (fst (fst k) =? snd k)%nat && negb (snd (fst k) =? snd k)%nat)
     (map (fun ij => (ij, kk)) (loop_ji n))) = ((n - 1) * (n - 2))%nat).
  { intros kk Hk. apply in_seq in Hk. rewrite filter_map_len. cbn [fst snd]. unfold loop_ji. rewrite filter_flat_map.
    rewrite (map_ext_in _ (fun jj => if (jj =? kk)%nat then 0%nat else (n - 2)%nat)).
    - rewrite sum_if. destruct (Nat.leb_spec 0 kk), (Nat.ltb_spec kk (0 + n)); cbn [andb]; lia.
    - intros jj Hj. apply in_seq in Hj. rewrite filter_map_len. cbn [fst snd]. destruct (Nat.eqb_spec jj kk) as [->|N].
      + rewrite (filter_ext_in' _ (fun _ => false)); [|intros; cbn; apply andb_false_r]. clear. induction (seq 0 n); [reflexivity|exact IHl].
      + rewrite (filter_ext_in' _ (fun i => negb (i =? jj)%nat && negb (i =? kk)%nat)) by (intros; cbn; apply andb_true_r).
        pose proof (count_one jj kk n 0 N) as C. destruct (Nat.ltb_spec jj (0 + n)), (Nat.ltb_spec kk (0 + n)); cbn [andb Nat.leb] in C; lia. }
  rewrite (map_ext_in _ (fun _ => ((n - 1) * (n - 2))%nat)) by exact E.
  assert (G : forall (l : list nat) c, list_sum (map (fun _ => c) l) = (length l * c)%nat) by (induction l; intros; [reflexivity|cbn; rewrite <- IHl; reflexivity]).
  rewrite G, seq_length. lia.
Qed.

(** *** The angles of a triangle *)
Lemma triangle_angles a b : let c := vsub b a in let opp := fun v => vsub (Vec 0 0 0) v in
  norm a <> 0 -> norm b <> 0 -> norm c <> 0 -> Rabs (cosine a b) < 1 ->
  acos (cosine a b) + acos (cosine (opp a) c) + acos (cosine (opp b) (opp c)) = PI.
Proof.
  intros c opp Na Nb Nc HA.
  pose proof (norm_nonneg a) as Pa. pose proof (norm_nonneg b) as Pb. pose proof (norm_nonneg c) as Pc.
  assert (Eo : forall v, norm (opp v) = norm v) by (intros v; unfold norm; f_equal; unfold opp, dot, vsub; cbn; ring).
  set (A := cosine a b). set (B := cosine (opp a) c). set (C := cosine (opp b) (opp c)).
  assert (BA : -1 <= A <= 1) by now apply cosine_bound.
  assert (BB : -1 <= B <= 1) by (apply cosine_bound; rewrite ?Eo; assumption).
  assert (BC : -1 <= C <= 1) by (apply cosine_bound; rewrite ?Eo; assumption).
  set (na := norm a) in *. set (nb := norm b) in *. set (nc := norm c) in *. set (d := dot a b).
  assert (Sa : na * na = dot a a) by apply norm_sq. assert (Sb : nb * nb = dot b b) by apply norm_sq.
  assert (Sc : nc * nc = dot a a + dot b b - 2 * d) by (unfold nc; rewrite norm_sq; unfold c, d, dot, vsub; cbn; ring).
  assert (EA : A = d / (na * nb)) by reflexivity.
  assert (EB : B = (na * na - d) / (na * nc)).
  { unfold B, cosine. rewrite Eo. fold na nc. apply (f_equal2 Rdiv); [|reflexivity]. rewrite Sa. unfold c, opp, d, dot, vsub. cbn. ring. }
  assert (EC : C = (nb * nb - d) / (nb * nc)).
  { unfold C, cosine. rewrite !Eo. fold nb nc. apply (f_equal2 Rdiv); [|reflexivity]. rewrite Sb. unfold c, opp, d, dot, vsub. cbn. ring. }
  assert (CS : d * d <= na * na * (nb * nb)).
  { pose proof (cauchy a b) as H. fold na nb d in H. apply abs_between in H. nra. }
  set (x := sqrt (na * na * (nb * nb) - d * d)).
  assert (Sx : x * x = na * na * (nb * nb) - d * d) by (apply sqrt_sqrt; lra).
  assert (Px : 0 <= x) by apply sqrt_pos.
  assert (sqrt_div_sq : forall y z r, 0 <= r -> 0 < z -> r * r = y -> sqrt (y / (z * z)) = r / z).
  { intros y z r Hr Hz <-. replace (r * r / (z * z)) with ((r / z) * (r / z)) by (field; lra).
    apply sqrt_square. apply Rmult_le_pos; [exact Hr|]. apply Rlt_le, Rinv_0_lt_compat, Hz. }
  assert (SA : sin (acos A) = x / (na * nb)).
  { rewrite sin_acos by exact BA. rewrite EA. rewrite <- (sqrt_div_sq (na * na * (nb * nb) - d * d) (na * nb) x); auto; [|apply Rmult_lt_0_compat; lra].
    f_equal. unfold Rsqr. field. auto. }
  assert (SB : sin (acos B) = x / (na * nc)).
  { rewrite sin_acos by exact BB. rewrite EB. rewrite <- (sqrt_div_sq (na * na * (nb * nb) - d * d) (na * nc) x); auto; [|apply Rmult_lt_0_compat; lra].
    f_equal. unfold Rsqr. apply (Rmult_eq_reg_r ((na * nc) * (na * nc))); [|repeat apply Rmult_integral_contrapositive_currified; auto].
    replace ((1 - (na * na - d) / (na * nc) * ((na * na - d) / (na * nc))) * (na * nc * (na * nc))) with (na * na * (nc * nc) - (na * na - d) * (na * na - d)) by (field; auto).
    replace ((na * na * (nb * nb) - d * d) / (na * nc * (na * nc)) * (na * nc * (na * nc))) with (na * na * (nb * nb) - d * d) by (field; auto).
    rewrite Sc, <- Sa, <- Sb. ring. }
  assert (COS : cos (acos A + acos B) = - C).
  { rewrite cos_plus, SA, SB, !cos_acos by assumption. rewrite EA, EB, EC.
    replace (d / (na * nb) * ((na * na - d) / (na * nc)) - x / (na * nb) * (x / (na * nc))) with ((d * (na * na - d) - x * x) / (na * na * nb * nc)) by (field; auto).
    rewrite Sx. field. auto. }
  assert (SIN : 0 <= sin (acos A + acos B)).
  { rewrite sin_plus, SA, SB, !cos_acos by assumption. rewrite EA, EB.
    replace (x / (na * nb) * ((na * na - d) / (na * nc)) + d / (na * nb) * (x / (na * nc))) with (x / (nb * nc)) by (field; auto).
    apply Rmult_le_pos; [exact Px|]. apply Rlt_le, Rinv_0_lt_compat, Rmult_lt_0_compat; lra. }
  fold A in HA. apply Rabs_def2 in HA. pose proof (acos_bound_lt A ltac:(lra)) as LA. pose proof (acos_bound B) as LB.
  assert (LE : acos A + acos B <= PI).
  { destruct (Rle_or_lt (acos A + acos B) PI) as [|G]; [assumption|]. exfalso.
    assert (sin (acos A + acos B) < 0) by (apply sin_lt_0; lra). lra. }
  assert (E : acos A + acos B = acos (- C)) by (rewrite <- COS; symmetry; apply acos_cos; lra).
  rewrite acos_opp in E. lra.
Qed.
