From Coq Require Import Reals List Arith Bool ZArith Lra Lia Permutation.
From Verif Require Import Vec3 Wrap WrapSpec WrapProofs RpdfProofs OmpPriv OmpPrivProofs Dist DistSpec DistProofs.
Import ListNotations.
Open Scope R_scope.

Lemma between_unique pbc cell u v w w' : vector_between pbc cell u v w -> vector_between pbc cell u v w' -> w = w'.
Proof.
  intros (f & Hf & ->) (f' & Hf' & ->). destruct pbc; [|now subst]. f_equal. eapply centred3_unique; eassumption.
Qed.
Lemma between_frac pbc cell u v : vector_between pbc cell u v (vecmat (frac_of pbc u v) cell).
Proof. exists (frac_of pbc u v). split; [apply frac_of_spec|reflexivity]. Qed.

Lemma distances_spec s0 coords cell n pbc squared i j : (i < n)%nat -> (j < n)%nat ->
  let '(dists, distvecs, distvecs_frac) := distances s0 coords cell n pbc squared in
  exists w f, vector_between pbc cell (coords i) (coords j) w /\
    (if pbc then centred3 (vsub (coords i) (coords j)) f else f = vsub (coords i) (coords j)) /\
    dists (i, j) = (if squared then length_sq w else norm w) /\
    distvecs ((i, j), 0%nat) = vx w /\ distvecs ((i, j), 1%nat) = vy w /\ distvecs ((i, j), 2%nat) = vz w /\
    distvecs_frac ((i, j), 0%nat) = vx f /\ distvecs_frac ((i, j), 1%nat) = vy f /\ distvecs_frac ((i, j), 2%nat) = vz f.
Proof.
  intros Hi Hj. destruct (distsq_frac_spec coords cell pbc n s0 i j Hi Hj) as (F & V & Q). unfold distances.
  change (fold_left (fun s f => f s) (distsq_frac coords cell pbc n) s0) with (runs (distsq_frac coords cell pbc n) s0).
  exists (vecmat (frac_of pbc (coords i) (coords j)) cell), (frac_of pbc (coords i) (coords j)).
  split; [apply between_frac|]. split; [apply frac_of_spec|].
  split; [destruct squared; rewrite Q; reflexivity|].
  rewrite !V, !F by lia. repeat split; reflexivity.
Qed.

Lemma dist_entry s0 coords cell n pbc i j : (i < n)%nat -> (j < n)%nat ->
  fst (fst (distances s0 coords cell n pbc false)) (i, j) = norm (vecmat (frac_of pbc (coords i) (coords j)) cell).
Proof.
  intros Hi Hj. unfold distances. cbn [fst snd].
  change (fold_left (fun s f => f s) (distsq_frac coords cell pbc n) s0) with (runs (distsq_frac coords cell pbc n) s0).
  destruct (distsq_frac_spec coords cell pbc n s0 i j Hi Hj) as (_ & _ & ->). reflexivity.
Qed.

(** One iteration of distances_traj on its own *)
Lemma run_locs {K A : Type} (eqb : K -> K -> bool) (p : list (scratch -> scratch)) q s (m : K -> A) :
  run eqb (map Loc p ++ q) s m = run eqb q (runs p s) m.
Proof. revert s. induction p as [|f p IH]; intros s; [reflexivity|]. cbn. rewrite IH. reflexivity. Qed.
Lemma run_puts {K S A : Type} (eqb : K -> K -> bool) (eqb_ok : forall a b, eqb a b = true <-> a = b) {X : Type} (key : X -> K) (g : X -> S -> A) L s m k :
  snd (run eqb (map (fun x => Put (key x) (g x)) L) s m) k =
  fold_left (fun a x => if eqb k (key x) then g x s else a) L (m k).
Proof.
  revert m. induction L as [|x L IH]; intros m; [reflexivity|]. cbn. rewrite IH. f_equal.
Qed.
Lemma fold_hit {X A : Type} (b : X -> bool) (v : A) (g : X -> A) L a : (forall x, In x L -> b x = true -> g x = v) -> existsb b L = true ->
  fold_left (fun a x => if b x then g x else a) L a = v.
Proof.
  revert a. induction L as [|x L IH]; intros a H E; [discriminate|]. cbn in *. destruct (existsb b L) eqn:EL.
  - apply IH; [intros; apply H; auto|reflexivity].
  - rewrite orb_false_r in E. rewrite E. rewrite (H x (or_introl eq_refl) E). clear - EL. induction L as [|y L IH]; [reflexivity|].
    cbn in *. destruct (b y); [discriminate|]. apply IH. exact EL.
Qed.

Definition towner (nstep natoms : nat) (k : keyt) : nat :=
  if ((fst (snd k) <? natoms) && (snd (snd k) <? natoms))%nat then fst k else nstep.
Definition texpected (coords : nat -> nat -> vec) (cell : nat -> mat) (pbc : bool) (k : keyt) : R :=
  norm (vecmat (frac_of pbc (coords (fst k) (fst (snd k))) (coords (fst k) (snd (snd k)))) (cell (fst k))).
Lemma traj_ok coords cell pbc nstep natoms :
  iteration_ok eqbt (towner nstep natoms) nstep (traj_body coords cell pbc natoms) (texpected coords cell pbc).
Proof.
  split.
  - intros t x k Hx (g & ->). unfold traj_body in Hx. apply in_app_or in Hx. destruct Hx as [Hx|Hx]; apply in_map_iff in Hx.
    + destruct Hx as (f & E & _). discriminate.
    + destruct Hx as (ij & E & Hij). injection E as <- _. apply in_loop_ji in Hij. unfold towner. cbn [fst snd].
      destruct (Nat.ltb_spec (fst ij) natoms), (Nat.ltb_spec (snd ij) natoms); cbn [andb]; lia.
  - intros t s m [t' [i j]] Ht. unfold towner. cbn [fst snd]. destruct (Nat.ltb_spec i natoms) as [Hi|]; cbn [andb]; [|lia].
    destruct (Nat.ltb_spec j natoms) as [Hj|]; [|lia]. intros ->. unfold traj_body. rewrite run_locs.
    rewrite (run_puts eqbt eqbt_spec (fun ij => (t, ij)) (fun ij s => sqrt (dsq s ij))). apply fold_hit.
    + intros ij _ E. apply eqbt_spec in E. injection E as <-. destruct (distsq_frac_spec (coords t) (cell t) pbc natoms s i j Hi Hj) as (_ & _ & ->).
      reflexivity.
    + apply existsb_exists. exists (i, j). split; [apply in_loop_ji; auto|]. now apply eqbt_spec.
Qed.
Lemma traj_spec coords cell pbc nstep natoms res istep i j : distances_traj coords cell pbc nstep natoms res ->
  (istep < nstep)%nat -> (i < natoms)%nat -> (j < natoms)%nat ->
  forall s0, res (istep, (i, j)) = fst (fst (distances s0 (coords istep) (cell istep) natoms pbc false)) (i, j).
Proof.
  intros (d0 & H) Ht Hi Hj s0.
  rewrite (private_spec eqbt eqbt_spec (towner nstep natoms) nstep _ _ _ _ (traj_ok coords cell pbc nstep natoms) H).
  unfold towner. cbn [fst snd]. rewrite (proj2 (Nat.ltb_lt i natoms) Hi), (proj2 (Nat.ltb_lt j natoms) Hj). cbn [andb].
  rewrite (proj2 (Nat.ltb_lt _ _) Ht). unfold texpected, distances. cbn [fst snd].
  change (fold_left (fun s f => f s) ?p s0) with (runs p s0).
  destruct (distsq_frac_spec (coords istep) (cell istep) pbc natoms s0 i j Hi Hj) as (_ & _ & ->). reflexivity.
Qed.
Lemma traj_exists coords cell pbc nstep natoms : exists res, distances_traj coords cell pbc nstep natoms res.
Proof.
  destruct (private_runs eqbt nstep (traj_body coords cell pbc natoms) (fun _ => 0) [(seq 0 nstep, Scratch (fun _ => 0) (fun _ => 0) (fun _ => 0))]) as (c & _ & _ & H).
  - cbn. rewrite app_nil_r. apply Permutation_refl.
  - exists (pmem c). exists (fun _ => 0). exact H.
Qed.

(** Without private(...): the first thread can store what the second one has computed. *)
Lemma noprivate_wrong coords cell pbc natoms : exists res, distances_traj_noprivate coords cell pbc 2 natoms res /\
  forall i j, (i < natoms)%nat -> (j < natoms)%nat -> res (0%nat, (i, j)) = texpected coords cell pbc (1%nat, (i, j)).
Proof.
  set (p := fun t => distsq_frac (coords t) (cell t) pbc natoms).
  set (q := fun t => map (fun ij => Put (t, ij) (fun s => sqrt (dsq s ij))) (loop_ji natoms) : list (instr keyt scratch R)).
  set (s0 := Scratch (fun _ => 0) (fun _ => 0) (fun _ => 0)). set (m0 := (fun _ => 0) : keyt -> R).
  set (s1 := runs (p 1%nat) (runs (p 0%nat) s0)). set (m1 := snd (run eqbt (q 0%nat) s1 m0)).
  assert (Lq : forall t s m, fst (run eqbt (q t) s m) = s).
  { intros t s m. unfold q. revert m. induction (loop_ji natoms) as [|x L IH]; intros m; [reflexivity|]. cbn. apply IH. }
  exists (snd (run eqbt (q 1%nat) s1 m1)). split.
  - exists m0. exists [[0%nat]; [1%nat]], s0, (SConfig (snd (run eqbt (q 1%nat) s1 m1)) s1 [[]; []]).
    split; [apply Permutation_refl|]. split; [|split; [repeat constructor|reflexivity]].
    cbn [map flat_map]. rewrite !app_nil_r. unfold traj_body. fold (p 0%nat) (p 1%nat) (q 0%nat) (q 1%nat).
    eapply ssteps_trans; [exact (ssteps_prefix eqbt (map Loc (p 0%nat)) (q 0%nat) m0 s0 [] [map Loc (p 1%nat) ++ q 1%nat])|].
    assert (RL : forall p s (m : keyt -> R), run eqbt (map Loc p) s m = (runs p s, m)).
    { intros pp s m. rewrite <- (app_nil_r (map Loc pp)). now rewrite run_locs. }
    rewrite !RL. cbn [fst snd app].
    eapply ssteps_trans; [exact (ssteps_prefix eqbt (map Loc (p 1%nat)) (q 1%nat) m0 (runs (p 0%nat) s0) [q 0%nat] [])|].
    rewrite !RL. cbn [fst snd app]. fold s1.
    eapply ssteps_trans; [pose proof (ssteps_prefix eqbt (q 0%nat) [] m0 s1 [] [q 1%nat]) as H; rewrite app_nil_r in H; exact H|].
    rewrite Lq. fold m1. cbn [app].
    pose proof (ssteps_prefix eqbt (q 1%nat) [] m1 s1 [[]] []) as H. rewrite app_nil_r in H. rewrite Lq in H. exact H.
  - intros i j Hi Hj. unfold q. rewrite (run_puts eqbt eqbt_spec (fun ij => (1%nat, ij)) (fun ij s => sqrt (dsq s ij))).
    assert (Z : forall L a, fold_left (fun a x => if eqbt (0%nat, (i, j)) (1%nat, x) then sqrt (dsq s1 x) else a) L a = a) by (induction L; auto).
    rewrite Z. unfold m1, q. rewrite (run_puts eqbt eqbt_spec (fun ij => (0%nat, ij)) (fun ij s => sqrt (dsq s ij))). apply fold_hit.
    + intros ij _ E. apply eqbt_spec in E. injection E as <-. unfold s1, p.
      destruct (distsq_frac_spec (coords 1%nat) (cell 1%nat) pbc natoms (runs (distsq_frac (coords 0%nat) (cell 0%nat) pbc natoms) s0) i j Hi Hj) as (_ & _ & ->). reflexivity.
    + apply existsb_exists. exists (i, j). split; [apply in_loop_ji; auto|]. now apply eqbt_spec.
Qed.

(** flib.distsq *)
Lemma sumto_spec n f : sumto n f = fold_right Rplus 0 (map f (seq 0 n)).
Proof. unfold sumto. apply fold_symmetric; intros; ring. Qed.
Lemma distsq_spec x nx ndimx y ny ndimy res : distsq x nx ndimx y ny ndimy res ->
  if (ndimx =? ndimy)%nat then exists d, res = Some d /\ forall i j, (i < nx)%nat -> (j < ny)%nat ->
    d (i, j) = fold_right Rplus 0 (map (fun k => (x i k - y j k) ^ 2) (seq 0 ndimx)) else res = None.
Proof.
  unfold distsq. destruct (ndimx =? ndimy)%nat; [|auto]. intros (d0 & d & H & ->). exists d. split; [reflexivity|]. intros i j Hi Hj.
  set (own := fun k : key2 => if (fst k <? nx)%nat then snd k else ny).
  assert (OK : iteration_ok eqb2 own ny (distsq_body x y nx ndimx) (fun k => sumto ndimx (fun c => (x (fst k) c - y (snd k) c) * (x (fst k) c - y (snd k) c)))).
  { split.
    - intros t o k Ho (g & ->). unfold distsq_body in Ho. apply in_map_iff in Ho. destruct Ho as (ii & E & Hii). injection E as <- _.
      apply in_seq in Hii. unfold own. cbn [fst snd]. destruct (Nat.ltb_spec ii nx); lia.
    - intros t s m [i' j'] Ht. unfold own. cbn [fst snd]. destruct (Nat.ltb_spec i' nx) as [L|]; [|lia]. intros ->. unfold distsq_body.
      rewrite (run_puts eqb2 eqb2_spec (fun ii => (ii, t)) (fun ii _ => sumto ndimx (fun k => (x ii k - y t k) * (x ii k - y t k)))).
      apply fold_hit.
      + intros ii _ E. apply eqb2_spec in E. injection E as <-. reflexivity.
      + apply existsb_exists. exists i'. split; [apply in_seq; lia|]. now apply eqb2_spec. }
  rewrite (private_spec eqb2 eqb2_spec own ny _ _ _ _ OK H). unfold own. cbn [fst snd].
  rewrite (proj2 (Nat.ltb_lt _ _) Hi), (proj2 (Nat.ltb_lt _ _) Hj). rewrite sumto_spec. f_equal. apply map_ext. intros; ring.
Qed.
Lemma distsq_exists x nx ndim y ny : exists d, distsq x nx ndim y ny ndim (Some d).
Proof.
  unfold distsq. rewrite Nat.eqb_refl.
  destruct (private_runs eqb2 ny (distsq_body x y nx ndim) (fun _ => 0) [(seq 0 ny, tt)]) as (c & _ & _ & H).
  - cbn. rewrite app_nil_r. apply Permutation_refl.
  - exists (pmem c), (fun _ => 0), (pmem c). auto.
Qed.

(** Distances without pbc are a metric *)
Lemma norm_triangle u v : norm (vadd u v) <= norm u + norm v.
Proof.
  pose proof (sqrt_pos (dot u u)) as P1. pose proof (sqrt_pos (dot v v)) as P2.
  pose proof (sqrt_sqrt _ (dot_pos u)) as S1. pose proof (sqrt_sqrt _ (dot_pos v)) as S2.
  pose proof (cauchy u v) as C. unfold norm in *. apply Rsqr_incr_0_var; [|lra].
  rewrite Rsqr_sqrt by apply dot_pos. unfold Rsqr.
  replace (dot (vadd u v) (vadd u v)) with (dot u u + 2 * dot u v + dot v v) by (unfold dot, vadd; cbn; ring).
  pose proof (Rle_abs (dot u v)). nra.
Qed.
Lemma vecmat_add u v c : vecmat (vadd u v) c = vadd (vecmat u c) (vecmat v c).
Proof. unfold vecmat, vadd, Vec3.scale. cbn. f_equal; ring. Qed.
Lemma norm_opp v : norm (Vec (- vx v) (- vy v) (- vz v)) = norm v.
Proof. unfold norm. f_equal. unfold dot. cbn. ring. Qed.
