(** C53: k-paths. *)
From Coq Require Import Reals List Arith Lia Lra.
From Verif Require Import Kpath KpathSpec KpathProofs.
Import ListNotations.
Local Open Scope R_scope.

(** C53: for every list of vertices of the same dimension and every N >= 1, whatever [np.empty]
    holds, the path has N*(K-1)+1 points. *)
Theorem C53_length :
  forall M vecs N junk, same_dim M vecs -> (1 <= N)%nat -> vecs <> [] ->
  length junk = (N * (length vecs - 1) + 1)%nat ->
  exists p, kpath junk vecs N = Some p /\ length p = (N * (length vecs - 1) + 1)%nat.
Proof.
  intros M vecs N junk D HN NE L. destruct (kpath_ok M vecs N junk D HN NE L) as (p & E & Lp & _).
  exists p. auto.
Qed.

(** C53: vertex i is the point with index i*N. *)
Theorem C53_vertices :
  forall M vecs N junk p, same_dim M vecs -> (1 <= N)%nat ->
  length junk = (N * (length vecs - 1) + 1)%nat -> kpath junk vecs N = Some p ->
  forall i, (i < length vecs)%nat -> nth (i * N) p [] = nth i vecs [].
Proof.
  intros M vecs N junk p D HN L E i I.
  assert (NE : vecs <> []) by (intros ->; cbn in I; lia).
  destruct (Nat.eq_dec i (length vecs - 1)) as [->|ne].
  - destruct (kpath_ok M vecs N junk D HN NE L) as (p' & E' & _ & _ & H).
    rewrite E in E'. injection E' as <-. rewrite Nat.mul_comm. exact H.
  - rewrite <- (Nat.add_0_r (i * N)).
    rewrite (kpath_edge M vecs N junk p i 0 D HN L E) by lia.
    replace (INR 0 / INR N) with 0; [apply between_0|].
    cbn. field. apply not_0_INR. lia.
Qed.

(** C53: between two vertices the points are on the straight line, at equal steps. *)
Theorem C53_linear :
  forall M vecs N junk p, same_dim M vecs -> (1 <= N)%nat ->
  length junk = (N * (length vecs - 1) + 1)%nat -> kpath junk vecs N = Some p ->
  forall i j, (i < length vecs - 1)%nat -> (j <= N)%nat ->
  nth (i * N + j) p [] = between (nth i vecs []) (nth (S i) vecs []) (INR j / INR N).
Proof. intros M vecs N junk p D HN L E i j I J. exact (kpath_edge M vecs N junk p i j D HN L E I J). Qed.

(** C53: the path norm of point i is the length of the first point plus the distances on the way; it
    never decreases. *)
Theorem C53_path_norm :
  forall M ks, same_dim M ks -> ks <> [] ->
  exists l, get_path_norm ks = Some l /\ length l = length ks /\
    (forall i, (i < length ks)%nat ->
      nth i l 0 = length_of (nth 0 ks []) + total (fun m => distance (nth m ks []) (nth (S m) ks [])) i) /\
    (forall i j, (i <= j < length ks)%nat -> nth i l 0 <= nth j l 0).
Proof.
  intros M ks D NE. destruct (path_norm_ok M ks D NE) as (l & E & L & H).
  exists l. split; [exact E|]. split; [exact L|]. split; [exact H|].
  intros i j (I & J). rewrite !H by lia. apply Rplus_le_compat_l. apply total_mono; [|exact I].
  intro m. apply distance_nonneg.
Qed.

(** C53: the special points sit at the same path norm on the fine path and on the list of vertices, so
    that labels and bands are drawn at the same place. *)
Theorem C53_labels :
  forall M vecs N junk p lv lp, same_dim M vecs -> (1 <= N)%nat ->
  length junk = (N * (length vecs - 1) + 1)%nat -> kpath junk vecs N = Some p ->
  get_path_norm vecs = Some lv -> get_path_norm p = Some lp ->
  forall i, (i < length vecs)%nat -> nth (i * N) lp 0 = nth i lv 0.
Proof.
  intros M vecs N junk p lv lp D HN L E Ev Ep i I.
  assert (NE : vecs <> []) by (intros ->; cbn in I; lia).
  destruct (kpath_ok M vecs N junk D HN NE L) as (p' & E' & Lp & Hp & Hl).
  rewrite E in E'. injection E' as <-.
  assert (Dp : same_dim M p).
  { unfold same_dim. apply Forall_forall. intros x X.
    destruct (In_nth p x [] X) as (j & J & <-). rewrite Lp in J.
    destruct (Nat.eq_dec j (N * (length vecs - 1))) as [->|ne].
    - rewrite Hl. apply (same_dim_nth M); auto. lia.
    - assert (j < N * (length vecs - 1))%nat as J'
        by (clear - J ne; set (q := (N * (length vecs - 1))%nat) in *; clearbody q; lia).
      rewrite Hp by exact J'. unfold path_point. rewrite between_length.
      apply (same_dim_nth M); auto.
      apply Nat.div_lt_upper_bound; nia. }
  assert (NEp : p <> []) by (intros ->; rewrite Nat.add_1_r in Lp; discriminate Lp).
  destruct (path_norm_ok M vecs D NE) as (lv' & Ev' & Lv & Hv).
  destruct (path_norm_ok M p Dp NEp) as (lp' & Ep' & Lp' & Hp').
  rewrite Ev in Ev'. injection Ev' as <-. rewrite Ep in Ep'. injection Ep' as <-.
  rewrite Hv by exact I. rewrite Hp' by nia.
  f_equal.
  - f_equal. exact (C53_vertices M vecs N junk p D HN L E 0%nat ltac:(lia)).
  - apply (kpath_norm_vertex M vecs N junk p D HN L E). lia.
Qed.

(** C53: [vlinspace] with the end point included. *)
Theorem C53_vlinspace :
  forall a b num, length a = length b -> (2 <= num)%nat ->
  exists rows, vlinspace a b num true = Some rows /\ length rows = num /\
    forall j, (j < num)%nat -> nth j rows [] = between a b (INR j / INR (num - 1)).
Proof. exact vlinspace_endpoint. Qed.
(** Points of different dimensions and no points at all are refused. *)
Theorem C53_vlinspace_refused a b num endpoint : vlinspace a b num endpoint = None <-> length a <> length b \/ num = 0%nat.
Proof.
  unfold vlinspace. destruct (Nat.eqb_spec (length a) (length b)); cbn [negb]; [|tauto].
  destruct num; cbn; [tauto|]. split; [discriminate|]. intros [H|H]; [contradiction|discriminate].
Qed.

(** ** A concrete path: three points, two steps per edge *)
Definition tri : list (list R) := [[0; 0; 0]; [1; 0; 0]; [1; 2; 0]].

Example C53_dim : same_dim 3 tri.
Proof. repeat constructor. Qed.

Example C53_case :
  exists p, kpath (repeat [7; 7; 7] 5) tri 2 = Some p /\ length p = 5%nat /\
    nth 1 p [] = [1/2; 0; 0] /\ nth 2 p [] = [1; 0; 0] /\ nth 3 p [] = [1; 1; 0] /\ nth 4 p [] = [1; 2; 0].
Proof.
  destruct (C53_length 3 tri 2 (repeat [7; 7; 7] 5) C53_dim ltac:(lia) ltac:(discriminate) eq_refl)
    as (p & E & L).
  exists p. split; [exact E|]. split; [exact L|].
  pose proof (C53_linear 3 tri 2 (repeat [7; 7; 7] 5) p C53_dim ltac:(lia) eq_refl E) as H.
  pose proof (C53_vertices 3 tri 2 (repeat [7; 7; 7] 5) p C53_dim ltac:(lia) eq_refl E) as V.
  split; [|split; [|split]].
  - change 1%nat with (0 * 2 + 1)%nat at 1. rewrite (H 0 1)%nat by (cbn; lia). cbn. repeat (f_equal; try lra).
  - exact (V 1%nat ltac:(cbn; lia)).
  - change 3%nat with (1 * 2 + 1)%nat at 1. rewrite (H 1 1)%nat by (cbn; lia). cbn. repeat (f_equal; try lra).
  - exact (V 2%nat ltac:(cbn; lia)).
Qed.

Print Assumptions C53_length.
Print Assumptions C53_vertices.
Print Assumptions C53_linear.
Print Assumptions C53_path_norm.
Print Assumptions C53_labels.
Print Assumptions C53_vlinspace.
Print Assumptions C53_vlinspace_refused.
