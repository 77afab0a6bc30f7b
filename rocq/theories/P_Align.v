(** C74: align_cart and center_on_atom. *)
From Coq Require Import Reals List Arith ZArith String Bool Lra Lia.
From Verif Require Import Vec3 Cells CellsProofs Signal TrajStat Align AlignSpec AlignProofs.
Import ListNotations.
Local Open Scope list_scope.
Local Open Scope R_scope.
Local Notation length := List.length.

(** The new axes: cart as it is, otherwise the normalised x and y and their cross product,
    where x and y can be given by three points. A zero vector or only one of x and y is refused. *)
Definition axes_of (x y : vec) : mat := Mat (scale (/ norm x) x) (scale (/ norm y) y) (cross (scale (/ norm x) x) (scale (/ norm y) y)).
Lemma norm_zero x : norm x = 0 <-> x = Vec 0 0 0.
Proof.
  split.
  - intros H. unfold norm in H. apply sqrt_eq_0 in H; [|unfold dot; nra]. destruct x as [a b c]. unfold dot in H. cbn in H.
    assert (a = 0) by nra. assert (b = 0) by nra. assert (c = 0) by nra. now subst.
  - intros ->. unfold norm, dot. cbn. replace (0 * 0 + 0 * 0 + 0 * 0) with 0 by ring. apply sqrt_0.
Qed.
Theorem C74_axes V (o : obj V) x y vecs ind cart :
  new_axes V o (Args x y vecs ind (Some cart)) = Some cart /\
  (forall x y, x <> Vec 0 0 0 -> y <> Vec 0 0 0 -> new_axes V o (Args (Some x) (Some y) vecs ind None) = Some (axes_of x y)) /\
  (forall x y, x = Vec 0 0 0 \/ y = Vec 0 0 0 -> new_axes V o (Args (Some x) (Some y) vecs ind None) = None) /\
  (forall x, new_axes V o (Args (Some x) None vecs ind None) = None /\ new_axes V o (Args None (Some x) vecs ind None) = None) /\
  (forall v, new_axes V o (Args None None (Some v) None None) = new_axes V o (Args (Some (vsub (rb v) (ra v))) (Some (vsub (rc v) (ra v))) None None None)) /\
  (forall x t f i j k u v w, is_traj V o = true -> coords V o = Some x -> nth_error x t = Some f -> nth_error f i = Some u -> nth_error f j = Some v -> nth_error f k = Some w ->
     new_axes V o (Args None None vecs (Some [Z.of_nat t; Z.of_nat i; Z.of_nat j; Z.of_nat k]) None) = new_axes V o (Args None None (Some (Mat u v w)) None None)) /\
  (forall f i j k u v w, is_traj V o = false -> coords V o = Some [f] -> nth_error f i = Some u -> nth_error f j = Some v -> nth_error f k = Some w ->
     new_axes V o (Args None None vecs (Some [Z.of_nat i; Z.of_nat j; Z.of_nat k]) None) = new_axes V o (Args None None (Some (Mat u v w)) None None)).
Proof.
  assert (G : forall A (l : list A) i a, nth_error l i = Some a -> get (Z.of_nat i) l = Some a).
  { intros A l i a H. assert (i < length l)%nat by (apply nth_error_Some; congruence). unfold get.
    destruct (Z.leb_spec (- Z.of_nat (length l)) (Z.of_nat i)); [|lia]. destruct (Z.ltb_spec (Z.of_nat i) (Z.of_nat (length l))); [|lia].
    cbn [andb]. destruct (Z.ltb_spec (Z.of_nat i) 0); [lia|]. now rewrite Nat2Z.id. }
  split; [reflexivity|]. split; [|split; [|split; [|split; [|split]]]].
  - intros a b Ha Hb. unfold new_axes. cbn. destruct (Req_EM_T (norm a) 0) as [E|_]; [apply norm_zero in E; contradiction|].
    destruct (Req_EM_T (norm b) 0) as [E|_]; [apply norm_zero in E; contradiction|]. reflexivity.
  - intros a b H. unfold new_axes. cbn. destruct (Req_EM_T (norm a) 0) as [|Ea]; [reflexivity|].
    destruct (Req_EM_T (norm b) 0) as [|Eb]; [reflexivity|]. destruct H as [-> | ->]; exfalso; [apply Ea|apply Eb]; now apply norm_zero.
  - intros a. split; reflexivity.
  - intros v. reflexivity.
  - intros q t f i j k u v w T X Ht Hi Hj Hk. unfold new_axes, three_points. cbn [arg_cart arg_x arg_y arg_indices arg_vecs]. rewrite T, X. cbn [bind].
    rewrite (G _ _ _ _ Ht). cbn [bind]. rewrite (G _ _ _ _ Hi), (G _ _ _ _ Hj), (G _ _ _ _ Hk). reflexivity.
  - intros f i j k u v w T X Hi Hj Hk. unfold new_axes, three_points. cbn [arg_cart arg_x arg_y arg_indices arg_vecs]. rewrite T, X. cbn [bind].
    change (get 0 [f]) with (Some f). cbn [bind]. rewrite (G _ _ _ _ Hi), (G _ _ _ _ Hj), (G _ _ _ _ Hk). reflexivity.
Qed.

(** Whatever is accepted: all vectors are replaced by their components along the new axes,
    fractional coordinates and symbols stay, everything else is dropped. *)
Theorem C74_align V (o r : obj V) a eps c s h x : align_cart V o a eps = Some r -> new_axes V o a = Some c ->
  coords_frac V o = Some s -> cell V o = Some h -> frames_cart s h x ->
  is_traj V r = is_traj V o /\ coords_frac V r = Some s /\ symbols V r = symbols V o /\
  cell V r = Some (map (fun m => Mat (components c (ra m)) (components c (rb m)) (components c (rc m))) h) /\
  coords V r = Some (map (map (components c)) x) /\
  timestep V r = None /\ velocity V r = None /\ forall n, other V r n = None.
Proof.
  intros H A S C F. apply frames_cart_fun in F. subst x. unfold align_cart in H. rewrite A in H. cbn [bind] in H. destruct (orthogonal_check eps c); [|discriminate].
  cbn [negb] in H. rewrite S, C in H. cbn [bind] in H. destruct (symbols V o) as [sy|] eqn:Sy; [|discriminate]. cbn [bind] in H.
  unfold set_all in H. cbn in H. injection H as <-. cbn. rewrite to_coords_turn. repeat split; auto.
Qed.
Theorem C74_align_defined V (o : obj V) a eps : (exists r, align_cart V o a eps = Some r) <->
  (exists c, new_axes V o a = Some c /\ orthogonal_check eps c = true) /\ coords_frac V o <> None /\ symbols V o <> None /\ cell V o <> None.
Proof.
  unfold align_cart. destruct (new_axes V o a) as [c|]; cbn [bind].
  - destruct (orthogonal_check eps c) eqn:E; cbn [negb].
    + destruct (coords_frac V o), (symbols V o), (cell V o); cbn [bind]; (split; [intros (r & H); try discriminate H|intros (_ & H1 & H2 & H3); try congruence]).
      * repeat split; try discriminate. exists c. now split.
      * unfold set_all. cbn. eexists. reflexivity.
    + split; [intros (r & H); discriminate|]. intros ((c' & H & H') & _). injection H as <-. congruence.
  - split; [intros (r & H); discriminate|]. intros ((c' & H & H') & _). discriminate.
Qed.
(** Orthonormal axes pass every check. All distances, all scalar products of cell vectors, and
    so the lattice constants and the volume, stay what they were. *)
Theorem C74_align_orthonormal V (o : obj V) a eps c : orthonormal c -> new_axes V o a = Some c ->
  coords_frac V o <> None -> symbols V o <> None -> cell V o <> None ->
  exists r, align_cart V o a eps = Some r /\
  (forall u v, distance2 (components c u) (components c v) = distance2 u v) /\
  (forall u v, dot (components c u) (components c v) = dot u v) /\
  forall h h', cell V o = Some h -> cell V r = Some h' -> map cell2cc h' = map cell2cc h /\ map volume_cell h' = map volume_cell h.
Proof.
  intros O A S Y C. destruct (proj2 (C74_align_defined V o a eps)) as (r & H).
  { repeat split; auto. exists c. split; [exact A|]. now apply check_orthonormal. }
  exists r. split; [exact H|]. split; [|split].
  - intros u v. unfold distance2. rewrite <- components_sub. now apply components_dot.
  - intros. now apply components_dot.
  - intros h h' Eh Eh'. unfold align_cart in H. rewrite A in H. cbn [bind] in H. destruct (orthogonal_check eps c); [|discriminate]. cbn [negb] in H.
    destruct (coords_frac V o); [|congruence]. destruct (symbols V o); [|congruence]. rewrite Eh in H. cbn [bind] in H. unfold set_all in H. cbn in H.
    injection H as <-. cbn in Eh'. injection Eh' as <-. rewrite !map_map.
    split; apply map_ext; intros m; apply turn_cc; exact O.
Qed.
Lemma unscale u : norm u <> 0 -> u = scale (norm u) (scale (/ norm u) u).
Proof. intros N. set (n := norm u) in *. clearbody n. destruct u as [a b c]. unfold scale. cbn. f_equal; field; exact N. Qed.
(** x and y at a right angle give orthonormal right handed axes; the points that define them
    end up on the x and the y axis. *)
Theorem C74_align_points v0 v1 v2 : let x := vsub v1 v0 in let y := vsub v2 v0 in x <> Vec 0 0 0 -> y <> Vec 0 0 0 -> dot x y = 0 ->
  orthonormal (axes_of x y) /\ det (axes_of x y) = 1 /\
  vsub (components (axes_of x y) v1) (components (axes_of x y) v0) = Vec (norm x) 0 0 /\
  vsub (components (axes_of x y) v2) (components (axes_of x y) v0) = Vec 0 (norm y) 0.
Proof.
  intros x y Hx Hy D. assert (Nx : norm x <> 0) by (intros E; apply Hx, norm_zero, E). assert (Ny : norm y <> 0) by (intros E; apply Hy, norm_zero, E).
  pose proof (unit_of x Nx) as U. pose proof (unit_of y Ny) as W.
  assert (P : dot (scale (/ norm x) x) (scale (/ norm y) y) = 0).
  { replace (dot (scale (/ norm x) x) (scale (/ norm y) y)) with (/ norm x * / norm y * dot x y) by (unfold dot, scale; cbn; ring). rewrite D. ring. }
  set (a := scale (/ norm x) x) in *. set (b := scale (/ norm y) y) in *.
  assert (X : dot (cross a b) (cross a b) = 1).
  { assert (E : dot (cross a b) (cross a b) = dot a a * dot b b - dot a b * dot a b) by (unfold dot, cross; cbn; ring). rewrite E, U, W, P. ring. }
  assert (Z1 : dot a (cross a b) = 0) by (unfold dot, cross; cbn; ring). assert (Z2 : dot b (cross a b) = 0) by (unfold dot, cross; cbn; ring).
  assert (Ex : x = scale (norm x) a) by (apply unscale; exact Nx). assert (Ey : y = scale (norm y) b) by (apply unscale; exact Ny).
  assert (L : forall s u w, dot (scale s u) w = s * dot u w) by (intros; unfold dot, scale; cbn; ring).
  assert (Y : forall u w, dot u w = dot w u) by (intros; unfold dot; ring).
  split; [|split; [|split]].
  - unfold orthonormal, axes_of. fold a b. cbn [ra rb rc]. repeat split; assumption.
  - unfold axes_of, det. fold a b. cbn [ra rb rc].
    assert (E : dot a (cross b (cross a b)) = dot a a * dot b b - dot a b * dot a b) by (unfold dot, cross; cbn; ring). rewrite E, U, W, P. ring.
  - rewrite <- components_sub. change (vsub v1 v0) with x. unfold components, axes_of. fold a b. cbn [ra rb rc].
    f_equal; rewrite Ex at 1; rewrite L, ?U, ?P, ?Z1; ring.
  - rewrite <- components_sub. change (vsub v2 v0) with y. unfold components, axes_of. fold a b. cbn [ra rb rc].
    f_equal; rewrite Ey at 1; rewrite L, ?W, ?Z2, ?(Y b a), ?P; ring.
Qed.
(** The check lets pass axes that are orthonormal up to eps and numpy's relative tolerance. *)
Theorem C74_check V (o r : obj V) a eps c : 0 < eps -> new_axes V o a = Some c -> align_cart V o a eps = Some r ->
  forall i j u v, (i < 3)%nat -> (j < 3)%nat -> nth_error [ra c; rb c; rc c] i = Some u -> nth_error [ra c; rb c; rc c] j = Some v ->
  Rabs (dot u v - (if Nat.eqb i j then 1 else 0)) <= norm u * (sqrt 3 * eps + / 100000 * norm v).
Proof.
  intros He A H i j u v Hi Hj Hu Hv. assert (K : orthogonal_check eps c = true).
  { unfold align_cart in H. rewrite A in H. cbn [bind] in H. destruct (orthogonal_check eps c); [reflexivity|discriminate]. }
  pose proof (check_bound eps c He K i j Hi Hj) as B.
  assert (row c i = u /\ row c j = v) as [E1 E2] by (destruct i as [|[|[|]]], j as [|[|[|]]]; try lia; cbn in *; split; congruence).
  now rewrite <- E1, <- E2.
Qed.
(** With x and y: the angle is nearly right, and no distance changes by more than that. *)
Theorem C74_distortion V (o r : obj V) x y vecs ind eps : 0 < eps -> align_cart V o (Args (Some x) (Some y) vecs ind None) eps = Some r ->
  let d := sqrt 3 * eps + / 100000 in
  x <> Vec 0 0 0 /\ y <> Vec 0 0 0 /\ Rabs (dot x y) <= d * (norm x * norm y) /\
  (d < 1 -> forall u v, (1 - d) * distance2 u v <= distance2 (components (axes_of x y) u) (components (axes_of x y) v) <= (1 + d) * distance2 u v).
Proof.
  intros He H d. destruct (C74_axes V o (Some x) (Some y) vecs ind (Mat x x x)) as (_ & A1 & A2 & _).
  assert (Nx : x <> Vec 0 0 0) by (intros E; unfold align_cart in H; rewrite (A2 x y (or_introl E)) in H; discriminate).
  assert (Ny : y <> Vec 0 0 0) by (intros E; unfold align_cart in H; rewrite (A2 x y (or_intror E)) in H; discriminate).
  assert (Nx' : norm x <> 0) by (intros E; apply Nx, norm_zero, E). assert (Ny' : norm y <> 0) by (intros E; apply Ny, norm_zero, E).
  pose proof (unit_of x Nx') as U. pose proof (unit_of y Ny') as W.
  pose proof (C74_check V o r _ eps (axes_of x y) He (A1 x y Nx Ny) H 0 1 _ _ ltac:(lia) ltac:(lia) eq_refl eq_refl) as B.
  unfold axes_of in B. cbn [ra rb Nat.eqb] in B. set (a := scale (/ norm x) x) in *. set (b := scale (/ norm y) y) in *.
  assert (N1 : norm a = 1) by (unfold norm; rewrite U; apply sqrt_1). assert (N2 : norm b = 1) by (unfold norm; rewrite W; apply sqrt_1).
  rewrite N1, N2, Rminus_0_r, Rmult_1_l, Rmult_1_r in B. fold d in B.
  assert (Px : 0 < norm x) by (pose proof (sqrt_pos (dot x x)) as Q; fold (norm x) in Q; lra).
  assert (Py : 0 < norm y) by (pose proof (sqrt_pos (dot y y)) as Q; fold (norm y) in Q; lra).
  split; [exact Nx|]. split; [exact Ny|]. split.
  - replace (dot x y) with (dot a b * (norm x * norm y)) by (unfold a, b, dot, scale; cbn; field; auto).
    rewrite Rabs_mult, (Rabs_pos_eq (norm x * norm y)) by nra. apply Rmult_le_compat_r; [nra|exact B].
  - intros Hd u v. unfold distance2. rewrite <- components_sub. set (w := vsub u v).
    destruct (distortion a b w U W ltac:(lra)) as [D1 D2]. fold a b. unfold axes_of. fold a b. assert (0 <= dot w w) by (unfold dot; nra).
    split; [eapply Rle_trans; [|exact D1]|eapply Rle_trans; [exact D2|]]; apply Rmult_le_compat_r; lra.
Qed.
(** Without the check oblique x and y are taken and distances change, and the cart argument
    may be a mirror. *)
Theorem C74_unchecked_refuted : exists (o r : obj unit) x y u, align_cart unit o (Args (Some x) (Some y) None None None) 0 = Some r /\
  x <> Vec 0 0 0 /\ y <> Vec 0 0 0 /\ distance2 (components (axes_of x y) u) (components (axes_of x y) (Vec 0 0 0)) <> distance2 u (Vec 0 0 0).
Proof.
  set (h := Mat (Vec 1 0 0) (Vec 0 1 0) (Vec 0 0 1)). set (o := Obj unit false (Some [[Vec 0 0 0]]) (Some [[Vec 0 0 0]]) (Some [h]) (Some ["H"%string]) None None (fun _ => None)).
  set (x := Vec 1 0 0). assert (Nx : x <> Vec 0 0 0) by (unfold x; intros E; injection E as E; lra).
  destruct (proj2 (C74_align_defined unit o (Args (Some x) (Some x) None None None) 0)) as (r & H).
  { split; [|repeat split; discriminate]. exists (axes_of x x). split; [now apply (C74_axes unit o None None None None h)|].
    unfold orthogonal_check. destruct (Rlt_dec 0 0); [lra|reflexivity]. }
  exists o, r, x, x, x. split; [exact H|]. split; [exact Nx|]. split; [exact Nx|].
  assert (N : norm x = 1) by (unfold norm, dot, x; cbn; replace (1 * 1 + 0 * 0 + 0 * 0) with 1 by ring; apply sqrt_1).
  unfold distance2, components, axes_of, vsub, scale, cross, dot. rewrite N. unfold x. cbn. rewrite Rinv_1. lra.
Qed.
Theorem C74_mirror_refuted : exists (o r : obj unit) cart s h h', align_cart unit o (Args None None None None (Some cart)) (/ 100000) = Some r /\
  cell unit o = Some [h] /\ cell unit r = Some [h'] /\ coords_frac unit o = Some [s] /\ det h = 1 /\ det h' = -1.
Proof.
  set (h := Mat (Vec 1 0 0) (Vec 0 1 0) (Vec 0 0 1)). set (c := Mat (Vec 1 0 0) (Vec 0 1 0) (Vec 0 0 (-1))).
  set (o := Obj unit false (Some [[Vec 0 0 0]]) (Some [[Vec 0 0 0]]) (Some [h]) (Some ["H"%string]) None None (fun _ => None)).
  destruct (C74_align_orthonormal unit o (Args None None None None (Some c)) (/ 100000) c) as (r & H & _); try discriminate; try reflexivity.
  { unfold orthonormal, dot, c. cbn. repeat split; lra. }
  exists o, r, c, [Vec 0 0 0], h, (turn_cell c h). split; [exact H|]. split; [reflexivity|].
  destruct (C74_align unit o r (Args None None None None (Some c)) (/ 100000) c [[Vec 0 0 0]] [h] _ H eq_refl eq_refl eq_refl (frames_cart_iff [[Vec 0 0 0]] [h] eq_refl)) as (_ & _ & _ & C & _).
  split; [exact C|]. split; [reflexivity|]. rewrite det_turn. unfold det, dot, cross, h, c. cbn. split; lra.
Qed.
(** Aligning twice is aligning once along the axes given in the new coordinates. *)
Theorem C74_align_twice V (o r r2 : obj V) c c' x2 eps eps' : align_cart V o (Args None None None None (Some c)) eps = Some r ->
  align_cart V r (Args None None None None (Some c')) eps' = Some r2 -> (forall s h, coords_frac V o = Some s -> cell V o = Some h -> length s = length h) ->
  coords V r2 = Some x2 -> exists s h x, coords_frac V o = Some s /\ cell V o = Some h /\ frames_cart s h x /\ x2 = map (map (fun v => components c' (components c v))) x.
Proof.
  intros H H' L E. destruct (proj1 (C74_align_defined V o _ eps) (ex_intro _ r H)) as (_ & S & Y & C).
  destruct (coords_frac V o) as [s|] eqn:Es; [|congruence]. destruct (cell V o) as [h|] eqn:Eh; [|congruence]. specialize (L s h eq_refl eq_refl).
  destruct (C74_align V o r (Args None None None None (Some c)) eps c s h _ H eq_refl Es Eh (frames_cart_iff s h L)) as (_ & S1 & _ & C1 & X1 & _).
  fold (turn_cell c) in C1. change (fun m => Mat (components c (ra m)) (components c (rb m)) (components c (rc m))) with (turn_cell c) in C1.
  destruct (C74_align V r r2 (Args None None None None (Some c')) eps' c' s _ _ H' eq_refl S1 C1 (frames_cart_iff s _ ltac:(rewrite map_length; exact L))) as (_ & _ & _ & _ & X2 & _).
  exists s, h, (to_coords s h). split; [reflexivity|]. split; [reflexivity|]. split; [now apply frames_cart_iff|].
  rewrite X2 in E. injection E as <-. rewrite to_coords_turn, map_map. apply map_ext. intros f. rewrite map_map. reflexivity.
Qed.

(** *** center_on_atom *)
Lemma all_frames_nth {A B} (g : A -> option B) l m : all_frames g l = Some m -> length m = length l /\
  forall t a, nth_error l t = Some a -> exists b, g a = Some b /\ nth_error m t = Some b.
Proof.
  revert m. induction l as [|a l IH]; cbn; intros m H.
  - injection H as <-. split; [reflexivity|]. intros t a E. destruct t; discriminate.
  - destruct (g a) as [b|] eqn:G; [|discriminate]. cbn in H. destruct (all_frames g l) as [m'|]; [|discriminate]. cbn in H. injection H as <-.
    destruct (IH m' eq_refl) as [L K]. split; [cbn; congruence|]. intros [|t] a' E; cbn in *; [injection E as <-; eauto|now apply K].
Qed.
Lemma all_frames_none {A B} (g : A -> option B) l : all_frames g l = None <-> exists a, In a l /\ g a = None.
Proof.
  induction l as [|a l IH]; cbn; [split; [discriminate|intros (a & [] & _)]|]. destruct (g a) as [b|] eqn:G; cbn.
  - destruct (all_frames g l) as [m|]; cbn.
    + split; [discriminate|]. intros (x & [<- | Hx] & Gx); [congruence|]. assert (Some m = None) by (apply IH; eauto). discriminate.
    + split; [intros _|reflexivity]. destruct (proj1 IH eq_refl) as (x & Hx & Gx). eauto.
  - split; [intros _; eauto|reflexivity].
Qed.
Definition center : vec := Vec (1/2) (1/2) (1/2).
Theorem C74_center V (o r o' : obj V) idx copy s : center_on_atom V o (Some idx) copy = (Some r, o') -> coords_frac V o = Some s ->
  exists s', coords_frac V r = Some s' /\ length s' = length s /\
  (forall t f, nth_error s t = Some f -> exists f', nth_error s' t = Some f' /\ length f' = length f /\ get idx f' = Some center /\
     (forall i j u v, nth_error f i = Some u -> nth_error f j = Some v -> exists u' v', nth_error f' i = Some u' /\ nth_error f' j = Some v' /\ vsub u' v' = vsub u v)) /\
  (forall h, cell V o = Some h -> length s = length h -> exists x, coords V r = Some x /\ frames_cart s' h x) /\
  cell V r = cell V o /\ symbols V r = symbols V o /\ timestep V r = timestep V o /\ is_traj V r = is_traj V o /\ (forall n, other V r n = other V o n) /\
  o' = (if copy then o else r).
Proof.
  intros H Es. unfold center_on_atom in H. cbn [set_coords coords_frac] in H. rewrite Es in H. cbn [bind] in H.
  destruct (all_frames (center_frame idx) s) as [s'|] eqn:F; [|discriminate].
  destruct (set_all V (set_frac V (set_coords V o None) s')) as [r'|] eqn:SA; [|discriminate]. injection H as <- <-.
  assert (R : is_traj V r' = is_traj V o /\ coords_frac V r' = Some s' /\ coords V r' = bind (cell V o) (fun h => Some (to_coords s' h)) /\ cell V r' = cell V o /\ symbols V r' = symbols V o /\ timestep V r' = timestep V o /\ other V r' = other V o).
  { unfold set_all in SA. cbn -[velocity_traj] in SA. destruct o as [tr fr co ce sy ts ve ot]. cbn -[velocity_traj] in *. destruct ve as [v|].
    - injection SA as <-. cbn. destruct ce; auto 10.
    - destruct ce as [h|]; cbn -[velocity_traj] in *; [|injection SA as <-; cbn; auto 10]. destruct ts as [dt|]; [|injection SA as <-; cbn; auto 10].
      destruct tr; [|injection SA as <-; cbn; auto 10]. destruct (velocity_traj _ _ _ _); [|discriminate]. injection SA as <-. cbn. auto 10. }
  destruct R as (R1 & R2 & R3 & R4 & R5 & R6 & R7). destruct (all_frames_nth _ _ _ F) as [L K].
  exists s'. split; [exact R2|]. split; [exact L|]. split; [|split; [|rewrite R7; auto 10]].
  - intros t f Ht. destruct (K t f Ht) as (f' & G & N). exists f'. split; [exact N|]. unfold center_frame in G.
    destruct (get idx f) as [c|] eqn:C; [|discriminate]. cbn in G. injection G as <-. split; [apply map_length|]. split.
    + unfold get in *. rewrite map_length. destruct (_ && _); [|discriminate]. rewrite nth_error_map, C. cbn. unfold vadd, vsub, center. cbn. do 2 f_equal; ring.
    + intros i j u v Hi Hj. rewrite !nth_error_map, Hi, Hj. cbn. do 2 eexists. split; [reflexivity|]. split; [reflexivity|]. unfold vadd, vsub. cbn. f_equal; ring.
  - intros h Eh Lh. exists (to_coords s' h). rewrite R3, Eh. cbn. split; [reflexivity|]. apply frames_cart_iff. congruence.
Qed.
(** Refused: no index, no fractional coordinates, an index outside of -natoms ... natoms-1. *)
Theorem C74_center_refused V (o : obj V) idx copy s n : coords_frac V o = Some s -> (forall f, In f s -> length f = n) -> s <> [] ->
  velocity V o <> None \/ timestep V o = None \/ (3 <= length s)%nat /\ (forall h, cell V o = Some h -> length h = length s) ->
  (fst (center_on_atom V o (Some idx) copy) = None <-> (idx < - Z.of_nat n \/ Z.of_nat n <= idx)%Z).
Proof.
  intros Es Ln Ne Hv. unfold center_on_atom. cbn [set_coords coords_frac]. rewrite Es. cbn [bind].
  assert (B : all_frames (center_frame idx) s = None <-> (idx < - Z.of_nat n \/ Z.of_nat n <= idx)%Z).
  { assert (G : forall f, In f s -> (center_frame idx f = None <-> (idx < - Z.of_nat n \/ Z.of_nat n <= idx)%Z)).
    { intros f Hf. rewrite <- (Ln f Hf). unfold center_frame, get. destruct (Z.leb_spec (- Z.of_nat (length f)) idx), (Z.ltb_spec idx (Z.of_nat (length f))); cbn [andb].
      - split; [|lia]. intros E. exfalso. destruct (nth_error f _) eqn:X; [discriminate|]. apply nth_error_None in X. destruct (Z.ltb_spec idx 0); lia.
      - split; [lia|reflexivity].
      - split; [lia|reflexivity].
      - split; [lia|reflexivity]. }
    rewrite all_frames_none. split; [intros (f & Hf & E); now apply (G f Hf)|]. intros E. destruct s as [|f s]; [congruence|]. exists f. split; [now left|]. apply G; [now left|exact E]. }
  destruct (all_frames (center_frame idx) s) as [s'|] eqn:F; [|rewrite <- B; cbn; tauto].
  assert (S : exists r, set_all V (set_frac V (set_coords V o None) s') = Some r).
  { unfold set_all. cbn -[velocity_traj]. destruct (velocity V o) as [v|]; [eexists; reflexivity|]. destruct (cell V o) as [h|]; [|eexists; reflexivity].
    destruct (timestep V o) as [dt|]; [|eexists; reflexivity]. destruct (is_traj V o); [|eexists; reflexivity].
    destruct Hv as [Hv|[Hv|[Hv Hh]]]; [congruence|discriminate|].
    assert (L : length (to_coords s' h) = length s).
    { pose proof (proj1 (all_frames_nth _ _ _ F)) as L. specialize (Hh h eq_refl). unfold to_coords. clear -L Hh. revert h s Hh L.
      induction s' as [|f s' IH]; intros [|c h] [|g s] Hh L; cbn in *; try discriminate; try lia. f_equal. apply (IH h s); lia. }
    destruct (velocity_traj _ _ _ _) as [v|] eqn:E; [eexists; reflexivity|]. exfalso. unfold velocity_traj in E. cbn [Z.eqb negb] in E.
    destruct (central dt _) as [|q qs] eqn:Ec; [|discriminate]. apply (f_equal (@List.length _)) in Ec. cbn [List.length] in Ec.
    assert (Lz : forall A B C (g : A -> B -> C) l m, length (zip_with g l m) = Nat.min (length l) (length m)).
    { clear. intros A B C g l. induction l as [|a l IH]; intros [|b m]; cbn; auto. }
    unfold central in Ec. rewrite Lz, skipn_length, firstn_length, map_length, L in Ec. lia. }
  destruct S as (r & ->). cbn. rewrite <- B. split; discriminate.
Qed.
(** With copy=False a refused call still has changed its argument: the coords are gone. *)
Theorem C74_center_failed_inplace V (o : obj V) idx s : coords_frac V o = Some s -> (exists f, In f s /\ (idx < - Z.of_nat (length f) \/ Z.of_nat (length f) <= idx)%Z) ->
  center_on_atom V o (Some idx) true = (None, o) /\ exists o', center_on_atom V o (Some idx) false = (None, o') /\ coords V o' = None.
Proof.
  intros Es (f & Hf & B). unfold center_on_atom. cbn [set_coords coords_frac]. rewrite Es. cbn [bind].
  assert (F : all_frames (center_frame idx) s = None).
  { apply all_frames_none. exists f. split; [exact Hf|]. unfold center_frame, get.
    destruct (Z.leb_spec (- Z.of_nat (length f)) idx), (Z.ltb_spec idx (Z.of_nat (length f))); cbn; try reflexivity. lia. }
  rewrite F. split; [reflexivity|]. eexists. split; reflexivity.
Qed.
(** In a trajectory the velocities are not those of the new coordinates. *)
Theorem C74_center_velocity_refuted : exists (o r o' : obj unit) v x,
  center_on_atom unit o (Some 0%Z) true = (Some r, o') /\ timestep unit o = Some 1 /\ coords unit r = Some x /\
  (exists x0, coords unit o = Some x0 /\ velocity_traj (map in_memory x0) 1 0 true = velocity unit o) /\
  velocity unit r = Some v /\ velocity_traj (map in_memory x) 1 0 true <> Some v.
Proof.
  set (h := Mat (Vec 1 0 0) (Vec 0 1 0) (Vec 0 0 1)). set (s := [[Vec 0 0 0]; [Vec 1 0 0]; [Vec 2 0 0]]).
  set (vel := [[1; 0; 0]; [1; 0; 0]; [1; 0; 0]]).
  set (o := Obj unit true (Some s) (Some s) (Some [h; h; h]) (Some ["H"%string]) (Some 1) (Some vel) (fun _ => None)).
  eexists o, _, _, vel, _. split; [reflexivity|]. split; [reflexivity|]. split; [reflexivity|]. split; [|split; [reflexivity|]].
  - exists s. split; [reflexivity|]. unfold velocity_traj, central, in_memory. cbn. unfold vel. apply (f_equal Some). repeat (apply (f_equal2 cons); [|]); try reflexivity; field.
  - unfold velocity_traj, central, in_memory, vel. cbn. intros E. injection E as E _. lra.
Qed.

(** Aligning water: the hydrogen atoms come to lie on the x and y axes. *)
Example C74_case : exists r, align_cart unit
    (Obj unit false (Some [[Vec 0 0 0; Vec 0 (1/2) 0; Vec (-1/4) 0 0]]) (Some [[Vec 0 0 0; Vec 0 5 0; Vec (-5/2) 0 0]])
       (Some [Mat (Vec 10 0 0) (Vec 0 10 0) (Vec 0 0 10)]) (Some ["O"; "H"; "H"]%string) None None (fun _ => None))
    (Args None None None (Some [0; 1; -1]%Z) None) (/ 100000) = Some r /\
  coords unit r = Some [[Vec 0 0 0; Vec 5 0 0; Vec 0 (5/2) 0]].
Proof.
  set (o := Obj _ _ _ _ _ _ _ _ _). set (a := Args _ _ _ _ _). set (x := Vec 0 5 0). set (y := Vec (-5/2) 0 0).
  assert (A : new_axes unit o a = Some (axes_of x y)).
  { transitivity (new_axes unit o (Args (Some x) (Some y) None None None)).
    - unfold new_axes. cbn. change (Pos.to_nat 1) with 1%nat. change (Pos.to_nat 2) with 2%nat. cbn. replace (vsub (Vec 0 5 0) (Vec 0 0 0)) with x by (unfold vsub, x; cbn; f_equal; ring).
      replace (vsub (Vec (-5/2) 0 0) (Vec 0 0 0)) with y by (unfold vsub, y; cbn; f_equal; ring). reflexivity.
    - apply (C74_axes unit o None None None None (Mat x x x)); unfold x, y; intros E; [injection E as E; lra|injection E as E; lra]. }
  assert (Nx : norm x = 5) by (unfold norm, dot, x; cbn; replace (0 * 0 + 5 * 5 + 0 * 0) with (5 * 5) by ring; apply sqrt_square; lra).
  assert (Ny : norm y = 5/2) by (unfold norm, dot, y; cbn; replace (-5/2 * (-5/2) + 0 * 0 + 0 * 0) with (5/2 * (5/2)) by field; apply sqrt_square; lra).
  assert (O : orthonormal (axes_of x y)).
  { pose proof (C74_align_points (Vec 0 0 0) x y) as P. cbv zeta in P.
    replace (vsub x (Vec 0 0 0)) with x in P by (unfold vsub, x; cbn; f_equal; ring). replace (vsub y (Vec 0 0 0)) with y in P by (unfold vsub, y; cbn; f_equal; ring).
    apply P; [unfold x; intros E; injection E as E; lra|unfold y; intros E; injection E as E; lra|unfold x, y, dot; cbn; field]. }
  destruct (C74_align_orthonormal unit o a (/ 100000) _ O A) as (r & H & _); try discriminate. exists r. split; [exact H|].
  destruct (C74_align unit o r a _ _ [[Vec 0 0 0; Vec 0 (1/2) 0; Vec (-1/4) 0 0]] [Mat (Vec 10 0 0) (Vec 0 10 0) (Vec 0 0 10)] _ H A eq_refl eq_refl
    (frames_cart_iff [[Vec 0 0 0; Vec 0 (1/2) 0; Vec (-1/4) 0 0]] [Mat (Vec 10 0 0) (Vec 0 10 0) (Vec 0 0 10)] eq_refl)) as (_ & _ & _ & _ & X & _). rewrite X.
  unfold axes_of. rewrite Nx, Ny. unfold to_coords, components, vecmat, vadd, scale, cross, dot, x, y. cbn.
  apply (f_equal Some). apply (f_equal2 cons); [|reflexivity]. repeat (apply (f_equal2 cons); [|]); try reflexivity; f_equal; field.
Qed.

Print Assumptions C74_axes.
Print Assumptions C74_align.
Print Assumptions C74_align_defined.
Print Assumptions C74_align_orthonormal.
Print Assumptions C74_align_points.
Print Assumptions C74_check.
Print Assumptions C74_distortion.
Print Assumptions C74_unchecked_refuted.
Print Assumptions C74_mirror_refuted.
Print Assumptions C74_align_twice.
Print Assumptions C74_center.
Print Assumptions C74_center_refused.
Print Assumptions C74_center_failed_inplace.
Print Assumptions C74_center_velocity_refuted.
