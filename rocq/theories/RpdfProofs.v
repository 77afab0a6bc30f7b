From Coq Require Import String Reals List ZArith Bool Arith Lia Lra Permutation FinFun.
From Verif Require Import Vec3 Wrap WrapSpec WrapProofs Traj Rpdf RpdfSpec.
Import ListNotations.
Local Open Scope list_scope.
Local Open Scope R_scope.
Local Notation length := List.length.

(** ** Geometry *)
Lemma cauchy u v : Rabs (dot u v) <= norm u * norm v.
Proof.
  unfold norm. rewrite <- sqrt_mult_alt by apply dot_pos. rewrite <- sqrt_Rsqr_abs. apply sqrt_le_1_alt.
  unfold Rsqr, dot. destruct u as [a b c], v as [x y z]. cbn.
  pose proof (Rle_0_sqr (a * y - b * x)). pose proof (Rle_0_sqr (a * z - c * x)). pose proof (Rle_0_sqr (b * z - c * y)).
  unfold Rsqr in *. nra.
Qed.
Lemma norm_pos u : 0 <= norm u.
Proof. apply sqrt_pos. Qed.
Lemma norm_zero u : norm u = 0 -> dot u u = 0.
Proof. intros H. apply sqrt_eq_0 in H; [exact H|apply dot_pos]. Qed.
Lemma cross_nz u v w : dot u (cross v w) <> 0 -> 0 < norm (cross v w).
Proof.
  intros H. destruct (norm_pos (cross v w)) as [E|E]; [exact E|]. exfalso. apply H.
  pose proof (cauchy u (cross v w)) as C. rewrite <- E, Rmult_0_r in C. pose proof (Rabs_pos (dot u (cross v w))).
  destruct (Req_dec (dot u (cross v w)) 0) as [Z|Z]; [exact Z|]. apply Rabs_pos_lt in Z. lra.
Qed.
Lemma det_b c : dot (rb c) (cross (rc c) (ra c)) = det c.
Proof. unfold det, dot, cross. cbn. ring. Qed.
Lemma det_c c : dot (rc c) (cross (ra c) (rb c)) = det c.
Proof. unfold det, dot, cross. cbn. ring. Qed.
Lemma proj_a s c : dot (vecmat s c) (cross (rb c) (rc c)) = vx s * det c.
Proof. unfold det, dot, cross, vecmat, vadd, scale. cbn. ring. Qed.
Lemma proj_b s c : dot (vecmat s c) (cross (rc c) (ra c)) = vy s * det c.
Proof. unfold det, dot, cross, vecmat, vadd, scale. cbn. ring. Qed.
Lemma proj_c s c : dot (vecmat s c) (cross (ra c) (rb c)) = vz s * det c.
Proof. unfold det, dot, cross, vecmat, vadd, scale. cbn. ring. Qed.
Lemma smith_widths c : rmax_smith c = 1 / 2 * Rmin (Rmin (width_a c) (width_b c)) (width_c c).
Proof. unfold rmax_smith, width_a, width_b, width_c. now rewrite det_b, det_c. Qed.
Lemma bound_comp x d n N r : 0 < n -> Rabs (x * d) <= N * n -> N < r -> d <> 0 -> r <= 1 / 2 * (Rabs d / n) -> Rabs x < 1 / 2.
Proof.
  intros Hn H HN Hd Hr. rewrite Rabs_mult in H. apply Rabs_pos_lt in Hd.
  assert (Rabs x * Rabs d < 1 / 2 * Rabs d); [|nra].
  apply Rle_lt_trans with (N * n); [exact H|]. apply Rlt_le_trans with (r * n); [nra|].
  replace (1 / 2 * Rabs d) with (1 / 2 * (Rabs d / n) * n) by (field; lra). nra.
Qed.
Lemma smith_components c s : det c <> 0 -> norm (vecmat s c) < rmax_smith c -> Rabs (vx s) < 1 / 2 /\ Rabs (vy s) < 1 / 2 /\ Rabs (vz s) < 1 / 2.
Proof.
  intros Hd H. rewrite smith_widths in H.
  pose proof (Rmin_l (Rmin (width_a c) (width_b c)) (width_c c)) as M1. pose proof (Rmin_r (Rmin (width_a c) (width_b c)) (width_c c)) as M2.
  pose proof (Rmin_l (width_a c) (width_b c)) as M3. pose proof (Rmin_r (width_a c) (width_b c)) as M4.
  pose proof (cauchy (vecmat s c) (cross (rb c) (rc c))) as Ca. pose proof (cauchy (vecmat s c) (cross (rc c) (ra c))) as Cb.
  pose proof (cauchy (vecmat s c) (cross (ra c) (rb c))) as Cc. rewrite proj_a in Ca. rewrite proj_b in Cb. rewrite proj_c in Cc.
  assert (Na : 0 < norm (cross (rb c) (rc c))) by (apply (cross_nz (ra c)); exact Hd).
  assert (Nb : 0 < norm (cross (rc c) (ra c))) by (apply (cross_nz (rb c)); rewrite det_b; exact Hd).
  assert (Nc : 0 < norm (cross (ra c) (rb c))) by (apply (cross_nz (rc c)); rewrite det_c; exact Hd).
  set (m := Rmin (Rmin (width_a c) (width_b c)) (width_c c)) in *.
  split; [|split].
  - refine (bound_comp _ _ _ _ (1 / 2 * m) Na Ca H Hd _). unfold width_a in *. nra.
  - refine (bound_comp _ _ _ _ (1 / 2 * m) Nb Cb H Hd _). unfold width_b in *. nra.
  - refine (bound_comp _ _ _ _ (1 / 2 * m) Nc Cc H Hd _). unfold width_c in *. nra.
Qed.

(** ** The minimum image as a function *)
Definition wr (x : R) : R := x - IZR (Int_part (x + 1 / 2)).
Lemma wr_centred x : centred x (wr x).
Proof.
  unfold wr, centred. split; [exists (- Int_part (x + 1 / 2))%Z; rewrite opp_IZR; lra|].
  destruct (base_Int_part (x + 1 / 2)). lra.
Qed.
Definition wr3 (v : vec) : vec := Vec (wr (vx v)) (wr (vy v)) (wr (vz v)).
Lemma wr3_centred v : centred3 v (wr3 v).
Proof. split; [|split]; apply wr_centred. Qed.
Lemma centred3_unique v w w' : centred3 v w -> centred3 v w' -> w = w'.
Proof.
  intros (A & B & C) (A' & B' & C'). destruct w, w'. cbn in *. f_equal; eapply centred_unique; eassumption.
Qed.
Definition shift_of (s : vec) : shift := Shift (- Int_part (vx s + 1 / 2)) (- Int_part (vy s + 1 / 2)) (- Int_part (vz s + 1 / 2)).
Lemma wr3_shifted s : wr3 s = shifted s (shift_of s).
Proof. unfold wr3, shifted, shift_of, wr. cbn. rewrite !opp_IZR. f_equal; ring. Qed.
Lemma small_centred s n : Rabs (vx (shifted s n)) < 1 / 2 -> Rabs (vy (shifted s n)) < 1 / 2 -> Rabs (vz (shifted s n)) < 1 / 2 -> wr3 s = shifted s n.
Proof.
  intros A B C. apply (centred3_unique s); [apply wr3_centred|].
  assert (G : forall x k, Rabs (x + IZR k) < 1 / 2 -> centred x (x + IZR k)).
  { intros x k H. apply Rabs_def2 in H. split; [exists k; reflexivity|lra]. }
  split; [|split]; cbn in *; apply G; assumption.
Qed.
Lemma smith_found c s n : det c <> 0 -> norm (vecmat (shifted s n) c) < rmax_smith c -> wr3 s = shifted s n.
Proof. intros Hd H. destruct (smith_components c _ Hd H) as (A & B & C). now apply small_centred. Qed.
Lemma shifted_inj s n n' : shifted s n = shifted s n' -> n = n'.
Proof.
  destruct n, n'. unfold shifted. cbn. intros [= A B C]. f_equal; apply eq_IZR; lra.
Qed.

Lemma masked_while_mono cond d : forall f l r, masked_while cond d f l = Some r -> forall f', (f <= f')%nat -> masked_while cond d f' l = Some r.
Proof.
  induction f as [|f IH]; intros l r H f' L; [discriminate|]. destruct f' as [|f']; [lia|]. cbn in *.
  destruct (existsb cond l); [|exact H]. apply IH; [exact H|lia].
Qed.
Lemma mic_mono f l r f' : min_image_convention f l = Some r -> (f <= f')%nat -> min_image_convention f' l = Some r.
Proof.
  unfold min_image_convention. intros H L. destruct (masked_while (fun x => geb x (1 / 2)) (-1) f l) as [m|] eqn:E; [|discriminate].
  rewrite (masked_while_mono _ _ _ _ _ E _ L). now apply (masked_while_mono _ _ _ _ _ H).
Qed.
Lemma forall2_wr l r : Forall2 centred l r -> r = map wr l.
Proof.
  induction 1; cbn; [reflexivity|]. f_equal; [|exact IHForall2]. eapply centred_unique; [eassumption|apply wr_centred].
Qed.
Lemma mic_some f l r : min_image_convention f l = Some r -> r = map wr l.
Proof.
  intros H. destruct (min_image_spec l) as (n & r' & Hr & F). apply forall2_wr in F.
  apply (mic_mono _ _ _ (Nat.max f (S n))) in H; [|lia]. rewrite Hr in H by lia. congruence.
Qed.
Lemma mic_enough l : exists n, forall f, (n < f)%nat -> min_image_convention f l = Some (map wr l).
Proof.
  destruct (min_image_spec l) as (n & r' & Hr & F). apply forall2_wr in F. subst. eauto.
Qed.
Lemma regroup_wr l : regroup l (map wr (concat (map comps l))) = map wr3 l.
Proof. induction l as [|v l IH]; cbn; [reflexivity|]. f_equal. exact IH. Qed.
Lemma split_map (f : vec -> vec) l : split_steps l (map f (concat l)) = map (map f) l.
Proof.
  induction l as [|s l IH]; cbn; [reflexivity|]. rewrite map_app. f_equal.
  - rewrite firstn_app, map_length, Nat.sub_diag. cbn. rewrite app_nil_r. rewrite <- (map_length f s). apply firstn_all.
  - rewrite skipn_app, map_length, Nat.sub_diag. cbn. rewrite <- (map_length f s) at 1. rewrite skipn_all. exact IH.
Qed.
Definition distance (pbc : bool) (cell : mat) (s : vec) : R := norm (vecmat (if pbc then wr3 s else s) cell).
Definition step_dists (pbc : bool) (cell : mat) (q : list vec * list vec) : list R :=
  map (fun uv => distance pbc cell (vsub (fst uv) (snd uv))) (list_prod (fst q) (snd q)).
Lemma dists_some fuel pbc cell c0 c1 d : dists_all fuel pbc cell c0 c1 = Some d -> d = map (step_dists pbc cell) (combine c0 c1).
Proof.
  unfold dists_all, wrap_all, step_dists, distance, differences. destruct pbc.
  - destruct (min_image_convention _ _) as [l|] eqn:E; [|discriminate]. apply mic_some in E. subst l. intros [= <-].
    rewrite regroup_wr, split_map. rewrite !map_map. apply map_ext. intros q. now rewrite !map_map.
  - intros [= <-]. rewrite !map_map. apply map_ext. intros q. now rewrite !map_map.
Qed.
Lemma dists_enough pbc cell c0 c1 : exists n, forall fuel, (n < fuel)%nat -> exists d, dists_all fuel pbc cell c0 c1 = Some d.
Proof.
  unfold dists_all, wrap_all. destruct pbc; [|exists 0%nat; eauto].
  destruct (mic_enough (concat (map comps (concat (differences c0 c1))))) as (n & H). exists n. intros f L. rewrite (H f L). eauto.
Qed.

(** ** Counting *)
Lemma counts_filter {A} (P : A -> Prop) f l : (forall x, f x = true <-> P x) -> counts P l (length (filter f l)).
Proof.
  intros H. induction l as [|x l IH]; cbn; [constructor|]. destruct (f x) eqn:E.
  - cbn. constructor; [now apply H|exact IH].
  - constructor; [|exact IH]. intros Q. apply H in Q. congruence.
Qed.
Lemma counts_ext {A} (P Q : A -> Prop) l n : (forall x, In x l -> (P x <-> Q x)) -> counts P l n -> counts Q l n.
Proof.
  intros H C. induction C; [constructor| |].
  - constructor; [apply H; [now left|assumption]|]. apply IHC. intros; apply H; now right.
  - constructor; [intros Q'; apply H0; apply H; [now left|assumption]|]. apply IHC. intros; apply H; now right.
Qed.
Lemma counts_unique {A} (P : A -> Prop) l n n' : counts P l n -> counts P l n' -> n = n'.
Proof.
  intros C. revert n'. induction C; intros n' C'; inversion C'; subst; try contradiction; auto.
Qed.
Lemma filter_disjoint {A} (f g h : A -> bool) l : (forall x, In x l -> h x = f x || g x) -> (forall x, In x l -> f x = true -> g x = true -> False) ->
  (length (filter h l) = length (filter f l) + length (filter g l))%nat.
Proof.
  intros E D. induction l as [|x l IH]; cbn; [reflexivity|].
  rewrite E by now left. specialize (IH (fun y Hy => E y (or_intror Hy)) (fun y Hy => D y (or_intror Hy))).
  destruct (f x) eqn:F, (g x) eqn:G; cbn; try lia. exfalso. apply (D x); auto. now left.
Qed.
Lemma cumsum_nth l : forall acc k, (k < length l)%nat -> nth k (cumsum acc l) 0 = acc + sum (firstn (S k) l).
Proof.
  induction l as [|x l IH]; intros acc k H; cbn in H; [lia|]. destruct k; cbn [cumsum nth firstn sum]; [lra|].
  rewrite IH by lia. cbn [firstn sum]. lra.
Qed.
Lemma total_sum l : total l = sum l.
Proof.
  unfold total. assert (G : forall a, fold_left Rplus l a = a + sum l); [|rewrite G; lra].
  induction l as [|x l IH]; intros a; cbn; [lra|]. rewrite IH. lra.
Qed.
Lemma sum_snoc l x : sum (l ++ [x]) = sum l + x.
Proof. induction l; cbn; [lra|]. rewrite IHl. lra. Qed.
Lemma geb_t x y : y <= x -> geb x y = true. Proof. apply geb_spec. Qed.
Lemma ceil_spec x : x <= IZR (ceil x) < x + 1.
Proof. unfold ceil. rewrite opp_IZR. destruct (base_Int_part (- x)). lra. Qed.
Lemma nbins_last rmax dr : 0 < dr -> (2 <= nbins rmax dr)%nat -> rmax <= bin dr (nbins rmax dr - 1) < rmax + dr.
Proof.
  intros Hd H. unfold bin, nbins in *. destruct (ceil_spec ((rmax + dr) / dr)) as [A B].
  rewrite minus_INR by lia. rewrite INR_IZR_INZ, Z2Nat.id by lia. cbn.
  assert (E : (rmax + dr) / dr * dr = rmax + dr) by (field; lra).
  split; nra.
Qed.
Lemma bin_le dr k m : 0 < dr -> (k <= m)%nat -> bin dr k <= bin dr m.
Proof. intros H L. unfold bin. apply le_INR in L. nra. Qed.
Lemma bin_lt dr k : 0 < dr -> bin dr k < bin dr (S k).
Proof. intros H. unfold bin. rewrite S_INR. nra. Qed.

(** in bin [k], with all values before the last edge *)
Lemma in_bin_open dr nb k x : 0 < dr -> x < bin dr (nb - 1) -> (2 <= nb)%nat -> (k < nb - 1)%nat ->
  in_bin dr nb k x = geb x (bin dr k) && ltb x (bin dr (S k)).
Proof.
  intros Hd Hx Hn Hk. unfold in_bin. destruct (k =? nb - 2)%nat eqn:E; [|reflexivity]. apply Nat.eqb_eq in E. f_equal.
  replace (S k) with (nb - 1)%nat by lia. rewrite (proj2 (ltb_spec _ _) Hx). apply geb_spec. lra.
Qed.
Definition upto (dr : R) (k : nat) (x : R) : bool := geb x dr && ltb x (bin dr (S k)).
Lemma hist_cum dr nb d : 0 < dr -> (2 <= nb)%nat -> Forall (fun x => x < bin dr (nb - 1)) d ->
  forall k, (k < nb - 1)%nat -> sum (firstn (S k) (zero_first (histogram dr nb d))) = INR (length (filter (upto dr k) d)).
Proof.
  intros Hd Hn Hx. rewrite Forall_forall in Hx.
  assert (L : length (zero_first (histogram dr nb d)) = (nb - 1)%nat).
  { unfold histogram. destruct (nb - 1)%nat eqn:E; [lia|]. cbn. now rewrite map_length, seq_length. }
  induction k as [|k IH]; intros Hk.
  - unfold histogram. destruct (nb - 1)%nat eqn:E; [lia|]. cbn [seq map zero_first firstn sum].
    replace (filter (upto dr 0) d) with (@nil R); [cbn; lra|]. symmetry. clear -Hd. induction d as [|x d IH]; cbn; [reflexivity|].
    unfold upto at 1. destruct (geb x dr) eqn:E; cbn; [|exact IH]. destruct (ltb x (bin dr 1)) eqn:F; cbn; [|exact IH].
    apply geb_spec in E. apply ltb_spec in F. unfold bin in F. cbn in F. lra.
  -
    assert (F : firstn (S (S k)) (zero_first (histogram dr nb d)) = firstn (S k) (zero_first (histogram dr nb d)) ++ [nth (S k) (zero_first (histogram dr nb d)) 0]).
    { clear IH. revert L Hk. generalize (nb - 1)%nat as N. generalize (zero_first (histogram dr nb d)) as l. generalize (S k) as j. clear.
      intros j l. revert j. induction l as [|x l IH]; intros j N L H; cbn in L; [lia|]. destruct j; [reflexivity|].
      cbn [firstn nth app]. f_equal. apply (IH j (N - 1)%nat); lia. }
    rewrite F, sum_snoc, IH by lia. unfold histogram. destruct (nb - 1)%nat as [|N] eqn:E; [lia|]. cbn [seq map zero_first nth].
    rewrite (nth_indep _ 0 (INR (length (filter (in_bin dr nb 0) d)))) by (rewrite map_length, seq_length; lia).
    rewrite (map_nth (fun j => INR (length (filter (in_bin dr nb j) d)))), seq_nth by lia.
    rewrite <- plus_INR. f_equal. symmetry. apply filter_disjoint.
    + intros x Hi. specialize (Hx x Hi). rewrite in_bin_open by (rewrite ?E; auto; lia).
      unfold upto. change (1 + k)%nat with (S k).
      destruct (geb x dr) eqn:G1; cbn.
      * apply geb_spec in G1. destruct (ltb x (bin dr (S k))) eqn:G2; cbn.
        -- apply ltb_spec in G2. apply ltb_spec. pose proof (bin_lt dr (S k) Hd). lra.
        -- apply ltb_false in G2. rewrite (geb_t _ _ G2). reflexivity.
      * apply geb_false in G1. destruct (geb x (bin dr (S k))) eqn:G2; [|reflexivity]. apply geb_spec in G2.
        pose proof (bin_le dr 1 (S k) Hd ltac:(lia)) as B. unfold bin at 1 in B. cbn in B. lra.
    + intros x Hi. specialize (Hx x Hi). rewrite in_bin_open by (rewrite ?E; auto; lia).
      unfold upto. intros A B. apply andb_true_iff in A, B. destruct A as [_ A], B as [B _]. apply ltb_spec in A. apply geb_spec in B. change (1 + k)%nat with (S k) in B. lra.
Qed.

(** ** Selections *)
Definition selb (sy : list string) (m : amask1) (i : nat) : bool :=
  match m with
  | All => true
  | Bools l => match nth_error l i with Some b => b | None => false end
  | Name s => match nth_error sy i with Some x => String.eqb x s | None => false end
  end.
Lemma selb_spec sy m i : selb sy m i = true <-> selects sy m i.
Proof.
  destruct m; cbn; [tauto| |].
  - destruct (nth_error l i) as [[]|]; split; congruence.
  - destruct (nth_error sy i) as [x|]; [|split; congruence]. rewrite String.eqb_eq. split; congruence.
Qed.
Lemma nth_map_seq {A} (d : A) l : map (fun i => nth i l d) (seq 0 (length l)) = l.
Proof.
  induction l as [|x l IH]; cbn; [reflexivity|]. f_equal. rewrite <- seq_shift, map_map. exact IH.
Qed.
Lemma filter_map' {A B} (f : B -> bool) (g : A -> B) l : filter f (map g l) = map g (filter (fun x => f (g x)) l).
Proof. induction l; cbn; [reflexivity|]. destruct (f (g a)); cbn; now rewrite IHl. Qed.
Lemma pick_bools (d : vec) : forall row l, length l = length row ->
  map fst (filter snd (combine row l)) = map (fun i => nth i row d) (filter (fun i => match nth_error l i with Some b => b | None => false end) (seq 0 (length row))).
Proof.
  induction row as [|x row IH]; intros l E; [reflexivity|]. destruct l as [|b l]; [discriminate|].
  assert (F : forall f : nat -> bool, filter f (map S (seq 0 (length row))) = map S (filter (fun i => f (S i)) (seq 0 (length row)))).
  { intros f. apply filter_map'. }
  cbn [combine length seq filter nth_error]. rewrite <- seq_shift. rewrite F. cbn [nth_error].
  destruct b; cbn [snd]; cbn [map fst nth]; rewrite map_map; cbn [nth]; rewrite (IH l) by (cbn in E; lia); reflexivity.
Qed.
Lemma filter_true {A} (l : list A) : filter (fun _ => true) l = l.
Proof. induction l; cbn; congruence. Qed.
Lemma pick_sel sy m row out : length sy = length row -> pick_atoms (resolve sy m) row = Some out ->
  out = map (atom row) (filter (selb sy m) (seq 0 (length row))).
Proof.
  intros E. unfold atom. destruct m; cbn.
  - intros [= <-]. rewrite filter_true. symmetry. apply nth_map_seq.
  - destruct (Nat.eqb_spec (length l) (length row)) as [L|]; [|discriminate]. intros [= <-]. now apply pick_bools.
  - rewrite map_length. destruct (Nat.eqb_spec (length sy) (length row)) as [L|]; [|discriminate]. intros [= <-].
    rewrite (pick_bools origin) by (now rewrite map_length). f_equal. apply filter_ext. intros i. rewrite nth_error_map.
    unfold selb. destruct (nth_error sy i); reflexivity.
Qed.
Lemma pick_sel_total sy m row : length sy = length row -> (forall l, m = Bools l -> length l = length row) -> exists out, pick_atoms (resolve sy m) row = Some out.
Proof.
  intros E H. destruct m; cbn; [eauto| |].
  - rewrite (H l eq_refl), Nat.eqb_refl. eauto.
  - rewrite map_length, E, Nat.eqb_refl. eauto.
Qed.
Lemma opt_all_map {A B} (f : A -> option B) g l r : (forall x y, In x l -> f x = Some y -> y = g x) -> opt_all f l = Some r -> r = map g l.
Proof.
  revert r. induction l as [|x l IH]; intros r H; cbn; [congruence|]. destruct (f x) as [y|] eqn:E; [|discriminate].
  destruct (opt_all f l) as [r'|] eqn:E'; [|discriminate]. intros [= <-]. f_equal; [apply H; [now left|exact E]|].
  apply IH; [intros; apply H; [now right|assumption]|reflexivity].
Qed.
Lemma opt_all_total {A B} (f : A -> option B) l : (forall x, In x l -> exists y, f x = Some y) -> exists r, opt_all f l = Some r.
Proof.
  induction l as [|x l IH]; intros H; cbn; [eauto|]. destruct (H x (or_introl eq_refl)) as (y & ->).
  destruct IH as (r & ->); [intros; apply H; now right|]. eauto.
Qed.
Lemma coords_of_sel t sy m tm n s c : length sy = n -> pick_steps tm (coords_frac t) = Some s -> Forall (fun row => length row = n) s ->
  coords_of t (resolve sy m) tm = Some c -> c = map (fun row => map (atom row) (filter (selb sy m) (seq 0 n))) s.
Proof.
  intros L S F. unfold coords_of. rewrite S. apply opt_all_map. intros row out Hi P. rewrite Forall_forall in F. specialize (F _ Hi).
  apply pick_sel in P; [|lia]. now rewrite F in P.
Qed.
Lemma coords_of_total t sy m tm n s : length sy = n -> pick_steps tm (coords_frac t) = Some s -> Forall (fun row => length row = n) s ->
  (forall l, m = Bools l -> length l = n) -> coords_of t (resolve sy m) tm = Some (map (fun row => map (atom row) (filter (selb sy m) (seq 0 n))) s).
Proof.
  intros L S F B. destruct (coords_of t (resolve sy m) tm) as [c|] eqn:E; [f_equal; now apply (coords_of_sel t sy m tm n s c)|].
  unfold coords_of in E. rewrite S in E. destruct (opt_all_total (pick_atoms (resolve sy m)) s) as (r & R); [|congruence].
  intros row Hi. rewrite Forall_forall in F. specialize (F _ Hi). apply pick_sel_total; [lia|]. intros l El. rewrite (B l El). lia.
Qed.
Lemma prod_map {A B C D} (f : A -> B) (g : C -> D) l l' : list_prod (map f l) (map g l') = map (fun q => (f (fst q), g (snd q))) (list_prod l l').
Proof.
  induction l as [|x l IH]; cbn; [reflexivity|]. rewrite map_app, IH. f_equal. rewrite !map_map. reflexivity.
Qed.
Lemma filter_app' {A} (f : A -> bool) l l' : filter f (l ++ l') = filter f l ++ filter f l'.
Proof. induction l; cbn; [reflexivity|]. destruct (f a); cbn; now rewrite IHl. Qed.
Lemma filter_none {A} (f : A -> bool) l : (forall x, f x = false) -> filter f l = [].
Proof. intros H. induction l; cbn; [reflexivity|]. now rewrite H. Qed.
Lemma prod_filter {A B} (f : A -> bool) (g : B -> bool) l l' :
  list_prod (filter f l) (filter g l') = filter (fun q => f (fst q) && g (snd q)) (list_prod l l').
Proof.
  induction l as [|x l IH]; cbn; [reflexivity|]. rewrite filter_app', filter_map'. destruct (f x) eqn:E; cbn.
  - rewrite IH. f_equal. f_equal. apply filter_ext. intros y. cbn. now rewrite E.
  - rewrite (filter_none (fun y => f x && g y)); [exact IH|]. intros y. cbn. now rewrite E.
Qed.
Lemma filter_filter {A} (f g : A -> bool) l : filter f (filter g l) = filter (fun x => g x && f x) l.
Proof. induction l; cbn; [reflexivity|]. destruct (g a) eqn:E; cbn; [destruct (f a)|]; cbn; now rewrite IHl. Qed.

Lemma pick_length {B} (l l' : list B) a d k : length l = length l' -> length (pick l a d k) = length (pick l' a d k).
Proof.
  intros E. revert a. induction k as [|k IH]; intros a; cbn; [reflexivity|].
  destruct (nth_error l (Z.to_nat a)) eqn:E1, (nth_error l' (Z.to_nat a)) eqn:E2; cbn; rewrite ?IH; try reflexivity; exfalso.
  - apply nth_error_None in E2. assert (nth_error l (Z.to_nat a) <> None) by congruence. apply nth_error_Some in H. lia.
  - apply nth_error_None in E1. assert (nth_error l' (Z.to_nat a) <> None) by congruence. apply nth_error_Some in H. lia.
Qed.
Lemma pick_steps_length tm c c' s s' : length c = length c' -> pick_steps tm c = Some s -> pick_steps tm c' = Some s' -> length s = length s'.
Proof.
  intros E. destruct tm as [sl|i]; cbn.
  - unfold slice_list. rewrite <- E. destruct (slice_indices sl _) as [[[a b] d]|]; [|discriminate]. intros [= <-] [= <-]. now apply pick_length.
  - destruct (item_list i c); [|discriminate]. destruct (item_list i c'); [|discriminate]. cbn. now intros [= <-] [= <-].
Qed.

(** ** The result *)
Definition rmax_of (rmax : option R) (cell : mat) : R := match rmax with Some r => r | None => rmax_smith cell end.
Definition whole : tmask1 := TSlice (Slice None None None).
Definition tm_of (tm : option tmask1) : tmask1 := match tm with Some t => t | None => whole end.
Definition cutmask (r : R) (dmask : option (R -> bool)) (x : R) : R :=
  let y := if geb x r then 0 else x in match dmask with Some p => if p y then y else 0 | None => y end.
Definition dup_of (norm_vmd : bool) (d : list R) : R := if norm_vmd then INR (length (filter (fun x => ltb x (/ 10 ^ 15)) d)) else 0.
Lemma rpdf_inv fuel t0 t1 dr rmax m0 m1 tm dmask pbc vmd maxmem out :
  rpdf fuel [t0; t1] dr rmax (Some [m0; m1]) tm dmask pbc vmd maxmem = Some out ->
  exists r0 c0 r1 c1 cell cs volume vs,
    0 < dr /\ compatible t0 t1 = true /\
    coords_of t0 (resolve (symbols t0) m0) (tm_of tm) = Some (r0 :: c0) /\ coords_of t1 (resolve (symbols t0) m1) (tm_of tm) = Some (r1 :: c1) /\
    cells t0 = cell :: cs /\ volumes t0 = volume :: vs /\
    let r := rmax_of rmax cell in let nb := nbins r dr in
    (2 <= nb)%nat /\ length r0 <> 0%nat /\
    let dists := map (step_dists pbc cell) (combine (r0 :: c0) (r1 :: c1)) in
    let hists := map (fun d => zero_first (histogram dr nb (map (cutmask r dmask) d))) dists in
    let dups := map (dup_of vmd) dists in
    (forall dup, In dup dups -> INR (length r0) * INR (length r1) - dup <> 0) /\
    out = map (fun k =>
      (bin dr k + 1 / 2 * dr,
       total (map (fun hd => nth k (fst hd) 0 * (volume / (4 / 3 * PI * (bin dr (S k) ^ 3 - bin dr k ^ 3)) / (INR (length r0) * INR (length r1) - snd hd))) (combine hists dups)) / INR (length (r0 :: c0)),
       total (map (fun h => nth k (cumsum 0 h) 0 / INR (length r0)) hists) / INR (length (r0 :: c0)))) (seq 0 (nb - 1)).
Proof.
  unfold rpdf. destruct (Rle_dec dr 0) as [|Hdr]; [discriminate|].
  change (twice [t0; t1]) with [t0; t1]. change (twice [m0; m1]) with [m0; m1].
  change (length [t0; t1] =? 1)%nat with false. cbn [negb andb].
  destruct (compatible t0 t1) eqn:C; [|discriminate]. cbn [negb].
  fold (tm_of tm) whole.
  change (match tm with Some t => t | None => TSlice (Slice None None None) end) with (tm_of tm).
  destruct (coords_of t0 _ _) as [[|r0 c0]|] eqn:E0; try discriminate.
  destruct (coords_of t1 _ _) as [[|r1 c1]|] eqn:E1; try discriminate.
  destruct (cells t0) as [|cell cs] eqn:Ec; try discriminate. destruct (volumes t0) as [|volume vs] eqn:Ev; try discriminate.
  fold (rmax_of rmax cell). destruct (Nat.ltb_spec (nbins (rmax_of rmax cell) dr) 2) as [|Hn]; [discriminate|].
  destruct (Rlt_dec maxmem _); [discriminate|].
  destruct (dists_all fuel pbc cell (r0 :: c0) (r1 :: c1)) as [d|] eqn:D; [|discriminate]. apply dists_some in D.
  fold (dup_of vmd) in *. change (fun d0 => if vmd then INR (length (filter (fun x => ltb x (/ 10 ^ 15)) d0)) else 0) with (dup_of vmd).
  destruct (length r0 =? 0)%nat eqn:Z; [discriminate|]. cbn [orb].
  destruct (existsb _ _) eqn:X; [discriminate|]. intros [= <-].
  exists r0, c0, r1, c1, cell, cs, volume, vs. cbn zeta. rewrite <- D.
  split; [lra|]. split; [reflexivity|]. split; [reflexivity|]. split; [reflexivity|]. split; [reflexivity|]. split; [reflexivity|].
  split; [exact Hn|]. split; [now apply Nat.eqb_neq|]. split.
  - intros dup Hi Hz. assert (Y : existsb (fun dup => if Req_EM_T (INR (length r0) * INR (length r1) - dup) 0 then true else false) (map (dup_of vmd) d) = true).
    { apply existsb_exists. exists dup. split; [exact Hi|]. now destruct (Req_EM_T _ 0). }
    congruence.
  - assert (M : match dmask with Some p => map (map (fun x => if p x then x else 0)) (map (map (fun x => if geb x (rmax_of rmax cell) then 0 else x)) d) | None => map (map (fun x => if geb x (rmax_of rmax cell) then 0 else x)) d end
      = map (map (cutmask (rmax_of rmax cell) dmask)) d).
    { destruct dmask as [p|]; unfold cutmask; [rewrite map_map; apply map_ext; intros; rewrite map_map|]; reflexivity. }
    rewrite M, map_map. reflexivity.
Qed.
Lemma cut_upto r dmask dr k x : 0 < dr -> 0 <= x ->
  upto dr k (cutmask r dmask x) = true <-> dr <= x < Rmin (bin dr (S k)) r /\ kept dmask x.
Proof.
  intros Hd Hx. unfold upto, cutmask, kept. rewrite andb_true_iff, geb_spec, ltb_spec.
  destruct (geb x r) eqn:G.
  - apply geb_spec in G. pose proof (Rmin_r (bin dr (S k)) r). destruct dmask as [p|]; [destruct (p 0)|]; split; intros; lra.
  - apply geb_false in G. assert (E : x < Rmin (bin dr (S k)) r <-> x < bin dr (S k)).
    { split; intros; [eapply Rlt_le_trans; [eassumption|apply Rmin_l]|now apply Rmin_glb_lt]. }
    rewrite E. destruct dmask as [p|]; [destruct (p x) eqn:P|]; split; intros H; intuition (try congruence; lra).
Qed.
Lemma cut_below r dmask dr nb x : 0 < dr -> (2 <= nbins r dr)%nat -> nb = nbins r dr -> 0 <= x -> cutmask r dmask x < bin dr (nb - 1).
Proof.
  intros Hd Hn -> Hx. destruct (nbins_last r dr Hd Hn) as [A _].
  assert (P : 0 < bin dr (nbins r dr - 1)). { unfold bin. apply Rmult_lt_0_compat; [|exact Hd]. apply lt_0_INR. lia. }
  unfold cutmask. destruct (geb x r) eqn:G; [destruct dmask as [p|]; [destruct (p 0)|]; lra|]. apply geb_false in G.
  destruct dmask as [p|]; [destruct (p x)|]; lra.
Qed.
Lemma zf_len dr nb d : length (zero_first (histogram dr nb d)) = (nb - 1)%nat.
Proof. unfold histogram. destruct (nb - 1)%nat; [reflexivity|]. cbn. now rewrite map_length, seq_length. Qed.
Lemma cum_count r dmask dr d k : 0 < dr -> (2 <= nbins r dr)%nat -> (k < nbins r dr - 1)%nat -> Forall (fun x => 0 <= x) d ->
  nth k (cumsum 0 (zero_first (histogram dr (nbins r dr) (map (cutmask r dmask) d)))) 0 = INR (length (filter (fun x => upto dr k (cutmask r dmask x)) d)).
Proof.
  intros Hd Hn Hk Hp. rewrite cumsum_nth by (rewrite zf_len; exact Hk). rewrite hist_cum; auto.
  - rewrite filter_map', map_length. lra.
  - rewrite Forall_forall in Hp. apply Forall_forall. intros y Hy. apply in_map_iff in Hy. destruct Hy as (x & <- & Hx). apply cut_below; auto.
Qed.
Lemma distance_pos pbc cell s : 0 <= distance pbc cell s.
Proof. apply norm_pos. Qed.
Lemma step_pos pbc cell q : Forall (fun x => 0 <= x) (step_dists pbc cell q).
Proof. apply Forall_forall. intros x H. apply in_map_iff in H. destruct H as (y & <- & _). apply distance_pos. Qed.
(** the distances of one step, by pairs of atom numbers *)
Definition pairs (n : nat) : list (nat * nat) := list_prod (seq 0 n) (seq 0 n).
Lemma step_count pbc cell sy m0 m1 n a b f :
  length (filter f (step_dists pbc cell (map (atom a) (filter (selb sy m0) (seq 0 n)), map (atom b) (filter (selb sy m1) (seq 0 n))))) =
  length (filter (fun q => (selb sy m0 (fst q) && selb sy m1 (snd q)) && f (distance pbc cell (vsub (atom a (fst q)) (atom b (snd q))))) (pairs n)).
Proof.
  unfold step_dists, pairs. cbn [fst snd]. rewrite prod_map, prod_filter, map_map, filter_map', map_length, filter_filter. cbn [fst snd]. reflexivity.
Qed.
Lemma nth_error_map_seq {A} (f : nat -> A) n k x : nth_error (map f (seq 0 n)) k = Some x -> (k < n)%nat /\ x = f k.
Proof.
  intros H. assert (L : (k < n)%nat). { assert (nth_error (map f (seq 0 n)) k <> None) by congruence. apply nth_error_Some in H0. now rewrite map_length, seq_length in H0. }
  split; [exact L|]. rewrite nth_error_map in H. rewrite (nth_error_nth' _ 0%nat) in H by now rewrite seq_length. rewrite seq_nth in H by exact L. now injection H.
Qed.
Lemma mat_eqb_eq m n : mat_eqb m n = true -> m = n.
Proof.
  destruct m as [[? ? ?] [? ? ?] [? ? ?]], n as [[? ? ?] [? ? ?] [? ? ?]]. unfold mat_eqb, vec_eqb. cbn.
  repeat (destruct (Req_EM_T _ _); cbn; [|try discriminate]); intros; subst; try reflexivity; try discriminate.
Qed.

Definition found (pbc : bool) (cell : mat) (u v : vec) (P : R -> Prop) : Prop :=
  if pbc then exists n, shifted (vsub u v) n = wr3 (vsub u v) /\ P (image_distance cell u v n) else P (norm (vecmat (vsub u v) cell)).
Lemma found_distance pbc cell u v P : found pbc cell u v P <-> P (distance pbc cell (vsub u v)).
Proof.
  unfold found, distance. destruct pbc; [|tauto]. split.
  - intros (n & <- & H). exact H.
  - intros H. exists (shift_of (vsub u v)). rewrite <- wr3_shifted. split; [reflexivity|]. unfold image_distance. now rewrite <- wr3_shifted.
Qed.

Definition counted (pbc : bool) (cell : mat) (sy : list string) (m0 m1 : amask1) (n : nat) (P : R -> Prop) (q : list vec * list vec) (c : nat) : Prop :=
  counts (fun ij => selects sy m0 (fst ij) /\ selects sy m1 (snd ij) /\ P (distance pbc cell (vsub (atom (fst q) (fst ij)) (atom (snd q) (snd ij))))) (pairs n) c.
Lemma map_combine_map {A B C D E} (f : A -> B) (g : C -> D) (h : B * D -> E) l l' :
  map h (combine (map f l) (map g l')) = map (fun q => h (f (fst q), g (snd q))) (combine l l').
Proof. revert l'. induction l; intros [|x l']; cbn; [reflexivity..|]. now rewrite IHl. Qed.
Lemma number_integral_distance fuel t0 t1 dr rmax m0 m1 tm dmask pbc vmd maxmem n s0 s1 cell cs out :
  rpdf fuel [t0; t1] dr rmax (Some [m0; m1]) tm dmask pbc vmd maxmem = Some out ->
  cells t0 = cell :: cs -> length (symbols t0) = n ->
  pick_steps (tm_of tm) (coords_frac t0) = Some s0 -> pick_steps (tm_of tm) (coords_frac t1) = Some s1 ->
  Forall (fun row => length row = n) s0 -> Forall (fun row => length row = n) s1 ->
  length s0 = length s1 /\
  forall k rad g num, nth_error out k = Some (rad, g, num) ->
  rad = (INR k + 1 / 2) * dr /\
  exists N0 cnt, counts (selects (symbols t0) m0) (seq 0 n) N0 /\ N0 <> 0%nat /\
    Forall2 (counted pbc cell (symbols t0) m0 m1 n (fun d => dr <= d < Rmin (INR (S k) * dr) (rmax_of rmax cell) /\ kept dmask d)) (combine s0 s1) cnt /\
    num = sum (map (fun c => INR c / INR N0) cnt) / INR (length s0).
Proof.
  intros H Hc Hsy P0 P1 F0 F1. apply rpdf_inv in H.
  destruct H as (r0 & c0 & r1 & c1 & cell' & cs' & vol & vs & Hdr & Hcomp & E0 & E1 & Ec & Ev & Hn & Hr0 & Hdup & ->).
  rewrite Ec in Hc. injection Hc as -> ->.
  apply (coords_of_sel _ _ _ _ n s0) in E0; auto. apply (coords_of_sel _ _ _ _ n s1) in E1; auto.
  split. { apply (pick_steps_length (tm_of tm) (coords_frac t0) (coords_frac t1)); auto. unfold compatible in Hcomp. apply andb_true_iff in Hcomp. destruct Hcomp as [Hcomp _]. apply andb_true_iff in Hcomp. destruct Hcomp as [_ Hcomp]. now apply Nat.eqb_eq. }
  intros k rad g num Hk. apply nth_error_map_seq in Hk. destruct Hk as [Hk Hrow]. injection Hrow as -> -> ->.
  split; [unfold bin; lra|].
  assert (L0 : length r0 = length (filter (selb (symbols t0) m0) (seq 0 n))).
  { destruct s0; [discriminate|]. injection E0 as -> _. now rewrite map_length. }
  set (r := rmax_of rmax cell) in *.
  exists (length r0), (map (fun q => length (filter (fun x => upto dr k (cutmask r dmask x)) (step_dists pbc cell q))) (combine (r0 :: c0) (r1 :: c1))).
  split; [rewrite L0; apply counts_filter; intros; apply selb_spec|]. split; [exact Hr0|]. split.
  - rewrite E0, E1, map_combine_map. clear -Hdr. induction (combine s0 s1) as [|q l IH]; cbn [map]; constructor; [|exact IH].
    rewrite step_count. unfold counted. apply counts_filter. intros [i j]. cbn [fst snd]. rewrite !andb_true_iff, !selb_spec, cut_upto by (auto; apply distance_pos).
    unfold bin. tauto.
  - rewrite total_sum. rewrite !map_map. 
    apply (f_equal2 Rdiv); [apply (f_equal sum)|change (INR (length (r0 :: c0)) = INR (length s0)); rewrite E0; now rewrite map_length].
    cbn [combine map]. f_equal; [now rewrite cum_count by (auto; apply step_pos)|].
    apply map_ext. intros q. now rewrite cum_count by (auto; apply step_pos).
Qed.

(** ** Density and number integral *)
Lemma cumsum_step l k : (S k < length l)%nat -> nth (S k) (cumsum 0 l) 0 = nth k (cumsum 0 l) 0 + nth (S k) l 0.
Proof.
  assert (G : forall l acc k, (S k < length l)%nat -> nth (S k) (cumsum acc l) 0 = nth k (cumsum acc l) 0 + nth (S k) l 0); [|apply G].
  clear. induction l as [|x l IH]; intros acc k H; cbn in H; [lia|]. destruct k.
  - destruct l; cbn in *; [lia|lra].
  - cbn [cumsum nth]. rewrite IH by lia. reflexivity.
Qed.
Lemma cumsum_zero l : nth 0 (cumsum 0 l) 0 = nth 0 l 0.
Proof. destruct l; cbn; lra. Qed.
Lemma combine_zero {A} (l : list A) (f : A -> list R) (h : list R * R -> R) (g : A -> R) :
  map h (combine (map f l) (map g l)) = map (fun x => h (f x, g x)) l.
Proof. induction l; cbn; [reflexivity|]. now rewrite IHl. Qed.
Lemma sum_scale {A} (f : A -> R) c l : sum (map (fun x => c * f x) l) = c * sum (map f l).
Proof. induction l; cbn; [lra|]. rewrite IHl. lra. Qed.
Lemma sum_plus {A} (f g : A -> R) l : sum (map (fun x => f x + g x) l) = sum (map f l) + sum (map g l).
Proof. induction l; cbn; [lra|]. rewrite IHl. lra. Qed.
Lemma shell_pos dr k : 0 < dr -> 0 < ball (bin dr (S k)) - ball (bin dr k).
Proof.
  intros H. unfold ball. rewrite <- Rmult_minus_distr_l. apply Rmult_lt_0_compat; [pose proof PI_RGT_0; lra|].
  assert (A : 0 <= bin dr k) by (unfold bin; apply Rmult_le_pos; [apply pos_INR|lra]). pose proof (bin_lt dr k H).
  set (x := bin dr k) in *. set (y := bin dr (S k)) in *.
  replace (y ^ 3 - x ^ 3) with ((y - x) * (y * y + y * x + x * x)) by ring. apply Rmult_lt_0_compat; [lra|]. nra.
Qed.
Lemma density fuel t0 t1 dr rmax m0 m1 tm dmask pbc maxmem n s0 s1 vol vs out :
  rpdf fuel [t0; t1] dr rmax (Some [m0; m1]) tm dmask pbc false maxmem = Some out ->
  volumes t0 = vol :: vs -> vol <> 0 -> length (symbols t0) = n ->
  pick_steps (tm_of tm) (coords_frac t0) = Some s0 -> pick_steps (tm_of tm) (coords_frac t1) = Some s1 ->
  Forall (fun row => length row = n) s0 -> Forall (fun row => length row = n) s1 ->
  0 < dr /\ exists N1, counts (selects (symbols t0) m1) (seq 0 n) N1 /\ N1 <> 0%nat /\
  forall k rad g num, nth_error out k = Some (rad, g, num) ->
  num = (match k with O => 0 | S j => snd (nth j out (0, 0, 0)) end) + INR N1 / vol * g * (ball (INR (S k) * dr) - ball (INR k * dr)).
Proof.
  intros H Hv Hvol Hsy P0 P1 F0 F1. apply rpdf_inv in H.
  destruct H as (r0 & c0 & r1 & c1 & cell & cs & vol' & vs' & Hdr & Hcomp & E0 & E1 & Ec & Ev & Hn & Hr0 & Hdup & ->).
  rewrite Ev in Hv. injection Hv as -> ->.
  apply (coords_of_sel _ _ _ _ n s0) in E0; auto. apply (coords_of_sel _ _ _ _ n s1) in E1; auto.
  split; [exact Hdr|].
  assert (L1 : length r1 = length (filter (selb (symbols t0) m1) (seq 0 n))).
  { destruct s1; [discriminate|]. injection E1 as -> _. now rewrite map_length. }
  exists (length r1). split; [rewrite L1; apply counts_filter; intros; apply selb_spec|].
  assert (N1 : INR (length r1) <> 0).
  { intros Z. apply (Hdup 0); [|rewrite Z; lra]. cbn. now left. }
  split; [intros Z; apply N1; now rewrite Z|].
  assert (N0 : INR (length r0) <> 0) by (apply not_0_INR; exact Hr0).
  assert (NS : INR (length (r0 :: c0)) <> 0) by (apply not_0_INR; discriminate).
  set (r := rmax_of rmax cell) in *. set (D := combine (r0 :: c0) (r1 :: c1)) in *. set (NS' := INR (length (r0 :: c0))) in *.
  set (h := fun q => zero_first (histogram dr (nbins r dr) (map (cutmask r dmask) (step_dists pbc cell q)))).
  set (S0 := fun k => sum (map (fun q => nth k (h q) 0) D)). set (C0 := fun k => sum (map (fun q => nth k (cumsum 0 (h q)) 0) D)).
  set (gk := fun k => S0 k * (vol / (ball (bin dr (S k)) - ball (bin dr k)) / (INR (length r0) * INR (length r1))) / NS').
  set (nk := fun k => C0 k / INR (length r0) / NS').
  assert (E : forall k, total (map (fun hd => nth k (fst hd) 0 * (vol / (4 / 3 * PI * (bin dr (S k) ^ 3 - bin dr k ^ 3)) / (INR (length r0) * INR (length r1) - snd hd))) (combine (map (fun d => zero_first (histogram dr (nbins r dr) (map (cutmask r dmask) d))) (map (step_dists pbc cell) D)) (map (dup_of false) (map (step_dists pbc cell) D)))) / NS' = gk k).
  { intros k. unfold gk. f_equal. rewrite total_sum, !map_map, combine_zero. cbn [fst snd dup_of]. unfold S0. rewrite (Rmult_comm (sum _)), <- sum_scale.
    f_equal. apply map_ext. intros q. unfold ball. rewrite Rminus_0_r, <- Rmult_minus_distr_l. apply Rmult_comm. }
  assert (E' : forall k, total (map (fun h => nth k (cumsum 0 h) 0 / INR (length r0)) (map (fun d => zero_first (histogram dr (nbins r dr) (map (cutmask r dmask) d))) (map (step_dists pbc cell) D))) / NS' = nk k).
  { intros k. unfold nk. f_equal. rewrite total_sum, !map_map. unfold C0, Rdiv. rewrite (Rmult_comm (sum _)), <- sum_scale.
    f_equal. apply map_ext. intros q. apply Rmult_comm. }
  assert (E3 : forall k, (S k < nbins r dr - 1)%nat -> C0 (S k) = C0 k + S0 (S k)).
  { intros k Hk. unfold C0, S0. rewrite <- sum_plus. f_equal. apply map_ext. intros q. apply cumsum_step. unfold h. rewrite zf_len. exact Hk. }
  assert (E4 : C0 0%nat = S0 0%nat).
  { unfold C0, S0. f_equal. apply map_ext. intros q. apply cumsum_zero. }
  intros k rad g num Hk.
  match type of Hk with nth_error ?l k = _ => assert (EL : l = map (fun k => (bin dr k + 1 / 2 * dr, gk k, nk k)) (seq 0 (nbins r dr - 1))) end.
  { apply map_ext. intros j. now rewrite <- E, <- E'. }
  rewrite EL in Hk |- *. clear EL. apply nth_error_map_seq in Hk. destruct Hk as [Hk Hrow]. injection Hrow as -> -> ->.
  pose proof (shell_pos dr k Hdr) as SP. fold (bin dr (S k)) (bin dr k).
  destruct k.
  - unfold nk, gk. rewrite E4. field. repeat split; try assumption; lra.
  - match goal with |- _ = snd (nth k (map ?f _) _) + _ => set (F := f) end.
    rewrite (nth_indep _ _ (F 0%nat)) by (rewrite map_length, seq_length; lia). rewrite (map_nth F), seq_nth by lia. unfold F. cbn [snd Nat.add].
    unfold nk, gk. rewrite E3 by exact Hk. field. repeat split; try assumption; lra.
Qed.

(** ** Definedness *)
Lemma vec_eqb_refl v : vec_eqb v v = true.
Proof. unfold vec_eqb. repeat (destruct (Req_EM_T _ _); [|congruence]). reflexivity. Qed.
Lemma mat_eqb_refl m : mat_eqb m m = true.
Proof. unfold mat_eqb. now rewrite !vec_eqb_refl. Qed.
Lemma all2b_refl l : all2b mat_eqb l l = true.
Proof. induction l; cbn; [reflexivity|]. now rewrite mat_eqb_refl. Qed.
Lemma compatible_iff t0 t1 : compatible t0 t1 = true <-> symbols t0 = symbols t1 /\ length (coords_frac t0) = length (coords_frac t1) /\ cells t0 = cells t1.
Proof.
  unfold compatible. rewrite !andb_true_iff, Nat.eqb_eq. split.
  - intros [[A B] C]. destruct (list_eq_dec string_dec (symbols t0) (symbols t1)) as [E|]; [|discriminate]. split; [exact E|]. split; [exact B|].
    revert C. generalize (cells t1). induction (cells t0) as [|x l IH]; intros [|y l']; cbn; try discriminate; [reflexivity|].
    rewrite andb_true_iff. intros [X Y]. f_equal; [now apply mat_eqb_eq|now apply IH].
  - intros (A & B & C). rewrite A, C, all2b_refl. destruct (list_eq_dec string_dec _ _); [|congruence]. auto.
Qed.
Lemma nbins_two r dr : 0 < dr -> 0 < r -> (2 <= nbins r dr)%nat.
Proof.
  intros Hd Hr. unfold nbins. destruct (ceil_spec ((r + dr) / dr)) as [A B].
  assert (1 < (r + dr) / dr). { apply Rmult_lt_reg_r with dr; [exact Hd|]. unfold Rdiv. rewrite Rmult_assoc, Rinv_l by lra. lra. }
  assert (1 < IZR (ceil ((r + dr) / dr))) by lra. apply lt_IZR in H0. lia.
Qed.
Lemma filter_nonempty {A} (f : A -> bool) x l : In x l -> f x = true -> length (filter f l) <> 0%nat.
Proof. intros H E. assert (I : In x (filter f l)) by (apply filter_In; auto). destruct (filter f l); [destruct I|discriminate]. Qed.
Lemma filter_length_le {A} (f : A -> bool) l : (length (filter f l) <= length l)%nat.
Proof. induction l; cbn; [lia|]. destruct (f a); cbn; lia. Qed.
Lemma NoDup_app' {A} (l l' : list A) : NoDup l -> NoDup l' -> (forall x, In x l -> In x l' -> False) -> NoDup (l ++ l').
Proof.
  induction l as [|x l IH]; intros H H' D; [exact H'|]. inversion H; subst. cbn. constructor.
  - rewrite in_app_iff. intros [I|I]; [contradiction|]. apply (D x); [now left|exact I].
  - apply IH; auto. intros y Hy. apply D. now right.
Qed.
Lemma rpdf_defined t0 t1 dr rmax m0 m1 tm dmask pbc maxmem n s0 s1 cell cs vol vs i j :
  0 < dr -> symbols t0 = symbols t1 -> length (coords_frac t0) = length (coords_frac t1) -> cells t0 = cells t1 ->
  cells t0 = cell :: cs -> volumes t0 = vol :: vs -> length (symbols t0) = n ->
  pick_steps (tm_of tm) (coords_frac t0) = Some s0 -> pick_steps (tm_of tm) (coords_frac t1) = Some s1 -> s0 <> [] ->
  Forall (fun row => length row = n) s0 -> Forall (fun row => length row = n) s1 ->
  (forall l, m0 = Bools l \/ m1 = Bools l -> length l = n) ->
  (i < n)%nat -> selects (symbols t0) m0 i -> (j < n)%nat -> selects (symbols t0) m1 j ->
  0 < rmax_of rmax cell -> INR (length s0) * INR n * INR n * 24 / 1000000000 <= maxmem ->
  exists N, forall fuel, (N < fuel)%nat -> exists out, rpdf fuel [t0; t1] dr rmax (Some [m0; m1]) tm dmask pbc false maxmem = Some out /\
    rmax_of rmax cell <= INR (length out) * dr < rmax_of rmax cell + dr.
Proof.
  intros Hd Hs Hl Hc Ec Ev Hn P0 P1 Ne F0 F1 Hb Hi Si Hj Sj Hr Hm.
  assert (C : compatible t0 t1 = true) by (now apply compatible_iff).
  assert (E0 := coords_of_total t0 (symbols t0) m0 (tm_of tm) n s0 Hn P0 F0 (fun l e => Hb l (or_introl e))).
  assert (E1 := coords_of_total t1 (symbols t0) m1 (tm_of tm) n s1 Hn P1 F1 (fun l e => Hb l (or_intror e))).
  assert (L01 := pick_steps_length _ _ _ _ _ Hl P0 P1).
  destruct s0 as [|a s0]; [congruence|]. destruct s1 as [|b s1]; [discriminate|]. cbn [map] in E0, E1.
  set (r0 := map (atom a) (filter (selb (symbols t0) m0) (seq 0 n))) in *. set (r1 := map (atom b) (filter (selb (symbols t0) m1) (seq 0 n))) in *.
  assert (N0 : length r0 <> 0%nat). { unfold r0. rewrite map_length. apply (filter_nonempty _ i); [apply in_seq; lia|now apply selb_spec]. }
  assert (N1 : length r1 <> 0%nat). { unfold r1. rewrite map_length. apply (filter_nonempty _ j); [apply in_seq; lia|now apply selb_spec]. }
  assert (LE0 : (length r0 <= n)%nat). { unfold r0. rewrite map_length. eapply Nat.le_trans; [apply filter_length_le|]. now rewrite seq_length. }
  assert (LE1 : (length r1 <= n)%nat). { unfold r1. rewrite map_length. eapply Nat.le_trans; [apply filter_length_le|]. now rewrite seq_length. }
  pose proof (nbins_two _ _ Hd Hr) as NB.
  match type of E0 with _ = Some (_ :: ?x) => set (c0 := x) in * end. match type of E1 with _ = Some (_ :: ?x) => set (c1 := x) in * end.
  destruct (dists_enough pbc cell (r0 :: c0) (r1 :: c1)) as (N & HN). exists N. intros fuel Hf. destruct (HN fuel Hf) as (d & D).
  eexists. split.
  - unfold rpdf. destruct (Rle_dec dr 0) as [|_]; [exfalso; lra|]. change (twice [t0; t1]) with [t0; t1]. change (twice [m0; m1]) with [m0; m1].
    change (length [t0; t1] =? 1)%nat with false. cbn [negb andb]. rewrite C. cbn [negb].
    change (match tm with Some t => t | None => TSlice (Slice None None None) end) with (tm_of tm). rewrite E0, E1, Ec, Ev.
    fold (rmax_of rmax cell). destruct (Nat.ltb_spec (nbins (rmax_of rmax cell) dr) 2) as [|_]; [exfalso; lia|].
    destruct (Rlt_dec maxmem _) as [X|_].
    + exfalso. apply (Rlt_not_le _ _ X). eapply Rle_trans; [|exact Hm].
      apply le_INR in LE0, LE1. pose proof (pos_INR (length r0)). pose proof (pos_INR (length r1)).
      replace (length (r0 :: c0)) with (length (a :: s0)) by (unfold c0; cbn [length]; now rewrite map_length).
      pose proof (pos_INR (length (a :: s0))). unfold Rdiv. apply Rmult_le_compat_r; [lra|]. apply Rmult_le_compat_r; [lra|].
      apply Rmult_le_compat; [now apply Rmult_le_pos|lra| |lra]. now apply Rmult_le_compat_l.
    + rewrite D. destruct (Nat.eqb_spec (length r0) 0) as [|_]; [congruence|]. cbn [orb].
      destruct (existsb _ _) eqn:X; [|reflexivity]. exfalso. apply existsb_exists in X. destruct X as (x & Hx & X). apply in_map_iff in Hx.
      destruct Hx as (y & <- & _). destruct (Req_EM_T _ 0) as [Z|]; [|discriminate].
      assert (0 < INR (length r0)) by (apply lt_0_INR; lia). assert (0 < INR (length r1)) by (apply lt_0_INR; lia). nra.
  - rewrite map_length, seq_length. exact (nbins_last _ _ Hd NB).
Qed.
Lemma rpdf_single fuel t dr rmax am tm dmask pbc vmd maxmem :
  rpdf fuel [t] dr rmax am tm dmask pbc vmd maxmem = rpdf fuel [t; t] dr rmax am tm dmask pbc vmd maxmem.
Proof.
  unfold rpdf. change (twice [t]) with [t; t]. change (twice [t; t]) with [t; t].
  change (length [t] =? 1)%nat with true. change (length [t; t] =? 1)%nat with false.
  cbn [negb andb]. assert (compatible t t = true) as -> by (now apply compatible_iff). reflexivity.
Qed.

(** ** Exchanging the selections *)
Lemma counts_map {A B} (P : B -> Prop) (f : A -> B) l n : counts P (map f l) n -> counts (fun x => P (f x)) l n.
Proof.
  revert n. induction l as [|x l IH]; intros n H; cbn in H; inversion H; subst; constructor; auto.
Qed.
Lemma counts_perm {A} (P : A -> Prop) l l' : Permutation l l' -> forall n, counts P l n -> counts P l' n.
Proof.
  induction 1; intros n C; auto.
  - inversion C; subst; [apply C_yes|apply C_no]; auto.
  - inversion C as [|a k m Pa Ca|a k m Pa Ca]; subst; inversion Ca as [|a' k' m' Pb Cb|a' k' m' Pb Cb]; subst;
      repeat first [apply C_yes; [assumption|]|apply C_no; [assumption|]]; assumption.
Qed.
Lemma pairs_nodup n : NoDup (pairs n).
Proof.
  unfold pairs. assert (G : forall l l' : list nat, NoDup l -> NoDup l' -> NoDup (list_prod l l')).
  { induction l as [|x l IH]; intros l' H H'; [constructor|]. inversion H; subst. cbn.
    apply NoDup_app'; [apply FinFun.Injective_map_NoDup; [now intros ? ? [= ->]|exact H']|now apply IH|].
    intros [u v] I1 I2. apply in_map_iff in I1. destruct I1 as (w & [= <- <-] & _). apply in_prod_iff in I2. tauto. }
  apply G; apply seq_NoDup.
Qed.
Lemma counts_swap (P : nat * nat -> Prop) n c : counts P (pairs n) c -> counts (fun q => P (snd q, fst q)) (pairs n) c.
Proof.
  intros C. apply (counts_map P (fun q => (snd q, fst q))). revert C. apply counts_perm. apply Permutation_sym.
  apply NoDup_Permutation.
  - apply FinFun.Injective_map_NoDup; [|apply pairs_nodup]. intros [a b] [a' b']. cbn. congruence.
  - apply pairs_nodup.
  - intros [a b]. rewrite in_map_iff. unfold pairs. split.
    + intros ([u v] & [= <- <-] & H). apply in_prod_iff in H. apply in_prod_iff. tauto.
    + intros H. apply in_prod_iff in H. exists (b, a). split; [reflexivity|]. apply in_prod_iff. tauto.
Qed.
Lemma norm_vopp s cell : norm (vecmat (Vec (- vx s) (- vy s) (- vz s)) cell) = norm (vecmat s cell).
Proof. unfold norm. f_equal. unfold dot, vecmat, vadd, scale. cbn. ring. Qed.
Lemma distance_swap cell u v : det cell <> 0 -> distance true cell (vsub u v) < rmax_smith cell -> distance true cell (vsub v u) = distance true cell (vsub u v).
Proof.
  intros Hd H. unfold distance in *. destruct (smith_components cell _ Hd H) as (A & B & C).
  assert (E : wr3 (vsub v u) = Vec (- vx (wr3 (vsub u v))) (- vy (wr3 (vsub u v))) (- vz (wr3 (vsub u v)))).
  { rewrite (wr3_shifted (vsub u v)) in *. destruct (shift_of (vsub u v)) as [a b c].
    rewrite (small_centred (vsub v u) (Shift (- a) (- b) (- c))).
    - unfold shifted, vsub. cbn. rewrite !opp_IZR. f_equal; ring.
    - eapply Rle_lt_trans; [|exact A]. right. rewrite <- Rabs_Ropp. f_equal. unfold shifted, vsub. cbn. rewrite opp_IZR. ring.
    - eapply Rle_lt_trans; [|exact B]. right. rewrite <- Rabs_Ropp. f_equal. unfold shifted, vsub. cbn. rewrite opp_IZR. ring.
    - eapply Rle_lt_trans; [|exact C]. right. rewrite <- Rabs_Ropp. f_equal. unfold shifted, vsub. cbn. rewrite opp_IZR. ring. }
  rewrite E. apply norm_vopp.
Qed.

Lemma forall2_pointwise {A B} (P Q : A -> B -> Prop) l l' : (forall x y, In x l -> P x y -> Q x y) -> Forall2 P l l' -> Forall2 Q l l'.
Proof. intros H F. induction F; constructor; [apply H; auto; now left|]. apply IHF. intros; apply H; auto. now right. Qed.
Lemma forall2_unique {A B} (P : A -> B -> Prop) l a b : (forall x y y', P x y -> P x y' -> y = y') -> Forall2 P l a -> Forall2 P l b -> a = b.
Proof. intros H F. revert b. induction F; intros b G; inversion G; subst; [reflexivity|]. f_equal; eauto. Qed.
Lemma combine_same {A} (l : list A) q : In q (combine l l) -> fst q = snd q.
Proof. induction l as [|x l IH]; cbn; [tauto|]. intros [<-|H]; auto. Qed.
Lemma reciprocal fuel t dr rmax m0 m1 tm dmask maxmem n s cell cs fuel' out out' :
  rpdf fuel [t; t] dr rmax (Some [m0; m1]) tm dmask true false maxmem = Some out ->
  rpdf fuel' [t; t] dr rmax (Some [m1; m0]) tm dmask true false maxmem = Some out' ->
  cells t = cell :: cs -> length (symbols t) = n -> det cell <> 0 -> rmax_of rmax cell <= rmax_smith cell ->
  pick_steps (tm_of tm) (coords_frac t) = Some s -> Forall (fun row => length row = n) s ->
  exists N0 N1, counts (selects (symbols t) m0) (seq 0 n) N0 /\ counts (selects (symbols t) m1) (seq 0 n) N1 /\ N0 <> 0%nat /\ N1 <> 0%nat /\
  forall k rad g num rad' g' num', nth_error out k = Some (rad, g, num) -> nth_error out' k = Some (rad', g', num') -> INR N0 * num = INR N1 * num'.
Proof.
  intros H H' Hc Hn Hd Hr P F.
  destruct (number_integral_distance _ _ _ _ _ _ _ _ _ _ _ _ n s s cell cs out H Hc Hn P P F F) as [_ A].
  destruct (number_integral_distance _ _ _ _ _ _ _ _ _ _ _ _ n s s cell cs out' H' Hc Hn P P F F) as [_ B].
  pose proof (rpdf_inv _ _ _ _ _ _ _ _ _ _ _ _ _ H) as (r0 & c0 & r1 & c1 & cell' & cs' & vol & vs & Hdr & Hcomp & E0 & E1 & Ec & Ev & Hnb & Hr0 & Hdup & _).
  apply (coords_of_sel _ _ _ _ n s) in E0; auto. apply (coords_of_sel _ _ _ _ n s) in E1; auto.
  exists (length r0), (length r1).
  assert (C0 : counts (selects (symbols t) m0) (seq 0 n) (length r0)).
  { destruct s; [discriminate|]. injection E0 as -> _. rewrite map_length. apply counts_filter. intros; apply selb_spec. }
  assert (C1 : counts (selects (symbols t) m1) (seq 0 n) (length r1)).
  { destruct s; [discriminate|]. injection E1 as -> _. rewrite map_length. apply counts_filter. intros; apply selb_spec. }
  assert (N1 : length r1 <> 0%nat). { intros Z. apply (Hdup 0); [cbn; now left|rewrite Z; cbn; lra]. }
  split; [exact C0|]. split; [exact C1|]. split; [exact Hr0|]. split; [exact N1|].
  intros k rad g num rad' g' num' K K'.
  destruct (A _ _ _ _ K) as (_ & a0 & ca & Ca & _ & Fa & ->). destruct (B _ _ _ _ K') as (_ & b0 & cb & Cb & _ & Fb & ->).
  rewrite (counts_unique _ _ _ _ Ca C0) in *. rewrite (counts_unique _ _ _ _ Cb C1) in *.
  assert (E : ca = cb).
  { refine (forall2_unique _ _ _ _ _ _ Fb); [intros; eapply counts_unique; eassumption|]. revert Fa. apply forall2_pointwise. intros [x y] c Hi Cc.
    apply combine_same in Hi. cbn in Hi. subst y. unfold counted in *. cbn [fst snd] in *. apply counts_swap in Cc. revert Cc. apply counts_ext. intros [i j] _. cbn [fst snd].
    assert (X : forall u v, dr <= distance true cell (vsub u v) < Rmin (INR (S k) * dr) (rmax_of rmax cell) /\ kept dmask (distance true cell (vsub u v)) ->
      dr <= distance true cell (vsub v u) < Rmin (INR (S k) * dr) (rmax_of rmax cell) /\ kept dmask (distance true cell (vsub v u))).
    { intros u v [Y Z]. rewrite (distance_swap cell u v Hd); [auto|]. pose proof (Rmin_r (INR (S k) * dr) (rmax_of rmax cell)). lra. }
    split; intros (U & V & W); (split; [exact V|split; [exact U|apply X; exact W]]). }
  rewrite <- E.
  assert (Q : forall N, INR N <> 0 -> INR N * (sum (map (fun c => INR c / INR N) ca) / INR (length s)) = sum (map INR ca) / INR (length s)).
  { intros N HN. replace (sum (map (fun c => INR c / INR N) ca)) with (/ INR N * sum (map INR ca)).
    - unfold Rdiv. rewrite <- !Rmult_assoc. rewrite Rinv_r by exact HN. now rewrite Rmult_1_l.
    - rewrite <- sum_scale. f_equal. apply map_ext. intros. unfold Rdiv. ring. }
  rewrite !Q by (now apply not_0_INR). reflexivity.
Qed.

(** ** Neighbours *)
Lemma image_unique cell u v n n' : det cell <> 0 -> image_distance cell u v n < rmax_smith cell -> image_distance cell u v n' < rmax_smith cell -> n = n'.
Proof.
  intros Hd A B. apply (smith_found cell _ _ Hd) in A. apply (smith_found cell _ _ Hd) in B. apply (shifted_inj (vsub u v)). congruence.
Qed.
Lemma distance_image cell u v (P : R -> Prop) : det cell <> 0 -> (forall d, P d -> d < rmax_smith cell) ->
  P (distance true cell (vsub u v)) <-> exists! n, P (image_distance cell u v n).
Proof.
  intros Hd HP. split.
  - intros H. exists (shift_of (vsub u v)). unfold distance in H. rewrite wr3_shifted in H. split; [exact H|].
    intros n Hn. apply (image_unique cell u v); auto; apply HP; auto.
  - intros (n & H & _). unfold distance. rewrite (smith_found cell _ n Hd); [exact H|]. apply HP. exact H.
Qed.
Lemma distance_centred cell u v (P : R -> Prop) :
  P (distance true cell (vsub u v)) <-> exists n, centred3 (vsub u v) (shifted (vsub u v) n) /\ P (image_distance cell u v n).
Proof.
  unfold distance. split.
  - intros H. exists (shift_of (vsub u v)). rewrite wr3_shifted in H. split; [rewrite <- wr3_shifted; apply wr3_centred|exact H].
  - intros (n & C & H). rewrite (centred3_unique _ _ _ (wr3_centred (vsub u v)) C). exact H.
Qed.

(** ** The largest radius *)
Definition frac_of (v : vec) (c : mat) : vec :=
  Vec (dot v (cross (rb c) (rc c)) / det c) (dot v (cross (rc c) (ra c)) / det c) (dot v (cross (ra c) (rb c)) / det c).
Lemma frac_of_cart v c : det c <> 0 -> vecmat (frac_of v c) c = v.
Proof.
  intros H. destruct v as [x y z], c as [[a1 a2 a3] [b1 b2 b3] [c1 c2 c3]].
  unfold frac_of, vecmat, vadd, scale, det, dot, cross in *. cbn in *. f_equal; field; exact H.
Qed.
Lemma norm_scale k v : norm (scale k v) = Rabs k * norm v.
Proof.
  unfold norm. replace (dot (scale k v) (scale k v)) with (k² * dot v v) by (unfold dot, scale, Rsqr; cbn; ring).
  rewrite sqrt_mult_alt by apply Rle_0_sqr. now rewrite sqrt_Rsqr_abs.
Qed.
Lemma dot_scale k u v : dot (scale k u) v = k * dot u v.
Proof. unfold dot, scale. cbn. ring. Qed.
Lemma norm_sq v : norm v * norm v = dot v v.
Proof. apply sqrt_sqrt. apply dot_pos. Qed.
Lemma half_normal d v : d <> 0 -> 0 < norm v ->
  norm (scale (d / (2 * dot v v)) v) = 1 / 2 * (Rabs d / norm v) /\ dot (scale (d / (2 * dot v v)) v) v / d = 1 / 2.
Proof.
  intros Hd Hv. rewrite norm_scale, dot_scale, <- norm_sq. split.
  - unfold Rdiv at 1. rewrite Rabs_mult. rewrite (Rabs_right (/ _)); [field; lra|]. apply Rle_ge, Rlt_le, Rinv_0_lt_compat. nra.
  - field. split; [lra|exact Hd].
Qed.
Lemma half_not_centred x y : x = 1 / 2 -> ~ centred y x.
Proof. intros -> [_ H]. lra. Qed.
Lemma smith_max cell r : det cell <> 0 -> rmax_smith cell < r ->
  exists u, norm (vecmat u cell) < r /\ ~ centred3 u u.
Proof.
  intros Hd Hr. rewrite smith_widths in Hr.
  assert (Na : 0 < norm (cross (rb cell) (rc cell))) by (apply (cross_nz (ra cell)); exact Hd).
  assert (Nb : 0 < norm (cross (rc cell) (ra cell))) by (apply (cross_nz (rb cell)); rewrite det_b; exact Hd).
  assert (Nc : 0 < norm (cross (ra cell) (rb cell))) by (apply (cross_nz (rc cell)); rewrite det_c; exact Hd).
  destruct (half_normal (det cell) _ Hd Na) as [A1 A2]. destruct (half_normal (det cell) _ Hd Nb) as [B1 B2]. destruct (half_normal (det cell) _ Hd Nc) as [C1 C2].
  fold (width_a cell) in A1. fold (width_b cell) in B1. fold (width_c cell) in C1.
  unfold Rmin at 1 2 in Hr. destruct (Rle_dec (width_a cell) (width_b cell)).
  - destruct (Rle_dec (width_a cell) (width_c cell)).
    + eexists (frac_of (scale _ _) cell). rewrite frac_of_cart by exact Hd. split; [rewrite A1; lra|]. intros (X & Y & Z). revert X. apply half_not_centred. exact A2.
    + eexists (frac_of (scale _ _) cell). rewrite frac_of_cart by exact Hd. split; [rewrite C1; lra|]. intros (X & Y & Z). revert Z. apply half_not_centred. exact C2.
  - destruct (Rle_dec (width_b cell) (width_c cell)).
    + eexists (frac_of (scale _ _) cell). rewrite frac_of_cart by exact Hd. split; [rewrite B1; lra|]. intros (X & Y & Z). revert Y. apply half_not_centred. exact B2.
    + eexists (frac_of (scale _ _) cell). rewrite frac_of_cart by exact Hd. split; [rewrite C1; lra|]. intros (X & Y & Z). revert Z. apply half_not_centred. exact C2.
Qed.

Lemma pick_skipn {B} (l : list B) : forall m k, (k + m = length l)%nat -> pick l (Z.of_nat k) 1 m = skipn k l.
Proof.
  induction m as [|m IH]; intros k H.
  - cbn. symmetry. apply skipn_all2. lia.
  - cbn [pick]. rewrite Nat2Z.id. destruct (nth_error l k) as [x|] eqn:E.
    + replace (Z.of_nat k + 1)%Z with (Z.of_nat (S k)) by lia. rewrite IH by lia. clear -E. revert k E. induction l as [|y l IH]; intros [|k] E; try discriminate; cbn in *; [congruence|now apply IH].
    + apply nth_error_None in E. lia.
Qed.
Lemma pick_whole c : pick_steps whole c = Some c.
Proof.
  assert (E : range_len 0 (Z.of_nat (length c)) 1 = length c).
  { unfold range_len. change (1 <? 0)%Z with false. cbn iota. destruct (Z.ltb_spec 0 (Z.of_nat (length c))); [rewrite Z.div_1_r; lia|lia]. }
  unfold whole, pick_steps, slice_list. change (slice_indices (Slice None None None) (Z.of_nat (length c))) with (Some (0%Z, Z.of_nat (length c), 1%Z)). cbn iota.
  rewrite E. f_equal. apply (pick_skipn c (length c) 0). reflexivity.
Qed.
