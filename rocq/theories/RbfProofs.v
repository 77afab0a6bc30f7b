From Coq Require Import Reals List Arith Lra Lia Psatz Bool.
From Coquelicot Require Import Coquelicot.
From Verif Require Import Rbf RbfSpec.
Import ListNotations.
Open Scope R_scope.
Lemma sumR_cons a l : sumR (a :: l) = a + sumR l.
Proof. reflexivity. Qed.
Lemma dotl_inner u v : dotl u v = inner u v.
Proof. reflexivity. Qed.
Lemma rsum_shift f n s : fold_right Rplus 0 (map f (seq (S s) n)) = fold_right Rplus 0 (map (fun k => f (S k)) (seq s n)).
Proof. now rewrite <- seq_shift, map_map. Qed.
Lemma rsum_S n f : rsum (S n) f = f O + rsum n (fun k => f (S k)).
Proof. unfold rsum. cbn. now rewrite rsum_shift. Qed.
Lemma rsum_ext n f g : (forall k, (k < n)%nat -> f k = g k) -> rsum n f = rsum n g.
Proof.
  intros H. unfold rsum. f_equal. apply map_ext_in. intros k Hk. apply in_seq in Hk. apply H. lia.
Qed.
Lemma rsum_plus n f g : rsum n (fun k => f k + g k) = rsum n f + rsum n g.
Proof. unfold rsum. induction (seq 0 n); cbn; [lra|]. rewrite IHl. ring. Qed.
Lemma rsum_scal n a f : rsum n (fun k => a * f k) = a * rsum n f.
Proof. unfold rsum. induction (seq 0 n); cbn; [lra|]. rewrite IHl. ring. Qed.
Lemma rsum_0 n : rsum n (fun _ => 0) = 0.
Proof. unfold rsum. induction (seq 0 n); cbn; lra. Qed.
Lemma rsum_combine (f : R -> R -> R) : forall n a b, length a = n -> length b = n ->
  rsum n (fun k => f (nthR k a) (nthR k b)) = sumR (map (fun q => f (fst q) (snd q)) (combine a b)).
Proof.
  induction n; intros a b La Lb; destruct a, b; try discriminate; [reflexivity|].
  rewrite rsum_S. cbn. f_equal. apply IHn; cbn in *; lia.
Qed.
Lemma sqdist_dist2 n a b : length a = n -> length b = n -> sqdist n a b = dist2 a b.
Proof. intros. unfold sqdist, dist2. now rewrite (rsum_combine (fun x y => (x - y) ^ 2)). Qed.
Lemma dist2_pos a b : 0 <= dist2 a b.
Proof. unfold dist2. induction (combine a b) as [|[x y] l]; cbn [map sumR fold_right]; [lra|]. fold (sumR (map (fun q : R * R => (fst q - snd q) ^ 2) l)). pose proof (pow2_ge_0 (fst (x, y) - snd (x, y))). unfold sumR in *. lra. Qed.
Lemma dist2_sym : forall a b, dist2 a b = dist2 b a.
Proof. induction a; destruct b; try reflexivity. unfold dist2 in *. cbn [combine map]. rewrite !(sumR_cons _ (map _ _)), IHa. cbn [fst snd]. ring. Qed.
Lemma dist2_self a : dist2 a a = 0.
Proof. unfold dist2. induction a; [reflexivity|]. cbn [combine map]. rewrite sumR_cons, IHa. cbn [fst snd]. ring. Qed.
Lemma dist2_eq : forall a b, length a = length b -> dist2 a b = 0 -> a = b.
Proof.
  induction a; destruct b; try discriminate; [reflexivity|]. intros L. pose proof (dist2_pos a0 b) as P. unfold dist2 in *. cbn [combine map]. rewrite sumR_cons. cbn [fst snd].
  intros E. assert (Q : a = r). { pose proof (pow2_ge_0 (a - r)). assert ((a - r) ^ 2 = 0) by lra. assert (a - r = 0) by (now apply Rsqr_0_uniq; rewrite Rsqr_pow2). lra. } subst. f_equal. apply IHa; [cbn in L; lia|]. pose proof (pow2_ge_0 (r - r)). lra.
Qed.
(** mapM *)
Lemma mapM_some {A B} (f : A -> option B) (g : A -> B) l : (forall x, In x l -> f x = Some (g x)) -> mapM f l = Some (map g l).
Proof. induction l; intros H; cbn; [reflexivity|]. rewrite (H a) by (now left). rewrite IHl; [reflexivity|]. intros; apply H; now right. Qed.
Lemma mapM_map {A B C} (f : B -> option C) (g : A -> B) l : mapM f (map g l) = mapM (fun x => f (g x)) l.
Proof. induction l; cbn; [reflexivity|]. now rewrite IHl. Qed.
Lemma fdiv_ok x y : y <> 0 -> fdiv x y = Some (x / y).
Proof. intros. unfold fdiv. now destruct (Req_EM_T y 0). Qed.
Lemma basis_phi b p rsq : 0 <= rsq -> match b with Gauss => p <> 0 | Multi => True | InvMulti => 0 < rsq + p ^ 2 | Other _ => False end ->
  basis b rsq p = Some (phi b p rsq).
Proof.
  destruct b; cbn [basis phi]; intros P H; [|reflexivity| |contradiction].
  - rewrite fdiv_ok. { f_equal. f_equal. field. exact H. } now apply pow_nonzero.
  - unfold rbf_multi. rewrite fdiv_ok; [reflexivity|]. apply Rgt_not_eq, sqrt_lt_R0, H.
Qed.
(** Normalising the weights changes nothing. *)
Lemma maxabs_pos ws : (exists w, In w ws /\ w <> 0) -> exists m, maxabs ws = Some m /\ 0 < m.
Proof.
  intros (w & I & N). destruct ws as [|w0 ws]; [destruct I|]. eexists. split; [reflexivity|].
  revert I. generalize (w0 :: ws). clear w0 ws. intros l.
  assert (G : forall l, 0 <= fold_right (fun x m => Rmax (Rabs x) m) 0 l).
  { induction l0; cbn; [lra|]. eapply Rle_trans; [exact IHl0|apply Rmax_r]. }
  induction l; cbn; [contradiction|]. intros [-> | H].
  - eapply Rlt_le_trans; [apply Rabs_pos_lt, N|apply Rmax_l].
  - eapply Rlt_le_trans; [exact (IHl H)|apply Rmax_r].
Qed.
Lemma inner_scale s : s <> 0 -> forall row ws, inner row (map (fun x => x / s) ws) * s = inner row ws.
Proof.
  intros S. induction row; destruct ws; try (cbn; unfold inner; cbn; ring). unfold inner in *. cbn [combine map]. rewrite !sumR_cons, <- (IHrow ws). cbn [fst snd]. field. exact S.
Qed.
Lemma wn_ok ws : (exists w, In w ws /\ w <> 0) -> exists m, maxabs ws = Some m /\ m <> 0 /\
  mapM (fun x => fdiv x m) ws = Some (map (fun x => x / m) ws).
Proof.
  intros H. destruct (maxabs_pos _ H) as (m & E & P). exists m. split; [exact E|]. split; [lra|].
  apply mapM_some. intros x _. apply fdiv_ok. lra.
Qed.
Definition coords_ok (n : nat) (pts : list (list R)) : Prop := forall x, In x pts -> length x = n.
Lemma coords_b n pts : coords_ok n pts -> forallb (fun x => (length x =? n)%nat) pts = true.
Proof. intros H. apply forallb_forall. intros x I. apply Nat.eqb_eq, H, I. Qed.
Lemma coords_b' n pts : forallb (fun x => (length x =? n)%nat) pts = true -> coords_ok n pts.
Proof. intros H x I. rewrite forallb_forall in H. now apply Nat.eqb_eq, H. Qed.
(** predict, for any basis, is the matrix of basis values times the weights. *)
Lemma predict_matvec m pts g : fitted m -> coords_ok (ndim m) pts ->
  apply_rbf (fn m) (p_ m) (squared_dists (ndim m) pts (points m)) = Some g ->
  predict m pts = Some (matvec g (w_ m)).
Proof.
  intros (L & C & W) K G. unfold predict. rewrite coords_b by exact K. rewrite G.
  destruct (wn_ok _ W) as (mx & -> & N & ->). rewrite <- L, Nat.eqb_refl. f_equal. unfold matvec. apply map_ext. intros row.
  rewrite dotl_inner. now apply inner_scale.
Qed.
Lemma apply_phi b p n pts cs : coords_ok n pts -> coords_ok n cs -> (forall x, In x pts -> finite b p cs x) ->
  apply_rbf b p (squared_dists n pts cs) = Some (map (fun x => map (fun c => phi b p (dist2 x c)) cs) pts).
Proof.
  intros K C F. unfold apply_rbf, squared_dists. rewrite mapM_map. apply mapM_some. intros x I. rewrite mapM_map. apply mapM_some.
  intros c J. rewrite sqdist_dist2 by (apply K + apply C; assumption). apply basis_phi; [apply dist2_pos|].
  specialize (F x I). destruct b; cbn in *; auto.
Qed.
Lemma network_inner b p ws x : forall cs, inner (map (fun c => phi b p (dist2 x c)) cs) ws = network b p cs ws x.
Proof.
  intros cs. revert ws. unfold inner, network. induction cs; destruct ws; cbn [combine map]; try reflexivity. rewrite !sumR_cons, IHcs. cbn [fst snd]. ring.
Qed.
Theorem predict_network m pts : fitted m -> coords_ok (ndim m) pts -> (forall x, In x pts -> finite (fn m) (p_ m) (points m) x) ->
  predict m pts = Some (map (network (fn m) (p_ m) (points m) (w_ m)) pts).
Proof.
  intros F K D. pose proof F as (L & C & W).
  rewrite (predict_matvec m pts _ F K (apply_phi _ _ _ _ _ K C D)). f_equal. unfold matvec. rewrite map_map. apply map_ext.
  intros x. apply network_inner.
Qed.
(** Gradient. *)
Definition dphi (b : rbf) (p rsq : R) : R :=
  match b with
  | Gauss => - (1 / (2 * p ^ 2)) * phi Gauss p rsq
  | Multi => 1 / (2 * phi Multi p rsq)
  | InvMulti => - (1 / 2) * phi InvMulti p rsq ^ 3
  | Other _ => 0
  end.
Lemma dphi_ok b p rsq : match b with Gauss => p <> 0 | Multi | InvMulti => 0 < rsq + p ^ 2 | Other _ => False end ->
  is_derive (phi b p) rsq (dphi b p rsq).
Proof.
  destruct b; cbn [dphi phi]; intros H; [| | |contradiction].
  - apply (is_derive_ext (fun s => exp (- (s / (2 * p ^ 2))))); [reflexivity|]. auto_derive; [exact I|].
    assert (E : forall a, a = - (rsq / (2 * p ^ 2)) -> exp a = exp (- (rsq / (2 * p ^ 2)))) by (intros; now subst).
    set (e := exp (- (rsq / (2 * p ^ 2)))) in *.
    repeat match goal with |- context [exp ?a] => rewrite (E a) by (field; exact H) end. field. exact H.
  - apply (is_derive_ext (fun s => sqrt (s + p ^ 2))); [reflexivity|]. auto_derive; [exact H|]. cbn. field.
    apply Rgt_not_eq, sqrt_lt_R0. exact H.
  - apply (is_derive_ext (fun s => 1 / sqrt (s + p ^ 2))); [reflexivity|].
    assert (S : 0 < sqrt (rsq + p ^ 2)) by (apply sqrt_lt_R0; exact H).
    assert (Q : sqrt (rsq + p ^ 2) * sqrt (rsq + p ^ 2) = rsq + p ^ 2) by (apply sqrt_sqrt; lra).
    auto_derive. { split; [exact H|]. split; [|exact Logic.I]. cbn in *. lra. }
    cbn in *. field. lra.
Qed.
Lemma dist2_along : forall x v c, length v = length x -> length c = length x ->
  is_derive (fun t => dist2 (along x v t) c) 0 (2 * rsum (length x) (fun k => (nthR k x - nthR k c) * nthR k v)).
Proof.
  induction x; intros v c Lv Lc; destruct v, c; try discriminate.
  - cbn. rewrite Rmult_0_r. apply (@is_derive_const R_AbsRing R_NormedModule).
  - cbn [length]. rewrite rsum_S.
    apply (is_derive_ext (fun t => (a + t * r - r0) ^ 2 + dist2 (along x v t) c)); [reflexivity|].
    match goal with |- is_derive _ _ ?d =>
      replace d with (2 * (a - r0) * r + 2 * rsum (length x) (fun k => (nthR k x - nthR k c) * nthR k v)) by (unfold nthR; cbn [nth]; ring) end.
    apply (@is_derive_plus R_AbsRing R_NormedModule (fun t => (a + t * r - r0) ^ 2)).
    + auto_derive; [exact I|]. ring.
    + apply IHx; cbn in *; lia.
Qed.
Lemma along_0 : forall x v, length v = length x -> along x v 0 = x.
Proof. induction x; destruct v; try discriminate; [reflexivity|]. intros L. unfold along in *. cbn. rewrite IHx by (cbn in L; lia). f_equal. ring. Qed.
Lemma network_along b p x v : length v = length x -> forall cs ws, coords_ok (length x) cs -> smooth b p cs x ->
  is_derive (fun t => network b p cs ws (along x v t)) 0
    (sumR (map (fun q => snd q * (2 * rsum (length x) (fun k => (nthR k x - nthR k (fst q)) * nthR k v) * dphi b p (dist2 x (fst q)))) (combine cs ws))).
Proof.
  intros Lv. induction cs as [|c cs]; intros ws C S.
  - cbn. apply (@is_derive_const R_AbsRing R_NormedModule).
  - destruct ws as [|w ws]; [cbn; apply (@is_derive_const R_AbsRing R_NormedModule)|]. cbn [combine map].
    apply (is_derive_ext (fun t => w * phi b p (dist2 (along x v t) c) + network b p cs ws (along x v t))); [reflexivity|].
    rewrite sumR_cons. cbn [fst snd].
    apply (@is_derive_plus R_AbsRing R_NormedModule (fun t => w * phi b p (dist2 (along x v t) c))).
    + apply is_derive_scal.
      apply (@is_derive_comp R_AbsRing R_NormedModule (phi b p) (fun t => dist2 (along x v t) c)).
      * rewrite along_0 by exact Lv. apply dphi_ok. destruct b; cbn in S; auto; try (apply S; now left); try exact S.
      * apply dist2_along; [exact Lv|]. apply C. now left.
    + apply IHcs; [intros y I; apply C; now right|]. destruct b; cbn in *; auto.
Qed.
(** The k-th component deriv computes. *)
Definition gradk (b : rbf) (p : R) (cs : list (list R)) (ws x : list R) (k : nat) : R :=
  sumR (map (fun q => snd q * (2 * (nthR k x - nthR k (fst q)) * dphi b p (dist2 x (fst q)))) (combine cs ws)).
Lemma grad_exchange b p cs ws x v n :
  rsum n (fun k => gradk b p cs ws x k * nthR k v) =
  sumR (map (fun q => snd q * (2 * rsum n (fun k => (nthR k x - nthR k (fst q)) * nthR k v) * dphi b p (dist2 x (fst q)))) (combine cs ws)).
Proof.
  unfold gradk. induction (combine cs ws) as [|[c w] l].
  - cbn. rewrite (rsum_ext _ _ (fun _ => 0)) by (intros; ring). apply rsum_0.
  - cbn [map]. rewrite sumR_cons, <- IHl. cbn [fst snd].
    rewrite (rsum_ext _ _ (fun k => w * 2 * dphi b p (dist2 x c) * ((nthR k x - nthR k c) * nthR k v) +
      sumR (map (fun q => snd q * (2 * (nthR k x - nthR k (fst q)) * dphi b p (dist2 x (fst q)))) l) * nthR k v)).
    2:{ intros. rewrite sumR_cons. cbn [fst snd]. ring. }
    rewrite rsum_plus, rsum_scal. ring.
Qed.
Lemma inner_gen (f : list R -> R) (h : list R -> R -> R) s : s <> 0 -> forall cs ws,
  (forall c w, In c cs -> f c * w = h c w) ->
  inner (map f cs) (map (fun x => x / s) ws) * s = sumR (map (fun q => h (fst q) (snd q)) (combine cs ws)).
Proof.
  intros S cs ws H. rewrite inner_scale by exact S. revert ws. unfold inner. induction cs; destruct ws; try reflexivity.
  cbn. rewrite H by (now left). rewrite IHcs by (intros; apply H; now right). reflexivity.
Qed.
Lemma combine_map_r {A B} (f : A -> B) l : combine l (map f l) = map (fun x => (x, f x)) l.
Proof. induction l; cbn; congruence. Qed.
Lemma fst_phi b p cs x c : smooth b p cs x -> In c cs ->
  match b with Multi | InvMulti => 0 < sqrt (dist2 x c + p ^ 2) | _ => True end.
Proof. intros S I. destruct b; cbn in S; auto; apply sqrt_lt_R0; auto. Qed.
Lemma d_row_ok m wn mx x : fitted m -> length x = ndim m -> smooth (fn m) (p_ m) (points m) x ->
  mx <> 0 -> wn = map (fun y => y / mx) (w_ m) ->
  d_row m wn mx x (map (fun c => phi (fn m) (p_ m) (dist2 x c)) (points m)) =
  Some (map (gradk (fn m) (p_ m) (points m) (w_ m) x) (seq 0 (ndim m))).
Proof.
  intros (L & C & _) Lx S N ->. unfold d_row. apply mapM_some. intros k _.
  destruct (fn m) eqn:B.
  - cbn in S. unfold d_gauss. rewrite fdiv_ok by (now apply pow_nonzero). f_equal.
    rewrite combine_map_r, map_map. cbn [fst snd]. rewrite dotl_inner, Rmult_assoc.
    rewrite (inner_gen (fun c => (nthR k c - nthR k x) * phi Gauss (p_ m) (dist2 x c))
              (fun c w => p_ m ^ 2 * (w * (2 * (nthR k x - nthR k c) * dphi Gauss (p_ m) (dist2 x c)))) mx N).
    + unfold gradk. induction (combine (points m) (w_ m)) as [|q l]; [cbn; ring|]. cbn [map]. rewrite !sumR_cons, <- IHl. field. exact S.
    + intros. cbn [dphi]. field. exact S.
  - unfold d_multi. rewrite combine_map_r, mapM_map. cbn [fst snd].
    rewrite (mapM_some _ (fun c => (nthR k c - nthR k x) / phi Multi (p_ m) (dist2 x c))).
    + f_equal. rewrite dotl_inner, Ropp_mult_distr_l_reverse.
      rewrite (inner_gen (fun c => (nthR k c - nthR k x) / phi Multi (p_ m) (dist2 x c))
              (fun c w => - (w * (2 * (nthR k x - nthR k c) * dphi Multi (p_ m) (dist2 x c)))) mx N).
      * unfold gradk. induction (combine (points m) (w_ m)) as [|q l]; [cbn; ring|]. cbn [map]. rewrite !sumR_cons, <- IHl. ring.
      * intros c w I. pose proof (fst_phi _ _ _ _ _ S I). cbn [dphi phi]. field. cbn in *. lra.
    + intros c I. apply fdiv_ok. pose proof (fst_phi _ _ _ _ _ S I). cbn in *. lra.
  - f_equal. unfold d_inv. rewrite combine_map_r, map_map. cbn [fst snd]. rewrite dotl_inner.
    rewrite (inner_gen (fun c => (nthR k c - nthR k x) * phi InvMulti (p_ m) (dist2 x c) ^ 3)
              (fun c w => w * (2 * (nthR k x - nthR k c) * dphi InvMulti (p_ m) (dist2 x c))) mx N); [reflexivity|].
    intros. cbn [dphi]. field.
  - cbn in S. contradiction.
Qed.
Lemma smooth_finite b p cs x : smooth b p cs x -> finite b p cs x.
Proof. destruct b; cbn; auto. Qed.
Theorem deriv_grad m pts : fitted m -> coords_ok (ndim m) pts -> (forall x, In x pts -> smooth (fn m) (p_ m) (points m) x) ->
  deriv m pts = Some (map (fun x => map (gradk (fn m) (p_ m) (points m) (w_ m) x) (seq 0 (ndim m))) pts).
Proof.
  intros F K S. pose proof F as (L & C & W). unfold deriv. rewrite coords_b by exact K.
  rewrite (apply_phi _ _ _ _ _ K C (fun x I => smooth_finite _ _ _ _ (S x I))).
  destruct (wn_ok _ W) as (mx & -> & N & ->). rewrite combine_map_r, mapM_map. cbn [fst snd]. apply mapM_some.
  intros x I. apply d_row_ok; auto.
Qed.
Lemma inner_gradk m x v : length v = ndim m ->
  inner (map (gradk (fn m) (p_ m) (points m) (w_ m) x) (seq 0 (ndim m))) v =
  rsum (ndim m) (fun k => gradk (fn m) (p_ m) (points m) (w_ m) x k * nthR k v).
Proof.
  intros Lv. unfold inner. set (g := gradk _ _ _ _ _). rewrite <- (rsum_combine Rmult (ndim m)).
  - apply rsum_ext. intros k H. f_equal. unfold nthR. rewrite nth_indep with (d' := g O) by (now rewrite map_length, seq_length).
    rewrite map_nth, seq_nth by exact H. reflexivity.
  - now rewrite map_length, seq_length.
  - exact Lv.
Qed.
Theorem gradient m x v : fitted m -> length x = ndim m -> length v = ndim m -> smooth (fn m) (p_ m) (points m) x ->
  exists d, deriv1 m x = Some d /\ length d = ndim m /\
    is_derive (fun t => network (fn m) (p_ m) (points m) (w_ m) (along x v t)) 0 (inner d v).
Proof.
  intros F Lx Lv S. pose proof F as (L & C & W). unfold deriv1.
  rewrite (deriv_grad m [x]); [|exact F|intros y [<-|[]]; exact Lx|intros y [<-|[]]; exact S]. cbn [map].
  eexists. split; [reflexivity|]. split; [now rewrite map_length, seq_length|].
  rewrite inner_gradk by exact Lv. rewrite <- Lx, grad_exchange. apply network_along; [congruence| |exact S].
  intros c I. rewrite Lx. now apply C.
Qed.
(** Training. *)
Lemma mapM_len {A B} (f : A -> option B) : forall l r, mapM f l = Some r -> length r = length l.
Proof.
  induction l; cbn; intros r H; [now injection H as <-|]. destruct (f a); [|discriminate]. destruct (mapM f l) eqn:E; [|discriminate].
  injection H as <-. cbn. now rewrite (IHl _ eq_refl).
Qed.
Lemma mapM_nth {A B} (f : A -> option B) d d' : forall l r i, mapM f l = Some r -> (i < length l)%nat -> f (nth i l d) = Some (nth i r d').
Proof.
  induction l; cbn; intros r i H Hi; [lia|]. destruct (f a) eqn:Ea; [|discriminate]. destruct (mapM f l) eqn:E; [|discriminate].
  injection H as <-. destruct i; [exact Ea|]. cbn. apply IHl; [reflexivity|lia].
Qed.
Lemma gram_shape b p n pts g : apply_rbf b p (squared_dists n pts pts) = Some g -> square (length pts) g.
Proof.
  intros H. unfold apply_rbf in H. split; [rewrite (mapM_len _ _ _ H); apply map_length|].
  intros row I. apply (In_nth _ _ []) in I. destruct I as (i & Hi & <-).
  pose proof (mapM_nth _ [] [] _ _ i H) as N. rewrite (mapM_len _ _ _ H) in Hi. specialize (N Hi).
  rewrite (mapM_len _ _ _ N). unfold squared_dists in *. rewrite map_length in Hi.
  rewrite nth_indep with (d' := map (sqdist n []) pts) by (now rewrite map_length).
  change (map (sqdist n []) pts) with ((fun a => map (sqdist n a) pts) []). rewrite map_nth. apply map_length.
Qed.
Lemma gram_entry b p n pts g i j : apply_rbf b p (squared_dists n pts pts) = Some g -> (i < length pts)%nat -> (j < length pts)%nat ->
  basis b (sqdist n (nth i pts []) (nth j pts [])) p = Some (nth j (nth i g []) 0).
Proof.
  intros H Hi Hj. unfold apply_rbf in H.
  pose proof (mapM_nth _ [] [] _ _ i H) as N. unfold squared_dists in *. rewrite map_length in N. specialize (N Hi).
  rewrite nth_indep with (d' := map (sqdist n []) pts) in N by (now rewrite map_length).
  change (map (sqdist n []) pts) with ((fun a => map (sqdist n a) pts) []) in N. rewrite map_nth in N.
  pose proof (mapM_nth _ 0 0 _ _ j N) as M. rewrite map_length in M. specialize (M Hj).
  rewrite nth_indep with (d' := sqdist n (nth i pts []) []) in M by (now rewrite map_length). rewrite map_nth in M. exact M.
Qed.
Lemma gram_sym b p n pts g : coords_ok n pts -> apply_rbf b p (squared_dists n pts pts) = Some g -> symmetric g.
Proof.
  intros C H i j Hi Hj. destruct (gram_shape _ _ _ _ _ H) as [L _]. rewrite L in *.
  pose proof (gram_entry _ _ _ _ _ i j H Hi Hj) as E1. pose proof (gram_entry _ _ _ _ _ j i H Hj Hi) as E2.
  assert (Ci : length (nth i pts []) = n) by (apply C, nth_In, Hi). assert (Cj : length (nth j pts []) = n) by (apply C, nth_In, Hj).
  rewrite sqdist_dist2 in E1, E2 by assumption. rewrite dist2_sym in E1. congruence.
Qed.
(** G + r I *)
Definition bump (r : R) (i : nat) (q : nat * R) : R := let '(j, x) := q in if (i =? j)%nat then x + 1 * r else x + 0 * r.
Lemma bump_nth r i : forall row s k, (k < length row)%nat ->
  nth k (map (bump r i) (combine (seq s (length row)) row)) 0 = nth k row 0 + (if (i =? s + k)%nat then r else 0).
Proof.
  induction row; intros s k H; cbn in H; [lia|]. destruct k; cbn.
  - rewrite Nat.add_0_r. destruct (i =? s)%nat; ring.
  - rewrite IHrow by lia. now replace (s + S k)%nat with (S s + k)%nat by lia.
Qed.
Lemma bump_inner r i : forall row s w, length w = length row ->
  inner (map (bump r i) (combine (seq s (length row)) row)) w =
  inner row w + (if (s <=? i)%nat then r * nth (i - s) w 0 else 0).
Proof.
  unfold inner. induction row; intros s w L; destruct w; try discriminate.
  - cbn. destruct (s <=? i)%nat, (i - s)%nat; ring.
  - cbn [combine seq length map]. rewrite !sumR_cons, IHrow by (cbn in L; lia). cbn [fst snd bump].
    destruct (Nat.eqb_spec i s).
    + subst. rewrite Nat.sub_diag, Nat.leb_refl. replace (S s <=? s)%nat with false by (symmetry; apply Nat.leb_gt; lia). cbn [nth]. ring.
    + destruct (Nat.leb_spec s i).
      * replace (S s <=? i)%nat with true by (symmetry; apply Nat.leb_le; lia). replace (i - s)%nat with (S (i - S s)) by lia. cbn [nth]. ring.
      * replace (S s <=? i)%nat with false by (symmetry; apply Nat.leb_gt; lia). ring.
Qed.
Lemma add_diag_rows r : forall g s, map (fun q => let '(i, row) := q in map (fun q => let '(j, x) := q in if (i =? j)%nat then x + 1 * r else x + 0 * r)
    (combine (seq 0 (length row)) row)) (combine (seq s (length g)) g) =
  map (fun q => map (bump r (fst q)) (combine (seq 0 (length (snd q))) (snd q))) (combine (seq s (length g)) g).
Proof. induction g; intros s; cbn; [reflexivity|]. now rewrite IHg. Qed.
Lemma add_diag_nth r g i : (i < length g)%nat ->
  nth i (add_diag r g) [] = map (bump r i) (combine (seq 0 (length (nth i g []))) (nth i g [])).
Proof.
  intros H. unfold add_diag. rewrite add_diag_rows.
  assert (K : forall (g : list (list R)) s i, (i < length g)%nat ->
    nth i (map (fun q => map (bump r (fst q)) (combine (seq 0 (length (snd q))) (snd q))) (combine (seq s (length g)) g)) [] =
    map (bump r (s + i)) (combine (seq 0 (length (nth i g []))) (nth i g []))).
  { clear. induction g; intros s i H; cbn in H; [lia|]. destruct i; cbn; [now rewrite Nat.add_0_r|]. rewrite IHg by lia.
    now replace (s + S i)%nat with (S s + i)%nat by lia. }
  now rewrite K.
Qed.
Lemma add_diag_len r g : length (add_diag r g) = length g.
Proof. unfold add_diag. rewrite map_length, combine_length, seq_length. apply Nat.min_id. Qed.
Lemma add_diag_square r n g : square n g -> square n (add_diag r g).
Proof.
  intros [L RW]. split; [now rewrite add_diag_len|]. intros row I. apply (In_nth _ _ []) in I. destruct I as (i & Hi & <-).
  rewrite add_diag_len in Hi. rewrite add_diag_nth by exact Hi. rewrite map_length, combine_length, seq_length, Nat.min_id.
  apply RW, nth_In, Hi.
Qed.
Lemma add_diag_sym r n g : square n g -> symmetric g -> symmetric (add_diag r g).
Proof.
  intros [L RW] S i j Hi Hj. rewrite add_diag_len in *. rewrite !add_diag_nth by assumption.
  rewrite !bump_nth by (rewrite (RW _ (nth_In _ _ Hi)) || rewrite (RW _ (nth_In _ _ Hj)); lia). cbn [Nat.add].
  rewrite (S i j Hi Hj), Nat.eqb_sym. reflexivity.
Qed.
Lemma add_diag_matvec r n g w : square n g -> length w = n ->
  matvec (add_diag r g) w = map (fun q => fst q + r * snd q) (combine (matvec g w) w).
Proof.
  intros [L RW] Lw. apply (nth_ext _ _ 0 0).
  { unfold matvec. rewrite !map_length, add_diag_len, combine_length, map_length. lia. }
  intros i Hi. unfold matvec in Hi. rewrite map_length, add_diag_len in Hi.
  rewrite nth_indep with (d' := 0 + r * 0) by (unfold matvec; now rewrite map_length, add_diag_len).
  assert (X : nth i (matvec (add_diag r g) w) 0 = inner (nth i (add_diag r g) []) w).
  { unfold matvec. rewrite nth_indep with (d' := inner [] w) by (now rewrite map_length, add_diag_len). apply (map_nth (fun row => inner row w)). }
  assert (Y : nth i (matvec g w) 0 = inner (nth i g []) w).
  { unfold matvec. rewrite nth_indep with (d' := inner [] w) by (now rewrite map_length). apply (map_nth (fun row => inner row w)). }
  replace (0 + r * 0) with 0 by ring. rewrite X, add_diag_nth by exact Hi.
  rewrite bump_inner by (rewrite (RW _ (nth_In _ _ Hi)); exact Lw). cbn [Nat.leb]. rewrite Nat.sub_0_r, <- Y.
  symmetry. set (F := fun q : R * R => fst q + r * snd q). rewrite nth_indep with (d' := F (0, 0)).
  2:{ unfold matvec. rewrite map_length, combine_length, map_length. lia. }
  rewrite map_nth, combine_nth by (unfold matvec; rewrite map_length; lia). reflexivity.
Qed.
Lemma inner_zero : forall row w, (forall x, In x w -> x = 0) -> inner row w = 0.
Proof.
  unfold inner. induction row; destruct w; intros H; try reflexivity. cbn [combine map]. rewrite sumR_cons, IHrow by (intros; apply H; now right).
  rewrite (H r) by (now left). cbn. ring.
Qed.
Lemma nonzero_dec (w : list R) : (exists x, In x w /\ x <> 0) \/ (forall x, In x w -> x = 0).
Proof.
  induction w as [|a w [(x & I & N)|H]]; [right; intros ? []|left; exists x; split; [now right|exact N]|].
  destruct (Req_dec a 0); [right; intros x [<-|I]; auto|left; exists a; split; [now left|assumption]].
Qed.
Lemma matvec_nonzero a w z : matvec a w = z -> (exists v, In v z /\ v <> 0) -> exists x, In x w /\ x <> 0.
Proof.
  intros E (v & I & N). destruct (nonzero_dec w) as [K|K]; [exact K|]. exfalso. apply N. rewrite <- E in I. unfold matvec in I.
  apply in_map_iff in I. destruct I as (row & <- & _). now apply inner_zero.
Qed.
Section TRAIN.
  Variable solve : list (list R) -> list R -> option (list R).
  Variable lstsq : list (list R) -> list R -> list R.
  Hypothesis SO : solve_ok solve.
  Hypothesis LO : lstsq_ok lstsq.
  Lemma shapes_ok n pts vals : shapes n pts vals = true -> length vals = length pts /\ coords_ok n pts.
  Proof. intros H. apply andb_true_iff in H. destruct H as [A B]. split; [now apply Nat.eqb_eq|now apply coords_b']. Qed.
  Theorem fit_system n pts vals b p r m : fit solve lstsq n pts vals b p (Some r) = Some m -> (exists v, In v vals /\ v <> 0) ->
    fitted m /\ exists y, predict m pts = Some y /\ vals = map (fun q => fst q + r * snd q) (combine y (w_ m)).
  Proof.
    intros H NZ. unfold fit in H. destruct (shapes n pts vals) eqn:S; [|discriminate]. apply shapes_ok in S. destruct S as [L C].
    destruct (apply_rbf b p (squared_dists n pts pts)) as [g|] eqn:G; [|discriminate].
    pose proof (gram_shape _ _ _ _ _ G) as Sq. pose proof (gram_sym _ _ _ _ _ C G) as Sy. rewrite <- L in Sq.
    assert (K : forall w, length w = length vals -> (exists x, In x w /\ x <> 0) ->
      fitted (Model n pts vals b p w) /\ predict (Model n pts vals b p w) pts = Some (matvec g w)).
    { intros w Lw Nw. assert (F : fitted (Model n pts vals b p w)).
      { split; [cbn; congruence|]. split; [exact C|exact Nw]. }
      split; [exact F|]. now apply predict_matvec. }
    destruct (Req_EM_T r 0) as [->|Nr].
    - destruct (solve g vals) as [w|] eqn:W; [|discriminate]. injection H as <-. destruct (SO _ _ _ Sq Sy W) as [Lw E].
      destruct (K w Lw (matvec_nonzero _ _ _ E NZ)) as [F P]. split; [exact F|]. exists (matvec g w). split; [exact P|].
      rewrite E. cbn [w_]. clear - Lw. revert vals Lw. induction w; destruct vals; try discriminate; intros; [reflexivity|].
      cbn [combine map fst snd]. rewrite <- IHw by (cbn in Lw; lia). f_equal. ring.
    - destruct (solve (add_diag r g) vals) as [w|] eqn:W; [|discriminate]. injection H as <-.
      destruct (SO _ _ _ (add_diag_square r _ _ Sq) (add_diag_sym r _ _ Sq Sy) W) as [Lw E].
      destruct (K w Lw (matvec_nonzero _ _ _ E NZ)) as [F P]. split; [exact F|]. exists (matvec g w). split; [exact P|].
      cbn [w_]. rewrite <- E at 1. now apply (add_diag_matvec r (length vals)).
  Qed.
  Theorem fit_interpolates n pts vals b p m : fit solve lstsq n pts vals b p (Some 0) = Some m -> (exists v, In v vals /\ v <> 0) ->
    predict m pts = Some vals.
  Proof.
    intros H NZ. destruct (fit_system _ _ _ _ _ _ _ H NZ) as [(L & _) (y & P & E)]. rewrite P. f_equal.
    assert (Q : length y = length (w_ m)).
    { unfold predict in P. destruct (forallb _ pts); [|discriminate]. destruct (apply_rbf _ _ _) as [g|] eqn:G; [|discriminate].
      destruct (maxabs (w_ m)); [|discriminate]. destruct (_ =? _)%nat; [|discriminate]. destruct (mapM _ (w_ m)); [|discriminate].
      injection P as <-. rewrite map_length. unfold apply_rbf in G. rewrite (mapM_len _ _ _ G). unfold squared_dists. rewrite map_length.
      unfold fit in H. destruct (shapes n pts vals); [|discriminate]. destruct (apply_rbf b p _) as [g'|]; [|discriminate].
      destruct (Req_EM_T 0 0); [|congruence]. destruct (solve g' vals); [|discriminate]. injection H as <-. cbn in *. congruence. }
    rewrite E. clear - Q. revert Q. generalize (w_ m). induction y; destruct l; try discriminate; intros; [reflexivity|].
    cbn [combine map fst snd]. rewrite <- IHy by (cbn in Q; lia). f_equal. ring.
  Qed.
  Theorem fit_lstsq n pts vals b p m : fit solve lstsq n pts vals b p None = Some m -> (exists x, In x (w_ m) /\ x <> 0) ->
    (forall x, In x pts -> finite b p pts x) ->
    exists y, predict m pts = Some y /\ forall w, length w = length pts -> sqres y vals <= sqres (map (network b p pts w) pts) vals.
  Proof.
    intros H NZ Fi. unfold fit in H. destruct (shapes n pts vals) eqn:S; [|discriminate]. apply shapes_ok in S. destruct S as [L C].
    rewrite (apply_phi b p n pts pts C C Fi) in H. injection H as <-. cbn [w_] in NZ. 
    set (g := map (fun x => map (fun c => phi b p (dist2 x c)) pts) pts) in *.
    assert (G : apply_rbf b p (squared_dists n pts pts) = Some g) by (now apply apply_phi).
    pose proof (gram_shape _ _ _ _ _ G) as Sq. rewrite <- L in Sq. destruct (LO g vals Sq) as [Lw M].
    exists (matvec g (lstsq g vals)). split.
    - apply (predict_matvec (Model n pts vals b p (lstsq g vals))); [|exact C|exact G].
      split; [cbn; congruence|]. split; [exact C|exact NZ].
    - intros w Hw. replace (map (network b p pts w) pts) with (matvec g w); [apply M; congruence|].
      unfold matvec, g. rewrite map_map. apply map_ext. intros x. apply network_inner.
  Qed.
End TRAIN.
(** All weights zero: w / maxw is 0/0. *)
Lemma zero_weights m pts : (forall x, In x (w_ m) -> x = 0) -> predict m pts = None.
Proof.
  intros Z. unfold predict. destruct (forallb _ pts); [|reflexivity]. destruct (apply_rbf _ _ _); [|reflexivity].
  destruct (w_ m) as [|w ws] eqn:W; [reflexivity|]. cbn [maxabs]. destruct (_ =? _)%nat; [|reflexivity].
  assert (M : fold_right (fun x m => Rmax (Rabs x) m) 0 (w :: ws) = 0).
  { revert Z. generalize (w :: ws). induction l0; cbn; intros; [reflexivity|]. rewrite IHl0 by auto. rewrite (Z a) by auto.
    rewrite Rabs_R0. apply Rmax_left. lra. }
  rewrite M. cbn [mapM]. unfold fdiv at 1. destruct (Req_EM_T 0 0); [reflexivity|congruence].
Qed.
(** p="mean" *)
Lemma sum_sqrt_pos l : 0 <= sumR (map sqrt l).
Proof. induction l; cbn [map]; [cbn; lra|]. rewrite sumR_cons. pose proof (sqrt_pos a). lra. Qed.
Lemma sum_sqrt_lt l x : In x l -> 0 < x -> 0 < sumR (map sqrt l).
Proof.
  induction l; [intros []|]. intros [-> | I] P; cbn [map]; rewrite sumR_cons.
  - pose proof (sum_sqrt_pos l). pose proof (sqrt_lt_R0 _ P). lra.
  - specialize (IHl I P). pose proof (sqrt_pos a). lra.
Qed.
Lemma sum_sqrt_0 l : (forall x, In x l -> x = 0) -> sumR (map sqrt l) = 0.
Proof. induction l; intros H; cbn [map]; [reflexivity|]. rewrite sumR_cons, IHl by (intros; apply H; now right). rewrite (H a) by (now left). rewrite sqrt_0. ring. Qed.
Lemma in_dists n pts d : In d (concat (squared_dists n pts pts)) <-> exists x y, In x pts /\ In y pts /\ d = sqdist n x y.
Proof.
  rewrite in_concat. unfold squared_dists. split.
  - intros (row & I & J). apply in_map_iff in I. destruct I as (x & <- & Ix). apply in_map_iff in J. destruct J as (y & <- & Iy). eauto.
  - intros (x & y & Ix & Iy & ->). eexists. split; [apply in_map_iff; exists x; split; [reflexivity|exact Ix]|]. now apply in_map.
Qed.
Theorem mean_p_spec n pts : coords_ok n pts -> pts <> [] -> exists p, mean_p n pts = Some p /\ 0 <= p /\
  (0 < p <-> exists x y, In x pts /\ In y pts /\ x <> y).
Proof.
  intros C N. unfold mean_p. set (d := concat (squared_dists n pts pts)).
  assert (In_d : forall z, In z d <-> exists x y, In x pts /\ In y pts /\ z = sqdist n x y) by (intro; apply in_dists).
  destruct pts as [|x0 pts]; [contradiction|].
  assert (D0 : In (sqdist n x0 x0) d) by (apply In_d; exists x0, x0; cbn; auto).
  assert (LD : 0 < INR (length d)). { apply lt_0_INR. destruct d; [destruct D0|cbn; lia]. }
  rewrite fdiv_ok by lra. eexists. split; [reflexivity|]. fold (sumR (map sqrt d)). split.
  - apply Rmult_le_pos; [apply sum_sqrt_pos|]. left. now apply Rinv_0_lt_compat.
  - split.
    + intros P. destruct (nonzero_dec d) as [(z & I & Z)|K].
      * apply In_d in I. destruct I as (x & y & Ix & Iy & ->). exists x, y. repeat split; auto. intros <-.
        rewrite sqdist_dist2 in Z by (apply C; assumption). now rewrite dist2_self in Z.
      * rewrite sum_sqrt_0 in P by exact K. unfold Rdiv in P. rewrite Rmult_0_l in P. lra.
    + intros (x & y & Ix & Iy & Nxy). apply Rdiv_lt_0_compat; [|exact LD].
      apply (sum_sqrt_lt _ (sqdist n x y)); [apply In_d; eauto|]. rewrite sqdist_dist2 by (apply C; assumption).
      destruct (dist2_pos x y) as [P|E]; [exact P|]. exfalso. apply Nxy, dist2_eq; [rewrite !C; auto|auto].
Qed.
(** fit_error *)
Theorem fit_error_spec m pts vals y : predict m pts = Some y -> length vals = length y -> vals <> [] ->
  exists e, fit_error m pts vals = Some e /\
    (0 <= p_ m -> e = sqres y vals / INR (length vals) /\ 0 <= e /\ (e = 0 <-> vals = y)) /\
    (p_ m < 0 -> e = exp (sqres y vals / INR (length vals)) /\ sqres y vals / INR (length vals) < e).
Proof.
  intros P L N. unfold fit_error. rewrite P. replace (length vals =? length y)%nat with true by (symmetry; now apply Nat.eqb_eq).
  assert (Lr : length (map (fun q : R * R => fst q - snd q) (combine vals y)) = length vals) by (rewrite map_length, combine_length; lia).
  rewrite Lr. assert (Pn : 0 < INR (length vals)). { apply lt_0_INR. destruct vals; [contradiction|cbn; lia]. }
  rewrite fdiv_ok by lra.
  assert (E : dotl (map (fun q => fst q - snd q) (combine vals y)) (map (fun q => fst q - snd q) (combine vals y)) = sqres y vals).
  { unfold sqres, dist2, dotl, sumR. clear. induction (combine vals y) as [|[a b] l]; [reflexivity|]. cbn [map combine fold_right fst snd]. rewrite IHl. ring. }
  rewrite E. assert (S : 0 <= sqres y vals) by apply dist2_pos.
  assert (D : 0 <= sqres y vals / INR (length vals)) by (apply Rmult_le_pos; [exact S|left; now apply Rinv_0_lt_compat]).
  eexists. split; [reflexivity|]. destruct (Rlt_dec (p_ m) 0) as [Q|Q]; split; intros Q'; try lra.
  - rewrite Rabs_pos_eq by exact D. split; [reflexivity|]. pose proof (exp_ineq1_le (sqres y vals / INR (length vals))). lra.
  - split; [reflexivity|]. split; [exact D|]. split.
    + intros Z. apply dist2_eq; [exact L|]. fold (sqres y vals). apply (Rmult_eq_reg_r (/ INR (length vals))); [rewrite Rmult_0_l; exact Z|].
      apply Rinv_neq_0_compat. lra.
    + intros ->. unfold sqres. rewrite dist2_self. unfold Rdiv. ring.
Qed.
