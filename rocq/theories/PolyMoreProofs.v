From Coq Require Import Reals List Arith Bool Lia Lra FunctionalExtensionality.
From Coquelicot Require Import Coquelicot.
From Verif Require Import Poly PolySpec PolyProofs.
Import ListNotations.
Local Open Scope R_scope.
Local Notation Forall := List.Forall.

(** * Exact data, uniqueness *)
Lemma deviation_nonneg : forall f xs vs, 0 <= deviation f xs vs.
Proof.
  induction xs as [|x xs IH]; intros vs; cbn; [lra|]. destruct vs as [|v vs]; [lra|].
  specialize (IH vs). pose proof (Rle_0_sqr (f x - v)) as Q. unfold Rsqr in Q. lra.
Qed.

Lemma deviation_zero : forall f xs vs, length vs = length xs -> deviation f xs vs = 0 -> vs = map f xs.
Proof.
  induction xs as [|x xs IH]; intros vs L D; [destruct vs; [reflexivity|discriminate]|].
  destruct vs as [|v vs]; [discriminate|]. injection L as L. cbn in D.
  pose proof (deviation_nonneg f xs vs) as N. pose proof (Rle_0_sqr (f x - v)) as Q. unfold Rsqr in Q.
  cbn [map]. rewrite (IH vs L) by lra. f_equal. nra.
Qed.

Lemma deviation_self : forall f xs, deviation f xs (map f xs) = 0.
Proof. induction xs as [|x xs IH]; cbn; [reflexivity|]. rewrite IH. ring. Qed.

Theorem exact_spec : forall lstsq n points deg s sv f (p0 : mpoly n), least_squares lstsq ->
  Forall (fun x => length x = n) points ->
  polyfit lstsq n points (map (value deg p0) points) deg s sv = Some f ->
  polyval f points 0 = Some (map (value deg p0) points) /\
  forall q, length q = n ->
  (forall d : mpoly n, Forall (fun x => value deg d x = 0) points -> value deg d q = 0) ->
  polyval f [q] 0 = Some [value deg p0 q].
Proof.
  intros lstsq n points deg s sv f p0 LS F E.
  destruct (fit_spec _ _ _ _ _ _ _ _ LS F E) as (p & Hp & Hmin).
  destruct (polyfit_inv _ _ _ _ _ _ _ _ F E) as (_ & _ & _ & Nd & _).
  specialize (Hmin p0). rewrite deviation_self in Hmin.
  pose proof (deviation_nonneg (value deg p) points (map (value deg p0) points)) as N.
  assert (M : map (value deg p0) points = map (value deg p) points).
  { apply deviation_zero; [apply map_length|lra]. }
  rewrite !polyval_0 by (rewrite Nd; auto).
  split.
  - f_equal. rewrite M. rewrite Forall_forall in F. apply map_ext_in. intros x Hx. apply Hp. auto.
  - intros q Lq U. rewrite polyval_0 by (rewrite Nd; auto). cbn [map]. rewrite Hp by assumption. do 2 f_equal.
    destruct (isp_lin deg n 1 (value deg p) (-1) (value deg p0)) as [d Hd]; [exists p; reflexivity|exists p0; reflexivity|].
    specialize (U d). rewrite <- Hd in U by assumption.
    assert (1 * value deg p q + -1 * value deg p0 q = 0); [|lra]. apply U.
    rewrite Forall_forall in *. intros x Hx. rewrite <- Hd by auto.
    assert (G : forall l, map (value deg p0) l = map (value deg p) l -> forall x, In x l -> value deg p0 x = value deg p x).
    { clear. induction l as [|a l IH]; intros E x Hi; [destruct Hi|]. cbn in E. injection E as E1 E2. destruct Hi as [<-|Hi]; auto. }
    rewrite (G points M x Hx). lra.
Qed.

Lemma deviation_mid : forall f g xs vs, length vs = length xs ->
  deviation (fun x => / 2 * f x + / 2 * g x) xs vs
  = / 2 * deviation f xs vs + / 2 * deviation g xs vs - / 4 * deviation f xs (map g xs).
Proof.
  induction xs as [|x xs IH]; intros vs L; cbn; [lra|]. destruct vs as [|v vs]; [discriminate|]. injection L as L.
  rewrite IH by assumption. field.
Qed.

Theorem unique_spec : forall lstsq lstsq' n points values deg s sv s' sv' f f',
  least_squares lstsq -> least_squares lstsq' -> Forall (fun x => length x = n) points ->
  polyfit lstsq n points values deg s sv = Some f ->
  polyfit lstsq' n points values deg s' sv' = Some f' ->
  polyval f points 0 = polyval f' points 0.
Proof.
  intros lstsq lstsq' n points values deg s sv s' sv' f f' LS LS' F E E'.
  destruct (fit_spec _ _ _ _ _ _ _ _ LS F E) as (p & Hp & Hmin).
  destruct (fit_spec _ _ _ _ _ _ _ _ LS' F E') as (p' & Hp' & Hmin').
  destruct (polyfit_inv _ _ _ _ _ _ _ _ F E) as (_ & Lv & _ & Nd & _).
  destruct (polyfit_inv _ _ _ _ _ _ _ _ F E') as (_ & _ & _ & Nd' & _).
  rewrite !polyval_0 by (rewrite ?Nd, ?Nd'; auto). f_equal.
  destruct (isp_lin deg n (/ 2) (value deg p) (/ 2) (value deg p')) as [d Hd]; [exists p; reflexivity|exists p'; reflexivity|].
  rewrite Forall_forall in F.
  assert (ED : deviation (value deg d) points values
     = deviation (fun x => / 2 * value deg p x + / 2 * value deg p' x) points values).
  { apply deviation_ext. intros x Hx. symmetry. apply Hd. auto. }
  rewrite deviation_mid in ED by assumption.
  pose proof (Hmin d) as H1. pose proof (Hmin' p) as H2. pose proof (Hmin p') as H3.
  pose proof (deviation_nonneg (value deg p) points (map (value deg p') points)) as N.
  assert (Z : map (value deg p') points = map (value deg p) points) by (apply deviation_zero; [apply map_length|lra]).
  transitivity (map (value deg p) points); [apply map_ext_in; auto|]. rewrite <- Z. symmetry. apply map_ext_in. auto.
Qed.

(** * When a fit exists *)
Lemma lmin_le : forall l x, In x l -> lmin l <= x.
Proof.
  intros [|a l] x Hx; [destruct Hx|]. unfold lmin. cbn [hd tl].
  assert (G : forall l, fold_right Rmin a l <= a /\ forall y, In y l -> fold_right Rmin a l <= y).
  { induction l0 as [|b l0 [I1 I2]]; cbn; [split; [lra|intros y []]|]. split.
    - eapply Rle_trans; [apply Rmin_r|assumption].
    - intros y [->|Hy]; [apply Rmin_l|]. eapply Rle_trans; [apply Rmin_r|auto]. }
  destruct Hx as [<-|Hx]; [exact (proj1 (G l))|exact (proj2 (G l) x Hx)].
Qed.

Lemma lmin_in : forall l, l <> [] -> In (lmin l) l.
Proof.
  intros [|a l] H; [contradiction|]. unfold lmin. cbn [hd tl].
  assert (G : forall l, fold_right Rmin a l = a \/ In (fold_right Rmin a l) l).
  { induction l0 as [|b l0 IH]; cbn; [left; reflexivity|]. assert (D : Rmin b (fold_right Rmin a l0) = b \/ Rmin b (fold_right Rmin a l0) = fold_right Rmin a l0)
      by (apply Rmin_case; auto). destruct D as [D|D]; rewrite D.
    - right. left. reflexivity.
    - destruct IH as [->|IH]; [left; reflexivity|right; right; assumption]. }
  destruct (G l) as [->|I]; [left; reflexivity|right; assumption].
Qed.

Lemma lmax_ge : forall l x, In x l -> x <= lmax l.
Proof.
  intros [|a l] x Hx; [destruct Hx|]. unfold lmax. cbn [hd tl].
  assert (G : forall l, a <= fold_right Rmax a l /\ forall y, In y l -> y <= fold_right Rmax a l).
  { induction l0 as [|b l0 [I1 I2]]; cbn; [split; [lra|intros y []]|]. split.
    - eapply Rle_trans; [eassumption|apply Rmax_r].
    - intros y [->|Hy]; [apply Rmax_l|]. eapply Rle_trans; [apply I2; assumption|apply Rmax_r]. }
  destruct Hx as [<-|Hx]; [exact (proj1 (G l))|exact (proj2 (G l) x Hx)].
Qed.

Lemma lmax_in : forall l, l <> [] -> In (lmax l) l.
Proof.
  intros [|a l] H; [contradiction|]. unfold lmax. cbn [hd tl].
  assert (G : forall l, fold_right Rmax a l = a \/ In (fold_right Rmax a l) l).
  { induction l0 as [|b l0 IH]; cbn; [left; reflexivity|]. assert (D : Rmax b (fold_right Rmax a l0) = b \/ Rmax b (fold_right Rmax a l0) = fold_right Rmax a l0)
      by (apply Rmax_case; auto). destruct D as [D|D]; rewrite D.
    - right. left. reflexivity.
    - destruct IH as [->|IH]; [left; reflexivity|right; right; assumption]. }
  destruct (G l) as [->|I]; [left; reflexivity|right; assumption].
Qed.

(** The scale of a list: never negative, zero exactly for constant non-negative data;
    it maps the data into [0, 1]. *)
Lemma range_spec : forall l, l <> [] ->
  0 <= lmax (map Rabs l) - lmin l /\
  (lmax (map Rabs l) - lmin l = 0 <-> exists c, 0 <= c /\ Forall (fun x => x = c) l) /\
  (lmax (map Rabs l) - lmin l <> 0 -> Forall (fun x => 0 <= (x - lmin l) / (lmax (map Rabs l) - lmin l) <= 1) l).
Proof.
  intros l H.
  assert (B : forall x, In x l -> lmin l <= x /\ x <= Rabs x /\ Rabs x <= lmax (map Rabs l)).
  { intros x Hx. split; [apply lmin_le; assumption|]. split; [apply Rle_abs|]. apply lmax_ge. apply in_map. assumption. }
  pose proof (B _ (lmin_in l H)) as B0.
  assert (P : 0 <= lmax (map Rabs l) - lmin l) by lra.
  split; [assumption|]. split; [split|].
  - intros E. exists (lmin l). split.
    + pose proof (Rabs_pos (lmin l)). lra.
    + rewrite Forall_forall. intros x Hx. specialize (B x Hx). lra.
  - intros (c & Hc & F). rewrite Forall_forall in F.
    pose proof (F _ (lmin_in l H)) as E1.
    assert (I : In (lmax (map Rabs l)) (map Rabs l)) by (apply lmax_in; destruct l; [contradiction|discriminate]).
    apply in_map_iff in I. destruct I as (x & Ex & Hx). specialize (F x Hx). rewrite <- Ex, F, E1, Rabs_pos_eq by assumption. lra.
  - intros N. rewrite Forall_forall. intros x Hx. specialize (B x Hx).
    assert (Q : 0 < lmax (map Rabs l) - lmin l) by lra. split.
    + apply Rmult_le_pos; [lra|]. left. apply Rinv_0_lt_compat. assumption.
    + apply (Rmult_le_reg_r (lmax (map Rabs l) - lmin l)); [assumption|].
      unfold Rdiv. rewrite Rmult_assoc, Rinv_l by assumption. lra.
Qed.

Theorem defined_spec : forall lstsq n points values deg, points <> [] -> length values = length points ->
  ((exists f, polyfit lstsq n points values deg true false = Some f) <->
   ~ (exists c, 0 <= c /\ Forall (fun v => v = c) values) /\
   forall j, (j < n)%nat -> ~ (exists c, 0 <= c /\ Forall (fun x => nth j x 0 = c) points)).
Proof.
  intros lstsq n points values deg NE L. unfold polyfit.
  rewrite L, Nat.eqb_refl. cbn [negb]. destruct (Nat.eqb_spec (length points) 0) as [Z|_]; [destruct points; [contradiction|discriminate]|].
  assert (NV : values <> []) by (destruct values; [destruct points; [contradiction|discriminate]|discriminate]).
  destruct (range_spec values NV) as (_ & RV & _).
  assert (RP : forall j, lmax (map Rabs (column j points)) - lmin (column j points) = 0 <->
     exists c, 0 <= c /\ Forall (fun x => nth j x 0 = c) points).
  { intros j. destruct (range_spec (column j points)) as (_ & Q & _).
    { unfold column. destruct points; [contradiction|discriminate]. }
    rewrite Q. unfold column. split; intros (c & Hc & F); exists c; (split; [assumption|]); rewrite Forall_forall in *.
    - intros x Hx. apply F. apply in_map_iff. exists x. auto.
    - intros x Hx. apply in_map_iff in Hx. destruct Hx as (y & <- & Hy). auto. }
  assert (ZP : zip Rminus (map (fun c => lmax (map Rabs c)) (columns n points)) (map lmin (columns n points))
     = map (fun j => lmax (map Rabs (column j points)) - lmin (column j points)) (seq 0 n)).
  { unfold columns. rewrite !map_map. generalize (seq 0 n). induction l as [|a l IH]; [reflexivity|]. cbn. rewrite IH. reflexivity. }
  rewrite ZP. clear ZP.
  destruct (forallb Rnz _) eqn:E1.
  - apply Rnz_spec in E1. rewrite Forall_forall in E1. unfold Rnz at 1. destruct (Req_EM_T _ 0) as [E2|E2]; cbn [andb negb].
    + split; [intros [f Hf]; discriminate|]. intros [Q _]. exfalso. apply Q. apply RV. assumption.
    + split; [|intros _; eexists; reflexivity]. intros _. split; [intros Q; apply RV in Q; contradiction|].
      intros j Hj Q. apply RP in Q. eapply E1; [|exact Q]. apply in_map_iff. exists j. split; [reflexivity|]. apply in_seq. lia.
  - cbn [andb negb]. split; [intros [f Hf]; discriminate|]. intros [_ Q]. exfalso.
    assert (NF : ~ Forall (fun x => x <> 0) (map (fun j => lmax (map Rabs (column j points)) - lmin (column j points)) (seq 0 n))).
    { intros Fa. apply Rnz_spec in Fa. rewrite Fa in E1. discriminate. }
    apply NF. rewrite Forall_forall. intros x Hx Ex. apply in_map_iff in Hx. destruct Hx as (j & <- & Hj). apply in_seq in Hj.
    apply (Q j ltac:(lia)). apply RP. assumption.
Qed.

(** * Derivatives in one dimension *)
Fixpoint ascending (c : list R) (x : R) : R :=
  match c with [] => 0 | a :: c => a + x * ascending c x end.

Lemma horner : forall c x, np_polyval (rev c) x = ascending c x.
Proof.
  intros c x. unfold np_polyval. rewrite <- fold_left_rev_right, rev_involutive.
  induction c as [|a c IH]; cbn; [reflexivity|]. rewrite IH. ring.
Qed.

(** Ascending coefficients of the derivative. *)
Fixpoint dcoeffs (k : nat) (c : list R) : list R :=
  match c with [] => [] | a :: c => INR k * a :: dcoeffs (S k) c end.

Lemma dcoeffs_deriv : forall (c : list R) (x : R), is_derive (ascending c) x (ascending (dcoeffs 1 (tl c)) x).
Proof.
  assert (G : forall c x k, ascending (dcoeffs (S k) c) x = ascending (dcoeffs k c) x + ascending c x).
  { induction c as [|a c IH]; intros x k; cbn [dcoeffs ascending]; [lra|]. rewrite IH, S_INR. ring. }
  assert (Z : forall c x, ascending (dcoeffs 0 c) x = x * ascending (dcoeffs 1 (tl c)) x).
  { intros [|a c] x; cbn [dcoeffs ascending tl]; [ring|]. cbn [INR]. ring. }
  induction c as [|a c IH]; intros x; cbn [tl].
  - exact (@is_derive_const R_AbsRing R_NormedModule 0 x).
  - apply is_derive_ext with (f := fun x => a + x * ascending c x); [reflexivity|].
    assert (Q : ascending (dcoeffs 1 c) x = 0 + (1 * ascending c x + x * ascending (dcoeffs 1 (tl c)) x))
      by (rewrite G, Z; ring).
    rewrite Q.
    apply (is_derive_plus (fun _ => a) (fun x => x * ascending c x)); [exact (@is_derive_const R_AbsRing R_NormedModule a x)|].
    apply (is_derive_mult (fun x => x) (ascending c)); [exact (@is_derive_id R_AbsRing x)|apply IH|intros; apply Rmult_comm].
Qed.

Lemma zip_app {A B C} (f : A -> B -> C) : forall l l' m m', length l = length m ->
  zip f (l ++ l') (m ++ m') = zip f l m ++ zip f l' m'.
Proof. induction l as [|x l IH]; destruct m as [|y m]; cbn; intros m' E; try lia; [reflexivity|]. rewrite IH by lia. reflexivity. Qed.

Lemma zip_rev {A B C} (f : A -> B -> C) : forall l m, length l = length m -> zip f (rev l) (rev m) = rev (zip f l m).
Proof.
  induction l as [|x l IH]; destruct m as [|y m]; cbn; intros E; try lia; [reflexivity|].
  rewrite zip_app by (rewrite !rev_length; lia). rewrite IH by lia. reflexivity.
Qed.

Lemma polyder1_rev : forall c, polyder1 (rev c) = rev (dcoeffs 1 (tl c)).
Proof.
  intros [|a c]; [reflexivity|]. unfold polyder1. cbn [tl rev]. rewrite removelast_last.
  rewrite app_length, rev_length. cbn [length]. replace (length c + 1 - 1)%nat with (length c) by lia.
  rewrite zip_rev by (rewrite map_length, seq_length; reflexivity). f_equal.
  generalize 1%nat. induction c as [|b c IH]; intros k; [reflexivity|]. cbn [length seq map zip dcoeffs].
  rewrite IH. f_equal. ring.
Qed.

Fixpoint dcoeffs_n (m : nat) (c : list R) : list R :=
  match m with O => c | S m => dcoeffs_n m (dcoeffs 1 (tl c)) end.

Lemma polyder_rev : forall m c, polyder (rev c) m = rev (dcoeffs_n m c).
Proof. induction m as [|m IH]; intros c; [reflexivity|]. cbn [polyder dcoeffs_n]. rewrite polyder1_rev. apply IH. Qed.

Lemma dcoeffs_n_S : forall m c, dcoeffs_n (S m) c = dcoeffs 1 (tl (dcoeffs_n m c)).
Proof. induction m as [|m IH]; intros c; [reflexivity|]. cbn [dcoeffs_n] in *. rewrite <- IH. reflexivity. Qed.

Lemma dot_powers : forall n x c s, length c = n ->
  dot (map (fun k => x ^ k * 1) (seq s n)) c = x ^ s * ascending c x.
Proof.
  unfold dot, sum. induction n as [|n IH]; intros x c s L; destruct c as [|a c]; try discriminate; cbn [seq map zip fold_right ascending]; [ring|].
  injection L as L. rewrite IH by assumption. cbn [pow]. ring.
Qed.

Lemma poly_at_1 : forall f x pm ps, pmin f = [pm] -> pscale f = [ps] -> length (coeffs f) = (deg_ f + 1)%nat ->
  poly_at f [x] = ascending (coeffs f) ((x - pm) / ps) * vscale f + vmin f.
Proof.
  intros f x pm ps Em Es L. unfold poly_at. rewrite Em, Es. unfold scaled. cbn [zip].
  unfold vander_row. cbn [length poly_powers].
  assert (G : forall l, flat_map (fun k => map (cons k) [[]]) l = map (fun k : nat => [k]) l).
  { induction l as [|a l IH]; [reflexivity|]. cbn. cbn in IH. rewrite IH. reflexivity. }
  rewrite G, map_map. cbn [zip prod fold_right]. rewrite dot_powers by assumption. cbn [pow]. ring.
Qed.

Theorem derivative_spec : forall f pm ps der x, (0 < der)%nat -> ndim f = 1%nat ->
  pmin f = [pm] -> pscale f = [ps] -> ps <> 0 -> length (coeffs f) = (deg_ f + 1)%nat ->
  exists y, polyval f [[x]] der = Some [y] /\ is_derive_n (fun t => poly_at f [t]) der x y.
Proof.
  intros f pm ps der x Hd N1 Em Es Hs L. unfold polyval. rewrite N1, Em, Es. cbn [forallb length Nat.eqb andb negb map nth].
  replace (0 <? der)%nat with true by (symmetry; apply Nat.ltb_lt; assumption).
  eexists. split; [reflexivity|]. rewrite polyder_rev, horner.
  assert (D : forall m t, is_derive_n (fun t => ascending (coeffs f) ((t - pm) / ps) * vscale f) m t
     (ascending (dcoeffs_n m (coeffs f)) ((t - pm) / ps) / ps ^ m * vscale f)).
  { induction m as [|m IH]; intros t.
    - cbn. field.
    - cbn [is_derive_n].
      apply is_derive_ext with (f := fun t => ascending (dcoeffs_n m (coeffs f)) ((t - pm) / ps) / ps ^ m * vscale f).
      + intros s. symmetry. apply is_derive_n_unique. apply IH.
      + rewrite dcoeffs_n_S. set (c := dcoeffs_n m (coeffs f)).
        replace (ascending (dcoeffs 1 (tl c)) ((t - pm) / ps) / ps ^ S m * vscale f)
          with (scal (/ ps ^ m * vscale f) (scal (/ ps) (ascending (dcoeffs 1 (tl c)) ((t - pm) / ps)))).
        2:{ unfold scal; cbn; unfold mult; cbn. field. split; [apply pow_nonzero|]; assumption. }
        apply is_derive_ext with (f := fun t => scal (/ ps ^ m * vscale f) (ascending c ((t - pm) / ps))).
        { intros s. unfold scal; cbn; unfold mult; cbn. unfold Rdiv. ring. }
        apply (is_derive_scal_l (fun t => ascending c ((t - pm) / ps))) || apply (is_derive_scal (fun t => ascending c ((t - pm) / ps)) t).
        apply (is_derive_comp (ascending c) (fun t => (t - pm) / ps)); [apply dcoeffs_deriv|].
        auto_derive; [exact I|]. field. assumption. }
  apply is_derive_n_ext with (f := fun t => ascending (coeffs f) ((t - pm) / ps) * vscale f + vmin f).
  { intros t. symmetry. apply poly_at_1; assumption. }
  destruct der as [|d]; [lia|].
  eapply is_derive_n_ext; [intros t; reflexivity|].
  replace (ascending (dcoeffs_n (S d) (coeffs f)) ((x - pm) / ps) / ps ^ S d * vscale f)
    with (plus (ascending (dcoeffs_n (S d) (coeffs f)) ((x - pm) / ps) / ps ^ S d * vscale f) 0) by (apply Rplus_0_r).
  apply is_derive_n_plus.
  - apply filter_forall. intros y [|k] _; [exact I|]. eexists. apply (D (S k)).
  - apply filter_forall. intros y k _. apply ex_derive_n_const.
  - apply D.
  - apply (is_derive_n_const d).
Qed.
