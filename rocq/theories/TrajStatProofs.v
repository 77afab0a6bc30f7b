From Coq Require Import Reals List Arith ZArith String Bool Lra Lia.
From Verif Require Import StructGetters Traj Signal TrajStat.
Import ListNotations.
Local Open Scope list_scope.
Local Open Scope R_scope.
Local Notation length := List.length.

Lemma zip_length {A B C} (f : A -> B -> C) l m : length (zip_with f l m) = Nat.min (length l) (length m).
Proof. revert m. induction l as [|a l IH]; intros [|b m]; cbn; auto. Qed.
Lemma zip_nth {A B C} (f : A -> B -> C) l m i : nth_error (zip_with f l m) i =
  match nth_error l i, nth_error m i with Some a, Some b => Some (f a b) | _, _ => None end.
Proof.
  revert m i. induction l as [|a l IH]; intros [|b m] [|i]; cbn; auto. destruct (nth_error l i); reflexivity.
Qed.
Lemma nth_error_skipn {A} n (l : list A) i : nth_error (skipn n l) i = nth_error l (n + i).
Proof. revert l. induction n as [|n IH]; intros [|a l]; cbn; auto. destruct i; reflexivity. Qed.
Lemma nth_error_firstn {A} n (l : list A) i : nth_error (firstn n l) i = if (i <? n)%nat then nth_error l i else None.
Proof.
  revert l i. induction n as [|n IH]; intros l i; [destruct i; reflexivity|]. destruct l as [|a l]; [destruct i as [|i]; [reflexivity|]; cbn [firstn nth_error]; now destruct (S i <? S n)%nat|].
  destruct i as [|i]; [reflexivity|]. cbn [firstn nth_error]. rewrite IH. reflexivity.
Qed.

(** element k of frame t *)
Definition at_ (arr : list frame) (t k : nat) : option R := match nth_error arr t with Some r => nth_error r k | None => None end.

Lemma central_length dt arr : length (central dt arr) = (length arr - 2)%nat.
Proof. unfold central. rewrite zip_length, skipn_length, firstn_length. lia. Qed.
Lemma central_at dt arr t k x y : at_ arr t k = Some x -> at_ arr (t + 2) k = Some y -> at_ (central dt arr) t k = Some ((y - x) / (2 * dt)).
Proof.
  unfold at_. destruct (nth_error arr t) as [r|] eqn:E; [|discriminate]. destruct (nth_error arr (t + 2)) as [r'|] eqn:E'; [|discriminate].
  intros Hx Hy. assert (t + 2 < length arr)%nat by (apply nth_error_Some; rewrite E'; discriminate).
  assert (C : nth_error (central dt arr) t = Some (zip_with (fun x y => (x - y) / 2 / dt) r' r)).
  { unfold central. rewrite zip_nth, nth_error_skipn, nth_error_firstn. rewrite (Nat.add_comm 2 t). rewrite E'.
    rewrite (proj2 (Nat.ltb_lt t (length arr - 2))) by lia. rewrite E. reflexivity. }
  rewrite C, zip_nth, Hx, Hy. f_equal. unfold Rdiv. rewrite Rmult_assoc. f_equal. now rewrite Rinv_mult.
Qed.

Lemma velocity_none arr dt axis ep : velocity_traj arr dt axis ep = None <-> axis <> 0%Z \/ (ep = true /\ (length arr < 3)%nat).
Proof.
  unfold velocity_traj. destruct (Z.eqb_spec axis 0) as [->|N]; cbn [negb]; [|tauto].
  pose proof (central_length dt arr) as L. destruct ep.
  - destruct (central dt arr) as [|f c] eqn:E; cbn in L.
    + split; [intros _; right; split; [reflexivity|lia]|reflexivity].
    + split; [discriminate|]. intros [H|[_ H]]; [congruence|lia].
  - split; [discriminate|]. intros [H|[H _]]; congruence.
Qed.
Lemma velocity_some arr dt ep v : velocity_traj arr dt 0 ep = Some v ->
  if ep then length v = length arr /\ (forall t, (0 < t < length arr - 1)%nat -> nth_error v t = nth_error (central dt arr) (t - 1)) /\
       nth_error v 0 = nth_error v 1 /\ nth_error v (length arr - 1) = nth_error v (length arr - 2)
  else v = central dt arr.
Proof.
  unfold velocity_traj. cbn [Z.eqb negb]. pose proof (central_length dt arr) as L. destruct ep; [|congruence].
  set (c := central dt arr) in *. destruct c as [|f c'] eqn:E; [discriminate|]. intros H.
  assert (Hv : v = [f] ++ c ++ [last c f]) by (rewrite E; injection H as <-; reflexivity). clear H. rewrite <- E in *. subst v.
  assert (LA : length arr = (length c + 2)%nat) by (rewrite E in L |- *; cbn in *; lia).
  split; [rewrite !app_length; cbn [List.length]; lia|]. split; [|split].
  - intros t Ht. destruct t as [|t]; [lia|]. cbn [app nth_error]. rewrite nth_error_app1 by lia. f_equal. lia.
  - rewrite E. reflexivity.
  - rewrite LA. replace (length c + 2 - 1)%nat with (S (length c)) by lia. replace (length c + 2 - 2)%nat with (length c) by lia.
    cbn [app nth_error]. rewrite nth_error_app2 by lia. rewrite Nat.sub_diag. cbn [nth_error].
    assert (G : exists l0 z, c = l0 ++ [z]) by (destruct (@exists_last _ c) as (l0 & z & ->); [rewrite E; discriminate|eauto]).
    destruct G as (l0 & z & G). rewrite G, last_last, app_length. cbn [length]. rewrite Nat.add_1_r. cbn [nth_error]. rewrite <- app_assoc. rewrite nth_error_app2 by lia.
    now rewrite Nat.sub_diag.
Qed.

(** *** rmsd *)
Lemma rsum_nonneg l : (forall x, In x l -> 0 <= x) -> 0 <= rsum l.
Proof. unfold rsum. induction l as [|a l IH]; intros H; cbn; [lra|]. apply Rplus_le_le_0_compat; [apply H; now left|apply IH; intros; apply H; now right]. Qed.
Lemma sumsq_nonneg l : 0 <= sumsq l.
Proof. apply rsum_nonneg. intros x H. apply in_map_iff in H. destruct H as (y & <- & _). apply Rle_0_sqr. Qed.
(** Cauchy-Schwarz and Minkowski for lists *)
Definition dotl (a b : frame) : R := rsum (zip_with Rmult a b).
Lemma cauchy_list a b : length a = length b -> dotl a b * dotl a b <= sumsq a * sumsq b.
Proof.
  unfold dotl, sumsq, rsum. revert b. induction a as [|x a IH]; intros [|y b] L; cbn in *; try lra; try discriminate.
  injection L as L. specialize (IH b L). set (p := fold_right Rplus 0 (zip_with Rmult a b)) in *.
  set (q := fold_right Rplus 0 (map (fun x => x * x) a)) in *. set (r := fold_right Rplus 0 (map (fun x => x * x) b)) in *.
  assert (Hq : 0 <= q) by (apply (sumsq_nonneg a)). assert (Hr : 0 <= r) by (apply (sumsq_nonneg b)).
  assert (K : 2 * (x * y) * p <= x * x * r + y * y * q).
  { destruct (Req_dec q 0) as [Q|Q].
    - assert (p = 0) by (assert (p * p <= 0) by (rewrite Q in IH; lra); nra). subst p. rewrite H, Q.
      assert (0 <= x * x * r) by (apply Rmult_le_pos; [apply Rle_0_sqr|exact Hr]). lra.
    - assert (Pq : 0 < q) by lra. apply (Rmult_le_reg_l q); [exact Pq|].
      assert (0 <= (y * q - x * p) * (y * q - x * p)) by apply Rle_0_sqr.
      assert (x * x * (p * p) <= x * x * (q * r)) by (apply Rmult_le_compat_l; [apply Rle_0_sqr|exact IH]). nra. }
  nra.
Qed.
Lemma sumsq_add a b : length a = length b -> sumsq (zip_with Rplus a b) = sumsq a + 2 * dotl a b + sumsq b.
Proof.
  unfold dotl, sumsq, rsum. revert b. induction a as [|x a IH]; intros [|y b] L; cbn in *; try discriminate; [ring|].
  injection L as L. rewrite (IH b L). ring.
Qed.
Lemma minkowski a b : length a = length b -> sqrt (sumsq (zip_with Rplus a b)) <= sqrt (sumsq a) + sqrt (sumsq b).
Proof.
  intros L. pose proof (cauchy_list a b L) as C. rewrite (sumsq_add a b L).
  pose proof (sumsq_nonneg a) as Pa. pose proof (sumsq_nonneg b) as Pb. pose proof (sqrt_pos (sumsq a)). pose proof (sqrt_pos (sumsq b)).
  pose proof (sqrt_sqrt _ Pa) as Sa. pose proof (sqrt_sqrt _ Pb) as Sb. set (u := sqrt (sumsq a)) in *. set (v := sqrt (sumsq b)) in *.
  assert (D : dotl a b <= u * v).
  { apply Rsqr_incr_0_var; [unfold Rsqr; nra|]. apply Rmult_le_pos; lra. }
  apply Rsqr_incr_0_var; [|lra]. rewrite Rsqr_sqrt; [unfold Rsqr; nra|]. rewrite <- (sumsq_add a b L). apply sumsq_nonneg.
Qed.

Definition dist (natoms : nat) (a b : frame) : R := sqrt (sumsq (zip_with Rminus a b) / INR natoms).
Lemma rmsd_spec coords natoms ref_idx : (0 < natoms)%nat -> rmsd coords natoms ref_idx =
  match item_list ref_idx coords with None => None | Some ref => Some (map (fun l => Some (dist natoms l ref)) coords) end.
Proof.
  intros N. unfold rmsd. destruct (item_list ref_idx coords) as [ref|]; [|reflexivity]. unfold rms3d. rewrite map_map. f_equal. apply map_ext. intros l.
  unfold rms_n. destruct (Req_EM_T (INR natoms) 0) as [E|]; [|reflexivity]. apply INR_eq with (m := 0%nat) in E. lia.
Qed.
Lemma dist_self natoms a : dist natoms a a = 0.
Proof.
  unfold dist. assert (E : sumsq (zip_with Rminus a a) = 0).
  { unfold sumsq, rsum. induction a as [|x a IH]; cbn; [reflexivity|]. rewrite IH. ring. }
  rewrite E. unfold Rdiv. rewrite Rmult_0_l. apply sqrt_0.
Qed.
Lemma dist_pos natoms a b : 0 <= dist natoms a b.
Proof. apply sqrt_pos. Qed.
Lemma dist_sym natoms a b : dist natoms a b = dist natoms b a.
Proof.
  unfold dist. f_equal. f_equal. unfold sumsq, rsum. revert b. induction a as [|x a IH]; intros [|y b]; cbn; auto. rewrite IH. ring.
Qed.
Lemma zip_minus_plus a b c : length a = length b -> length b = length c -> zip_with Rminus a c = zip_with Rplus (zip_with Rminus a b) (zip_with Rminus b c).
Proof.
  revert b c. induction a as [|x a IH]; intros [|y b] [|z c] L L'; cbn in *; try discriminate; auto. injection L as L. injection L' as L'.
  rewrite (IH b c L L'). f_equal. ring.
Qed.
Lemma dist_triangle natoms a b c : (0 < natoms)%nat -> length a = length b -> length b = length c -> dist natoms a c <= dist natoms a b + dist natoms b c.
Proof.
  intros N L L'. assert (P : 0 < INR natoms) by (apply lt_0_INR; exact N). unfold dist.
  rewrite !sqrt_div by (auto using sumsq_nonneg). rewrite (zip_minus_plus a b c L L').
  assert (M : sqrt (sumsq (zip_with Rplus (zip_with Rminus a b) (zip_with Rminus b c))) <= sqrt (sumsq (zip_with Rminus a b)) + sqrt (sumsq (zip_with Rminus b c))).
  { apply minkowski. rewrite !zip_length. lia. }
  pose proof (sqrt_lt_R0 _ P) as Q. unfold Rdiv. rewrite <- Rmult_plus_distr_r. apply Rmult_le_compat_r; [|exact M].
  apply Rlt_le, Rinv_0_lt_compat, Q.
Qed.

(** *** mean *)
Section Mean.
Variable X : Type.
Notation obj := (Traj.obj frame X R).
Implicit Types self o : obj.

Lemma mean_fold_none self l : fold_left (mean_step X self) l None = None.
Proof. induction l; auto. Qed.
Lemma copy_fold_none self l : fold_left (copy_step X self) l None = None.
Proof. induction l; auto. Qed.
(** What the first loop leaves in an attribute *)
Lemma mean_loop self l : forall o o', fold_left (mean_step X self) l (Some o) = Some o' -> forall a,
  (In a l -> match self a with None => o' a = o a | Some v => exists x r, v = Arr x /\ mean_rows x = Some r /\ o' a = Some (Row r) end)
  /\ (~ In a l -> o' a = o a).
Proof.
  induction l as [|n l IH]; intros o o' H a; cbn [fold_left] in H.
  - injection H as <-. split; [intros []|reflexivity].
  - cbn [mean_step] in H. destruct (self n) as [[x|x|x|x|x]|] eqn:E; try (rewrite mean_fold_none in H; discriminate).
    + destruct (mean_rows x) as [r|] eqn:Er; [|rewrite mean_fold_none in H; discriminate].
      destruct (IH _ _ H a) as [I1 I2]. destruct (in_dec string_dec a l) as [Hin|Hin].
      * split; [|intros N; exfalso; apply N; now right]. intros _. specialize (I1 Hin). destruct (self a) as [v|] eqn:Ea; [exact I1|].
        rewrite I1. unfold setattr. destruct (String.eqb_spec n a) as [->|]; [congruence|reflexivity].
      * rewrite (I2 Hin). unfold setattr. destruct (String.eqb_spec n a) as [->|N].
        { split; [|intros N; exfalso; apply N; now left]. intros _. rewrite E. eauto. }
        { split; [intros [->|]; contradiction|reflexivity]. }
    + destruct (IH _ _ H a) as [I1 I2]. destruct (in_dec string_dec a l) as [Hin|Hin].
      * split; [|intros N; exfalso; apply N; now right]. intros _. exact (I1 Hin).
      * rewrite (I2 Hin). split; [intros [->|]; [now rewrite E|contradiction]|reflexivity].
Qed.
Lemma copy_loop self l : forall o o', fold_left (copy_step X self) l (Some o) = Some o' -> forall a,
  (In a l -> o' a = match self a with None => o a | Some v => Some v end) /\ (~ In a l -> o' a = o a).
Proof.
  induction l as [|n l IH]; intros o o' H a; cbn [fold_left copy_step] in H.
  - injection H as <-. split; [intros []|reflexivity].
  - destruct (self n) as [v|] eqn:E.
    + destruct (IH _ _ H a) as [I1 I2]. destruct (in_dec string_dec a l) as [Hin|Hin].
      * split; [|intros N; exfalso; apply N; now right]. intros _. rewrite (I1 Hin). destruct (self a) eqn:Ea; [reflexivity|].
        unfold setattr. destruct (String.eqb_spec n a) as [->|]; [congruence|reflexivity].
      * rewrite (I2 Hin). unfold setattr. destruct (String.eqb_spec n a) as [->|N].
        { split; [|intros N; exfalso; apply N; now left]. intros _. now rewrite E. }
        { split; [intros [->|]; contradiction|reflexivity]. }
    + destruct (IH _ _ H a) as [I1 I2]. destruct (in_dec string_dec a l) as [Hin|Hin].
      * split; [|intros N; exfalso; apply N; now right]. intros _. exact (I1 Hin).
      * rewrite (I2 Hin). split; [intros [->|]; [now rewrite E|contradiction]|reflexivity].
Qed.
Lemma copy_loop_some self l o : exists o', fold_left (copy_step X self) l (Some o) = Some o'.
Proof. revert o. induction l as [|n l IH]; intros o; [eexists; reflexivity|]. cbn. destruct (self n); apply IH. Qed.
Lemma mean_loop_some self l o : (forall a, In a l -> match self a with None => True | Some v => exists x, v = Arr x /\ x <> [] end) ->
  exists o', fold_left (mean_step X self) l (Some o) = Some o'.
Proof.
  revert o. induction l as [|n l IH]; intros o H; [eexists; reflexivity|]. cbn [fold_left mean_step]. pose proof (H n (or_introl eq_refl)) as Hn.
  destruct (self n) as [v|]; [|apply IH; intros; apply H; now right].
  destruct Hn as (x & -> & N). destruct x as [|f x]; [congruence|]. cbn [mean_rows]. apply IH. intros; apply H; now right.
Qed.
Definition orders (averaged copied : list string) : Prop :=
  (forall a, In a averaged <-> averaged_set a = true) /\ (forall a, In a copied <-> copied_set a = true).
Lemma sets_disjoint a : averaged_set a = true -> copied_set a = true -> False.
Proof.
  unfold averaged_set, copied_set. rewrite !andb_true_iff, !negb_true_iff. unfold Traj.mem. rewrite existsb_app, orb_false_iff. intuition congruence.
Qed.
Lemma mean_spec averaged copied self st : orders averaged copied -> mean X averaged copied self = Some st -> forall a,
  (averaged_set a = true -> match self a with None => st a = None | Some v => exists x r, v = Arr x /\ mean_rows x = Some r /\ st a = Some (Row r) end) /\
  (copied_set a = true -> st a = self a) /\ (averaged_set a = false -> copied_set a = false -> st a = None).
Proof.
  intros [Ha Hc] H a. unfold mean in H. destruct (fold_left (mean_step X self) averaged (Some Traj.none)) as [o|] eqn:E.
  2:{ rewrite copy_fold_none in H. discriminate. }
  destruct (mean_loop _ _ _ _ E a) as [A1 A2], (copy_loop _ _ _ _ H a) as [B1 B2]. split; [|split].
  - intros S. assert (N : ~ In a copied) by (intros I; apply Hc in I; eapply sets_disjoint; eauto). rewrite (B2 N).
    apply Ha in S. specialize (A1 S). destruct (self a) as [v|]; [exact A1|]. rewrite A1. reflexivity.
  - intros S. assert (N : ~ In a averaged) by (intros I; apply Ha in I; eapply sets_disjoint; eauto).
    rewrite (B1 (proj2 (Hc a) S)), (A2 N). now destruct (self a).
  - intros S S'. rewrite B2, A2; [reflexivity| |]; intros I; [apply Ha in I|apply Hc in I]; congruence.
Qed.
Lemma mean_defined averaged copied self : orders averaged copied ->
  (forall a, averaged_set a = true -> match self a with None => True | Some v => exists x, v = Arr x /\ x <> [] end) ->
  exists st, mean X averaged copied self = Some st.
Proof.
  intros [Ha Hc] H. unfold mean. destruct (mean_loop_some self averaged Traj.none) as (o & ->).
  - intros a I. apply H. now apply Ha.
  - apply copy_loop_some.
Qed.
End Mean.

Lemma mean_rows_spec l r : mean_rows l = Some r -> l <> [] /\ length r = length (hd [] l) /\
  forall k, (k < length r)%nat -> nth k r 0 = rsum (map (fun x => nth k x 0) l) / INR (length l).
Proof.
  destruct l as [|f l]; [discriminate|]. unfold mean_rows. intros H. injection H as <-. split; [discriminate|].
  split; [rewrite map_length, seq_length; reflexivity|]. intros k Hk. rewrite map_length, seq_length in Hk.
  set (G := fun k => rsum (map (fun x => nth k x 0) (f :: l)) / INR (length (f :: l))).
  rewrite (nth_indep _ 0 (G 0%nat)) by (rewrite map_length, seq_length; exact Hk).
  change (map _ (seq 0 (length f))) with (map G (seq 0 (length f))). rewrite map_nth, seq_nth by exact Hk. reflexivity.
Qed.
