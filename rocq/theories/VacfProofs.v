From Coq Require Import Reals List Arith ZArith Lra Lia Permutation.
From Verif Require Import Signal SignalSpec Omp OmpProofs Vacf VacfSpec SignalProofs.
Import ListNotations.
Local Open Scope R_scope.

Lemma rsum_ext : forall (X : Type) (f g : X -> R) l, (forall x, In x l -> f x = g x) -> rsum (map f l) = rsum (map g l).
Proof. intros X f g l H. f_equal. apply map_ext_in. assumption. Qed.
Lemma rsum_total : forall f n, rsum (map f (seq 0 n)) = total n f.
Proof.
  intros f n. induction n as [|n IH]; [reflexivity|]. rewrite seq_S, map_app, rsum_app, IH. cbn. lra.
Qed.
Lemma total_ext : forall n f g, (forall i, (i < n)%nat -> f i = g i) -> total n f = total n g.
Proof. induction n as [|n IH]; intros f g H; [reflexivity|]. cbn. rewrite (IH f g), H by (auto with arith). reflexivity. Qed.
Lemma acc_sum : forall (X : Type) (f : X -> R) l c, acc f l c = c + rsum (map f l).
Proof.
  intros X f. induction l as [|x l IH]; intros c; unfold acc, rsum in *; cbn; [lra|]. rewrite IH. lra.
Qed.
Lemma sum_prod : forall (f : nat -> nat -> R) l r,
  rsum (map (fun ji => f (fst ji) (snd ji)) (list_prod l r)) = rsum (map (fun j => rsum (map (f j) r)) l).
Proof.
  intros f l r. induction l as [|a l IH]; [reflexivity|]. cbn. rewrite map_app, rsum_app, IH, map_map. reflexivity.
Qed.

Lemma py1 : forall vel nstep natoms m t,
  acc (fun ji => dot3 (vel (fst ji) (snd ji)) (vel (fst ji + t)%nat (snd ji)) * m (snd ji))
      (list_prod (seq 0 (nstep - t)) (seq 0 natoms)) 0 = Cvv vel nstep natoms m t.
Proof.
  intros. rewrite acc_sum, Rplus_0_l.
  rewrite (sum_prod (fun j i => dot3 (vel j i) (vel (j + t)%nat i) * m i)), rsum_total. apply total_ext. intros j _.
  rewrite rsum_total. apply total_ext. intros i _. unfold dot3. cbn. ring.
Qed.
Lemma sum2_C : forall (a b : nat -> nat -> R) natoms m, sum2 natoms (fun i k => a i k * b i k * m i)
  = total natoms (fun i => m i * (a i 0%nat * b i 0%nat + a i 1%nat * b i 1%nat + a i 2%nat * b i 2%nat)).
Proof. intros. unfold sum2. rewrite rsum_total. apply total_ext. intros i _. cbn. ring. Qed.
Lemma py2 : forall vel nstep natoms m t,
  acc (fun j => sum2 natoms (fun i k => vel j i k * vel (j + t)%nat i k * m i)) (seq 0 (nstep - t)) 0 = Cvv vel nstep natoms m t.
Proof.
  intros. rewrite acc_sum, Rplus_0_l, rsum_total. apply total_ext. intros j _. apply sum2_C.
Qed.
Lemma py3 : forall vel nstep natoms m t,
  sum3 (nstep - t) natoms (fun j i k => vel j i k * vel (t + j)%nat i k * m i) = Cvv vel nstep natoms m t.
Proof.
  intros. unfold sum3. rewrite rsum_total. apply total_ext. intros j _. rewrite (Nat.add_comm t j). apply sum2_C.
Qed.

Lemma over_first_ext : forall n c c', (0 < n)%nat -> (forall t, (t < n)%nat -> c t = c' t) -> over_first n c = over_first n c'.
Proof.
  intros n c c' Hn H. unfold over_first. rewrite H by assumption. destruct (Req_EM_T _ _); [reflexivity|].
  f_equal. apply map_ext_in. intros t Ht. apply in_seq in Ht. rewrite H by lia. reflexivity.
Qed.

Theorem pyvacf_spec : forall vel nstep natoms m method, (1 <= method <= 3)%Z -> (0 < nstep)%nat ->
  pyvacf vel nstep natoms m method = over_first nstep (Cvv vel nstep natoms (masses m)).
Proof.
  intros vel nstep natoms m method Hm Hn. unfold pyvacf.
  assert (method = 1 \/ method = 2 \/ method = 3)%Z as [-> | [-> | ->]] by lia; cbn [Z.eqb Pos.eqb]; apply over_first_ext; auto; intros; 
    [apply py1|apply py2|apply py3].
Qed.

(** ** Fortran *)
Lemma loop1_own : forall v nstep natoms m u t o, In o (loop1 v nstep natoms m u t) -> fst o = t.
Proof. intros v nstep natoms m u t o H. apply in_map_iff in H. destruct H as ([j i] & <- & _). reflexivity. Qed.
Lemma vect_own : forall v nstep natoms t o, In o (vect_loop v nstep natoms t) -> fst o = t.
Proof. intros v nstep natoms t o [<-|[]]. reflexivity. Qed.
Lemma scale_own : forall v m t o, In o (scale_loop v m t) -> fst o = t.
Proof. intros v m t o H. apply in_map_iff in H. destruct H as (k & <- & _). reflexivity. Qed.

Lemma fold_map : forall (X Y Z : Type) (f : X -> Y -> X) (g : Z -> Y) l x, fold_left f (map g l) x = fold_left (fun x z => f x (g z)) l x.
Proof. intros X Y Z f g. induction l as [|a l IH]; intros x; [reflexivity|]. cbn. apply IH. Qed.
Lemma fold_ext : forall (X Y : Type) (f g : X -> Y -> X) l x, (forall x y, f x y = g x y) -> fold_left f l x = fold_left g l x.
Proof. intros X Y f g. induction l as [|a l IH]; intros x H; [reflexivity|]. cbn. rewrite H. apply IH. assumption. Qed.

Lemma loop1_result : forall v nstep natoms m u t, fold_left (fun a o => snd o a) (loop1 v nstep natoms m u t) 0
  = Cvv v nstep natoms (if u then m else fun _ => 1) t.
Proof.
  intros. unfold loop1. rewrite fold_map, <- py1. unfold acc. apply fold_ext. intros c [j i]. cbn. destruct u; unfold dot3; cbn; ring.
Qed.

Lemma method1 : forall v nstep natoms m u c', parallel_do nstep (loop1 v nstep natoms m u) (fun _ => 0) c' ->
  forall t, (t < nstep)%nat -> c' t = Cvv v nstep natoms (if u then m else fun _ => 1) t.
Proof.
  intros v nstep natoms m u c' P t Ht. rewrite (parallel_spec _ _ _ _ (loop1_own v nstep natoms m u) P).
  destruct (Nat.ltb_spec t nstep); [|lia]. apply loop1_result.
Qed.
Lemma vect_result : forall v nstep natoms c c', parallel_do nstep (vect_loop v nstep natoms) c c' ->
  forall t, (t < nstep)%nat -> c' t = Cvv v nstep natoms (fun _ => 1) t.
Proof.
  intros v nstep natoms c c' P t Ht. rewrite (parallel_spec _ _ _ _ (vect_own v nstep natoms) P).
  destruct (Nat.ltb_spec t nstep); [|lia]. cbn. rewrite <- py3. unfold sum3, sum2. apply rsum_ext. intros. apply rsum_ext. intros. apply rsum_ext. intros. ring.
Qed.
Lemma scaled : forall v nstep m vv0 vv, parallel_do nstep (scale_loop v m) vv0 vv ->
  forall j i k, (j < nstep)%nat -> (k < 3)%nat -> vv j i k = sqrt (m i) * v j i k.
Proof.
  intros v nstep m vv0 vv P j i k Hj Hk. rewrite (parallel_spec _ _ _ _ (scale_own v m) P).
  destruct (Nat.ltb_spec j nstep); [|lia]. cbn. destruct k as [|[|[|k]]]; try lia; reflexivity.
Qed.

Theorem fvacf_spec : forall vel nstep natoms m method res, (1 <= method <= 2)%Z -> (0 < nstep)%nat ->
  (forall i, (i < natoms)%nat -> 0 <= masses m i) ->
  fvacf vel nstep natoms m method res -> res = over_first nstep (Cvv vel nstep natoms (masses m)).
Proof.
  intros vel nstep natoms m method res Hm Hn Pos H. destruct m as [m|]; cbn [fvacf masses] in *; unfold flib_vacf in H;
    assert (method = 1 \/ method = 2)%Z as [-> | ->] by lia; cbn [Z.eqb Pos.eqb] in H.
  - destruct H as (c' & P & ->). apply over_first_ext; [assumption|]. apply (method1 _ _ _ _ true). assumption.
  - destruct H as (vv0 & vv & c' & P1 & P2 & ->). apply over_first_ext; [assumption|]. intros t Ht.
    rewrite (vect_result _ _ _ _ _ P2 t Ht). unfold Cvv. apply total_ext. intros j Hj. apply total_ext. intros i Hi.
    rewrite !(scaled _ _ _ _ _ P1) by lia. rewrite <- (sqrt_sqrt (m i)) at 7 by auto. ring.
  - destruct H as (dummy & c' & P & ->). apply over_first_ext; [assumption|]. apply (method1 _ _ _ _ false _ P).
  - destruct H as (dummy & c' & P & ->). apply over_first_ext; [assumption|]. apply (vect_result _ _ _ _ _ P).
Qed.

(** There is a result for every distribution of the iterations. *)
Lemma parallel_exists : forall (A : Type) n (body : nat -> list (op A)) m assign,
  (forall t o, In o (body t) -> fst o = t) -> Permutation (concat assign) (seq 0 n) ->
  (exists c, steps (work (start m body assign)) (start m body assign) c /\ finished c) /\ exists m', parallel_do n body m m'.
Proof.
  intros A n body m assign B P.
  assert (ND : NoDup (concat assign)) by (eapply Permutation_NoDup; [apply Permutation_sym; exact P|apply seq_NoDup]).
  destruct (start_inv m body assign ND B) as [owner I].
  destruct (run_to_end _ _ _ _ I eq_refl) as (c & S & F). split; [eauto|]. exists (mem c). exists assign, (work (start m body assign)), c. auto.
Qed.
Lemma one_thread : forall n, Permutation (concat [seq 0 n]) (seq 0 n).
Proof. intros n. cbn. rewrite app_nil_r. apply Permutation_refl. Qed.

Theorem fvacf_exists : forall vel nstep natoms m method, exists res, fvacf vel nstep natoms m method res.
Proof.
  intros vel nstep natoms m method.
  assert (G : forall v m u, exists c', parallel_do nstep (loop1 v nstep natoms m u) (fun _ => 0) c')
    by (intros; eapply (proj2 (parallel_exists _ _ _ _ _ (loop1_own _ _ _ _ _) (one_thread nstep)))).
  assert (V : forall v, exists c', parallel_do nstep (vect_loop v nstep natoms) (fun _ => 0) c')
    by (intros; eapply (proj2 (parallel_exists _ _ _ _ _ (vect_own _ _ _) (one_thread nstep)))).
  destruct m as [m|]; cbn; unfold flib_vacf; destruct (method =? 1)%Z; [|destruct (method =? 2)%Z| |destruct (method =? 2)%Z].
  - destruct (G vel m true) as [c' P]. eauto.
  - destruct (proj2 (parallel_exists _ _ _ (fun _ _ _ => 0) _ (scale_own vel m) (one_thread nstep))) as [vv P].
    destruct (V vv) as [c' P']. eexists. exists (fun _ _ _ => 0), vv, c'. eauto.
  - eauto.
  - destruct (G vel (fun _ => 0) false) as [c' P]. eexists. exists (fun _ => 0). eauto.
  - destruct (V vel) as [c' P]. eexists. exists (fun _ => 0). eauto.
  - eexists. exists (fun _ => 0). reflexivity.
Qed.

(** ** Bound *)
Lemma total_plus : forall n f g, total n (fun i => f i + g i) = total n f + total n g.
Proof. induction n as [|n IH]; intros f g; cbn; [lra|]. rewrite IH. lra. Qed.
Lemma total_scal : forall n f a, total n (fun i => a * f i) = a * total n f.
Proof. induction n as [|n IH]; intros f a; cbn; [lra|]. rewrite IH. lra. Qed.
Lemma total_swap : forall n m f, total n (fun i => total m (f i)) = total m (fun j => total n (fun i => f i j)).
Proof.
  induction n as [|n IH]; intros m f; cbn.
  - induction m as [|m IHm]; cbn; [reflexivity|]. rewrite <- IHm. lra.
  - rewrite IH, <- total_plus. reflexivity.
Qed.
Lemma total_le : forall n f g, (forall i, (i < n)%nat -> f i <= g i) -> total n f <= total n g.
Proof. induction n as [|n IH]; intros f g H; cbn; [lra|]. specialize (IH f g). pose proof (H n ltac:(lia)). assert (total n f <= total n g) by (apply IH; intros; apply H; lia). lra. Qed.
Lemma total_abs : forall n f, Rabs (total n f) <= total n (fun i => Rabs (f i)).
Proof.
  induction n as [|n IH]; intros f; cbn; [rewrite Rabs_R0; lra|]. eapply Rle_trans; [apply Rabs_triang|]. specialize (IH f). lra.
Qed.

Definition column (vel : velocity) (nstep i k : nat) : list R := map (fun j => vel j i k) (seq 0 nstep).
Lemma column_nth : forall vel nstep i k j, (j < nstep)%nat -> nth j (column vel nstep i k) 0 = vel j i k.
Proof. intros. unfold column. rewrite (nth_map_seq _ (fun j => vel j i k)) by assumption. reflexivity. Qed.
Lemma column_length : forall vel nstep i k, length (column vel nstep i k) = nstep.
Proof. intros. unfold column. rewrite map_length, seq_length. reflexivity. Qed.

Lemma column_acf : forall vel nstep i k t, acf (column vel nstep i k) t = total (nstep - t) (fun j => vel j i k * vel (j + t)%nat i k).
Proof.
  intros. unfold acf. rewrite column_length, rsum_total. apply total_ext. intros j Hj. rewrite !column_nth by lia. reflexivity.
Qed.
Lemma Cvv_acf : forall vel nstep natoms m t, Cvv vel nstep natoms m t
  = total natoms (fun i => m i * (acf (column vel nstep i 0) t + acf (column vel nstep i 1) t + acf (column vel nstep i 2) t)).
Proof.
  intros. unfold Cvv. rewrite total_swap. apply total_ext. intros i _. rewrite total_scal. f_equal.
  rewrite !column_acf, !total_plus. reflexivity.
Qed.
Theorem Cvv_bound : forall vel nstep natoms m t, (forall i, (i < natoms)%nat -> 0 <= m i) ->
  Rabs (Cvv vel nstep natoms m t) <= Cvv vel nstep natoms m 0.
Proof.
  intros vel nstep natoms m t P. rewrite !Cvv_acf. eapply Rle_trans; [apply total_abs|]. apply total_le. intros i Hi.
  rewrite Rabs_mult, (Rabs_right (m i)) by (apply Rle_ge; auto). apply Rmult_le_compat_l; [auto|].
  eapply Rle_trans; [apply Rabs_triang|]. pose proof (Rabs_triang (acf (column vel nstep i 0) t) (acf (column vel nstep i 1) t)).
  pose proof (acf_bound (column vel nstep i 0) t). pose proof (acf_bound (column vel nstep i 1) t). pose proof (acf_bound (column vel nstep i 2) t). lra.
Qed.
