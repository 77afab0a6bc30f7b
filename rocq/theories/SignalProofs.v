From Coq Require Import Reals List Arith Bool ZArith String Lia Lra Sorted.
From Coquelicot Require Import Coquelicot.
From Verif Require Import Signal SignalSpec.
Import ListNotations.
Local Open Scope R_scope.
Local Notation length := List.length.
Local Notation Forall := List.Forall.

(** * Sums *)
Lemma rsum_app : forall l m, rsum (l ++ m) = rsum l + rsum m.
Proof. unfold rsum. induction l as [|x l IH]; intros m; cbn; [lra|]. rewrite IH. lra. Qed.
Lemma csum_app : forall l m, csum (l ++ m) = Cplus (csum l) (csum m).
Proof. unfold csum. induction l as [|x l IH]; intros m; cbn; [ring|]. rewrite IH. ring. Qed.
Lemma csum_scal : forall (A : Type) (f : A -> C) z l, csum (map (fun a => Cmult z (f a)) l) = Cmult z (csum (map f l)).
Proof. unfold csum. intros A f z l. induction l as [|a l IH]; cbn; [ring|]. rewrite IH. ring. Qed.
Lemma csum_plus : forall (A : Type) (f g : A -> C) l, csum (map (fun a => Cplus (f a) (g a)) l) = Cplus (csum (map f l)) (csum (map g l)).
Proof. unfold csum. intros A f g l. induction l as [|a l IH]; cbn; [ring|]. rewrite IH. ring. Qed.
Lemma csum_zero : forall (A : Type) (f : A -> C) l, (forall a, In a l -> f a = RtoC 0) -> csum (map f l) = RtoC 0.
Proof.
  unfold csum. intros A f l E. induction l as [|a l IH]; cbn; [reflexivity|]. rewrite E by (left; reflexivity).
  rewrite IH; [ring|]. intros. apply E. right. assumption.
Qed.
Lemma csum_swap : forall (A B : Type) (f : A -> B -> C) l m,
  csum (map (fun a => csum (map (fun b => f a b) m)) l) = csum (map (fun b => csum (map (fun a => f a b) l)) m).
Proof.
  intros A B f l m. induction l as [|a l IH].
  - cbn. symmetry. apply csum_zero. reflexivity.
  - cbn [map]. unfold csum at 1. cbn [fold_right]. fold (csum (map (fun a => csum (map (fun b => f a b) m)) l)).
    rewrite IH, <- csum_plus. f_equal.
Qed.
Lemma csum_real : forall l, csum (map RtoC l) = RtoC (rsum l).
Proof. unfold csum, rsum. induction l as [|x l IH]; cbn; [reflexivity|]. rewrite IH, <- RtoC_plus. reflexivity. Qed.
Lemma csum_ext : forall (A : Type) (f g : A -> C) l, (forall a, In a l -> f a = g a) -> csum (map f l) = csum (map g l).
Proof. intros. f_equal. apply map_ext_in. assumption. Qed.
Lemma csum_mult : forall (A B : Type) (f : A -> C) (g : B -> C) l m,
  Cmult (csum (map f l)) (csum (map g m)) = csum (map (fun a => csum (map (fun b => Cmult (f a) (g b)) m)) l).
Proof.
  intros. induction l as [|a l IH]; [unfold csum at 1 3; cbn; ring|].
  cbn [map]. unfold csum at 1 3. cbn [fold_right]. fold (csum (map f l)).
  fold (csum (map (fun a => csum (map (fun b => Cmult (f a) (g b)) m)) l)).
  rewrite <- IH, csum_scal. ring.
Qed.

(** Only one index contributes. *)
Lemma csum_single : forall (f : nat -> C) s n i, (s <= i < s + n)%nat -> (forall j, j <> i -> f j = RtoC 0) ->
  csum (map f (seq s n)) = f i.
Proof.
  intros f s n i Hi E. replace n with ((i - s) + (1 + (n - (i - s) - 1)))%nat by lia.
  rewrite seq_app, map_app, csum_app. rewrite (seq_app 1), map_app, csum_app.
  rewrite (csum_zero _ f (seq s (i - s))) by (intros a Ha; apply in_seq in Ha; apply E; lia).
  rewrite (csum_zero _ f (seq _ (n - _ - 1))) by (intros a Ha; apply in_seq in Ha; apply E; lia).
  cbn [seq map]. unfold csum. cbn [fold_right]. replace (s + (i - s))%nat with i by lia. ring.
Qed.

(** * exp(ix) *)
Lemma cis_add : forall x y, cis (x + y) = Cmult (cis x) (cis y).
Proof. intros. unfold cis, Cmult. cbn. rewrite cos_plus, sin_plus. f_equal. ring. Qed.
Lemma cis_0 : cis 0 = RtoC 1.
Proof. unfold cis. rewrite cos_0, sin_0. reflexivity. Qed.
Lemma cis_conj : forall x, Cconj (cis x) = cis (- x).
Proof. intros. unfold Cconj, cis. cbn. rewrite cos_neg, sin_neg. reflexivity. Qed.
Lemma cis_2PI : forall k, cis (2 * PI * INR k) = RtoC 1.
Proof.
  intros k. unfold cis. replace (2 * PI * INR k) with (0 + 2 * INR k * PI) by ring.
  rewrite cos_period, sin_period, cos_0, sin_0. reflexivity.
Qed.
Lemma cis_2PIZ : forall k, cis (2 * PI * IZR k) = RtoC 1.
Proof.
  intros k. destruct (Z_le_gt_dec 0 k) as [H|H].
  - rewrite <- (Z2Nat.id k) by assumption. rewrite <- INR_IZR_INZ. apply cis_2PI.
  - replace (2 * PI * IZR k) with (- (2 * PI * IZR (- k))) by (rewrite opp_IZR; ring).
    rewrite <- cis_conj. replace (- k)%Z with (Z.of_nat (Z.to_nat (- k))) by lia.
    rewrite <- INR_IZR_INZ, cis_2PI. unfold Cconj, RtoC. cbn. f_equal. ring.
Qed.

Lemma cis_ne_1 : forall x, x <> 0 -> - (2 * PI) < x < 2 * PI -> cis x <> RtoC 1.
Proof.
  intros x Hx B E. injection E as E _. pose proof PI_RGT_0 as P.
  replace x with (2 * (x / 2)) in E by field. rewrite cos_2a_sin in E.
  assert (S : sin (x / 2) = 0) by nra.
  destruct (Rlt_dec 0 x) as [L|L].
  - assert (0 < sin (x / 2)) by (apply sin_gt_0; lra). lra.
  - assert (0 < sin (- (x / 2))) by (apply sin_gt_0; lra). rewrite sin_neg in *. lra.
Qed.

Lemma geometric : forall x n, Cmult (csum (map (fun k => cis (INR k * x)) (seq 0 n))) (Cminus (cis x) (RtoC 1))
  = Cminus (cis (INR n * x)) (RtoC 1).
Proof.
  intros x. induction n as [|n IH].
  - cbn. rewrite Rmult_0_l, cis_0. ring.
  - rewrite seq_S, map_app, csum_app. cbn [map Nat.add]. unfold csum at 2. cbn [fold_right].
    rewrite S_INR. replace ((INR n + 1) * x) with (INR n * x + x) by ring. rewrite cis_add.
    rewrite Cmult_plus_distr_r, IH. ring.
Qed.

(** Sums over the roots of unity. *)
Lemma orthogonal : forall (N : nat) (m : Z), (0 < N)%nat -> (- Z.of_nat N < m < Z.of_nat N)%Z ->
  csum (map (fun k => cis (INR k * (2 * PI * IZR m / INR N))) (seq 0 N))
  = if Z.eq_dec m 0 then RtoC (INR N) else RtoC 0.
Proof.
  intros N m HN Hm. assert (P : 0 < INR N) by (apply lt_0_INR; assumption). destruct (Z.eq_dec m 0) as [->|Z].
  - rewrite (csum_ext _ _ (fun _ => RtoC 1)).
    + clear. induction N as [|N IH]; [reflexivity|]. rewrite seq_S, map_app, csum_app, IH. cbn [map]. unfold csum. cbn [fold_right].
      rewrite S_INR, RtoC_plus. ring.
    + intros k _. replace (INR k * (2 * PI * 0 / INR N)) with 0 by (field; lra). apply cis_0.
  - pose proof (geometric (2 * PI * IZR m / INR N) N) as G.
    replace (INR N * (2 * PI * IZR m / INR N)) with (2 * PI * IZR m) in G by (field; lra). rewrite cis_2PIZ in G.
    set (S := csum _) in *. set (z := cis _) in *.
    assert (NZ : Cminus z (RtoC 1) <> RtoC 0).
    { intros E. assert (E' : z = RtoC 1). { replace z with (Cplus (Cminus z (RtoC 1)) (RtoC 1)) by ring. rewrite E. ring. }
      revert E'. unfold z. pose proof PI_RGT_0 as Ppi.
      assert (IN : INR N = IZR (Z.of_nat N)) by apply INR_IZR_INZ.
      apply cis_ne_1.
      - intros Q. apply Z. apply eq_IZR.
        assert (2 * PI * IZR m = 0). { replace (2 * PI * IZR m) with (2 * PI * IZR m / INR N * INR N) by (field; lra). rewrite Q. ring. }
        nra.
      - destruct Hm as [H1 H2]. apply IZR_lt in H1, H2. rewrite opp_IZR, <- IN in H1. rewrite <- IN in H2.
        split.
        + apply (Rmult_lt_reg_r (INR N)); [assumption|]. unfold Rdiv. rewrite Rmult_assoc, Rinv_l by lra. nra.
        + apply (Rmult_lt_reg_r (INR N)); [assumption|]. unfold Rdiv. rewrite Rmult_assoc, Rinv_l by lra. nra. }
    replace S with (Cmult (Cmult S (Cminus z (RtoC 1))) (Cinv (Cminus z (RtoC 1)))).
    + rewrite G. ring.
    + rewrite <- Cmult_assoc, Cinv_r by assumption. ring.
Qed.

(** * Power spectra *)
Definition fourier (v : nat -> R) (n : nat) (w : R) : C :=
  csum (map (fun j => Cmult (RtoC (v j)) (cis (- (INR j * w)))) (seq 0 n)).

Lemma Cmod_sq : forall z, RtoC (Cmod z ^ 2) = Cmult z (Cconj z).
Proof.
  intros [x y]. unfold Cmod. cbn [fst snd]. rewrite <- Rsqr_pow2, Rsqr_sqrt by (apply Rplus_le_le_0_compat; apply pow2_ge_0).
  unfold Cmult, Cconj, RtoC. cbn. f_equal; ring.
Qed.

Lemma Cconj_csum : forall l, Cconj (csum l) = csum (map Cconj l).
Proof.
  unfold csum. induction l as [|z l IH]; cbn; [unfold Cconj, RtoC; cbn; f_equal; ring|]. rewrite <- IH.
  unfold Cconj, Cplus. cbn. f_equal. ring.
Qed.

Lemma power : forall v n w, RtoC (Cmod (fourier v n w) ^ 2)
  = csum (map (fun a => csum (map (fun b => Cmult (RtoC (v a * v b)) (cis ((INR b - INR a) * w))) (seq 0 n))) (seq 0 n)).
Proof.
  intros v n w. rewrite Cmod_sq. unfold fourier at 2. rewrite Cconj_csum, map_map. unfold fourier. rewrite csum_mult.
  apply csum_ext. intros a _. apply csum_ext. intros b _.
  replace ((INR b - INR a) * w) with (- (INR a * w) + INR b * w) by ring. rewrite cis_add, RtoC_mult.
  replace (Cconj (Cmult (RtoC (v b)) (cis (- (INR b * w))))) with (Cmult (RtoC (v b)) (cis (INR b * w))); [ring|].
  unfold Cconj, Cmult, cis, RtoC. cbn. rewrite cos_neg, sin_neg. f_equal; ring.
Qed.

(** * The methods of acorr *)
Lemma accumulate_sum : forall f js c0, accumulate f js c0 = c0 + rsum (map f js).
Proof. unfold accumulate, rsum. induction js as [|j js IH]; intros c0; cbn; [lra|]. rewrite IH. lra. Qed.

Lemma nth_repeat0 : forall t n, nth t (repeat 0 n) 0 = 0.
Proof. induction t as [|t IH]; destruct n as [|n]; cbn; auto. Qed.

Lemma m1 : forall v t, accumulate (fun j => nth j v 0 * nth (j + t) v 0) (seq 0 (length v - t)) (nth t (repeat 0 (length v)) 0) = acf v t.
Proof. intros. rewrite accumulate_sum, nth_repeat0. unfold acf, rsum. lra. Qed.

Lemma rsum_zero : forall (A : Type) (f : A -> R) l, (forall a, In a l -> f a = 0) -> rsum (map f l) = 0.
Proof.
  unfold rsum. intros A f l E. induction l as [|a l IH]; cbn; [reflexivity|]. rewrite E by (left; reflexivity).
  rewrite IH; [lra|]. intros. apply E. right. assumption.
Qed.

Lemma padded : forall v n j, nth j (v ++ repeat 0 n) 0 = nth j v 0.
Proof.
  intros v n j. destruct (Nat.lt_ge_cases j (length v)) as [H|H].
  - apply app_nth1. assumption.
  - rewrite app_nth2 by assumption. rewrite nth_repeat0. symmetry. apply nth_overflow. assumption.
Qed.

Lemma acf_full : forall v t n, (length v - t <= n)%nat -> rsum (map (fun j => nth j v 0 * nth (j + t) v 0) (seq 0 n)) = acf v t.
Proof.
  intros v t n H. replace n with ((length v - t) + (n - (length v - t)))%nat by lia.
  rewrite seq_app, map_app, rsum_app. rewrite (rsum_zero _ _ (seq (0 + (length v - t)) _)).
  - unfold acf, rsum. lra.
  - intros j Hj. apply in_seq in Hj. rewrite (nth_overflow v 0 (n := j + t)) by lia. ring.
Qed.

Lemma m2 : forall v t, accumulate (fun j => nth j v 0 * nth (j + t) (v ++ repeat 0 (length v)) 0) (seq 0 (length v)) (nth t (repeat 0 (length v)) 0) = acf v t.
Proof.
  intros. rewrite accumulate_sum, nth_repeat0. rewrite <- (acf_full v t (length v)) by lia. rewrite Rplus_0_l. f_equal.
  apply map_ext. intros j. rewrite padded. reflexivity.
Qed.

Lemma map2_nth_sum : forall (a b : list R), rsum (map2 Rmult a b)
  = rsum (map (fun j => nth j a 0 * nth j b 0) (seq 0 (min (length a) (length b)))).
Proof.
  induction a as [|x a IH]; intros b; [reflexivity|]. destruct b as [|y b]; [reflexivity|]. cbn [map2 length Nat.min seq map].
  unfold rsum at 1 2. cbn [fold_right nth]. fold (rsum (map2 Rmult a b)). rewrite IH, <- seq_shift, map_map. reflexivity.
Qed.

Lemma nth_firstn : forall (l : list R) k j, (j < k)%nat -> nth j (firstn k l) 0 = nth j l 0.
Proof. induction l as [|a l IH]; destruct k as [|k]; destruct j as [|j]; cbn; intros H; try lia; auto. apply IH. lia. Qed.
Lemma nth_skipn : forall (l : list R) k j, nth j (skipn k l) 0 = nth (k + j) l 0.
Proof. induction l as [|a l IH]; destruct k as [|k]; intros j; cbn; auto. destruct j; reflexivity. Qed.

Lemma m3 : forall v t, (t <= length v)%nat -> rsum (map2 Rmult (firstn (length v - t) v) (skipn t v)) = acf v t.
Proof.
  intros v t H. rewrite map2_nth_sum, firstn_length, skipn_length. unfold acf, rsum.
  replace (min (min (length v - t) (length v)) (length v - t)) with (length v - t)%nat by lia.
  f_equal. apply map_ext_in. intros j Hj. apply in_seq in Hj. rewrite nth_firstn, nth_skipn by lia. rewrite (Nat.add_comm t). reflexivity.
Qed.

Lemma skipn_map' : forall (A B : Type) (f : A -> B) k l, skipn k (map f l) = map f (skipn k l).
Proof. induction k as [|k IH]; intros [|a l]; cbn; auto. Qed.
Lemma skipn_seq : forall k s n, skipn k (seq s n) = seq (s + k) (n - k).
Proof. induction k as [|k IH]; intros s [|n]; cbn; rewrite ?Nat.add_0_r, ?IH; auto. f_equal. lia. Qed.

Lemma map_seq_shift : forall (A : Type) (f : nat -> A) k n, map f (seq k n) = map (fun t => f (t + k)%nat) (seq 0 n).
Proof.
  intros A f k n. assert (G : forall n s, map f (seq (s + k) n) = map (fun t => f (t + k)%nat) (seq s n)).
  { induction n0 as [|n0 IH]; intros s; [reflexivity|]. cbn [seq map]. f_equal. apply (IH (S s)). }
  apply (G n 0%nat).
Qed.

Lemma m4 : forall v, skipn (length v - 1) (correlate_full v v) = map (acf v) (seq 0 (length v)).
Proof.
  intros v. unfold correlate_full. rewrite skipn_map', skipn_seq. rewrite Nat.add_0_l.
  destruct (Nat.eq_dec (length v) 0) as [Z|NZ]; [rewrite Z; reflexivity|].
  replace (length v + length v - 1 - (length v - 1))%nat with (length v) by lia.
  rewrite map_seq_shift. apply map_ext_in. intros t Ht. apply in_seq in Ht.
  rewrite <- (acf_full v t (length v)) by lia. f_equal. apply map_ext. intros n.
  replace (length v - 1 <=? n + (t + (length v - 1)))%nat with true by (symmetry; apply Nat.leb_le; lia).
  replace (n + (t + (length v - 1)) - (length v - 1))%nat with (n + t)%nat by lia. ring.
Qed.

Lemma nth_map_seq : forall (A : Type) (f : nat -> A) n i d, (i < n)%nat -> nth i (map f (seq 0 n)) d = f i.
Proof.
  intros A f n i d H. rewrite (nth_indep _ d (f 0%nat)) by (rewrite map_length, seq_length; assumption).
  rewrite map_nth, seq_nth by assumption. reflexivity.
Qed.

Lemma fft_real : forall (x : list R) k, (k < length x)%nat ->
  nth k (fft (map RtoC x)) (RtoC 0) = fourier (fun j => nth j x 0) (length x) (2 * PI * INR k / INR (length x)).
Proof.
  intros x k H. unfold fft. rewrite map_length, nth_map_seq by assumption. unfold fourier. apply csum_ext. intros j _.
  change (RtoC 0) with (RtoC 0). rewrite map_nth. do 2 f_equal. assert (0 < INR (length x)) by (apply lt_0_INR; lia). field. lra.
Qed.

Lemma fourier_trunc : forall v n N w, (n <= N)%nat -> (forall j, (n <= j)%nat -> v j = 0) -> fourier v N w = fourier v n w.
Proof.
  intros v n N w H E. unfold fourier. replace N with (n + (N - n))%nat by lia. rewrite seq_app, map_app, csum_app.
  rewrite (csum_zero _ _ (seq _ (N - n))); [ring|]. intros j Hj. apply in_seq in Hj. rewrite E by lia. ring.
Qed.

(** Wiener-Khinchin with a period of at least twice the length. *)
Lemma wiener_khinchin : forall v n N t, (0 < n)%nat -> (2 * n <= N + 1)%nat -> (t < n)%nat ->
  (forall j, (n <= j)%nat -> v j = 0) ->
  Cmult (RtoC (/ INR N)) (csum (map (fun k => Cmult (RtoC (Cmod (fourier v n (2 * PI * INR k / INR N)) ^ 2))
     (cis (2 * PI * INR k * INR t / INR N))) (seq 0 N)))
  = RtoC (rsum (map (fun j => v j * v (j + t)%nat) (seq 0 n))).
Proof.
  intros v n N t Hn HN Ht E. assert (PN : 0 < INR N) by (apply lt_0_INR; lia).
  rewrite (csum_ext _ _ (fun k => csum (map (fun a => csum (map (fun b =>
      Cmult (RtoC (v a * v b)) (cis (INR k * (2 * PI * IZR (Z.of_nat b - Z.of_nat a + Z.of_nat t) / INR N)))) (seq 0 n))) (seq 0 n)))).
  2:{ intros k _. rewrite power, Cmult_comm, <- csum_scal. apply csum_ext. intros a _. rewrite <- csum_scal. apply csum_ext. intros b _.
      rewrite plus_IZR, minus_IZR, <- !INR_IZR_INZ.
      replace (INR k * (2 * PI * (INR b - INR a + INR t) / INR N))
        with (2 * PI * INR k * INR t / INR N + (INR b - INR a) * (2 * PI * INR k / INR N)) by (field; lra).
      rewrite (cis_add (2 * PI * INR k * INR t / INR N)). ring. }
  rewrite csum_swap.
  rewrite (csum_ext _ _ (fun a => csum (map (fun b => Cmult (RtoC (v a * v b))
      (if Z.eq_dec (Z.of_nat b - Z.of_nat a + Z.of_nat t) 0 then RtoC (INR N) else RtoC 0)) (seq 0 n)))).
  2:{ intros a Ha. rewrite csum_swap. apply csum_ext. intros b Hb. apply in_seq in Ha, Hb. rewrite csum_scal. f_equal.
      apply orthogonal; lia. }
  rewrite csum_swap.
  rewrite (csum_ext _ _ (fun b => Cmult (RtoC (INR N)) (RtoC (v b * v (b + t)%nat)))).
  - rewrite csum_scal. rewrite <- (map_map (fun b => v b * v (b + t)%nat) RtoC), csum_real.
    rewrite Cmult_assoc, <- RtoC_mult, Rinv_l by lra. ring.
  - intros b Hb. apply in_seq in Hb. destruct (Nat.lt_ge_cases (b + t) n) as [L|L].
    + rewrite (csum_single _ 0 n (b + t)%nat); [|lia|intros j Hj; destruct (Z.eq_dec _ 0); [lia|ring]].
      destruct (Z.eq_dec _ 0) as [_|F]; [|lia]. rewrite (Rmult_comm (v b)). ring.
    + rewrite (E (b + t)%nat L). rewrite csum_zero; [rewrite Rmult_0_r; ring|].
      intros a Ha. apply in_seq in Ha. destruct (Z.eq_dec _ 0); [lia|ring].
Qed.

Lemma m7 : forall v, map fst (firstn (length v) (ifft (map (fun z => RtoC (Cmod z ^ 2)) (fft (map RtoC (v ++ repeat 0 (length v)))))))
  = map (acf v) (seq 0 (length v)).
Proof.
  intros v. set (n := length v). set (x := v ++ repeat 0 n).
  assert (Lx : length x = (2 * n)%nat) by (unfold x; rewrite app_length, repeat_length; lia).
  assert (Lf : length (fft (map RtoC x)) = (2 * n)%nat) by (unfold fft; rewrite map_length, seq_length, map_length; assumption).
  unfold ifft. rewrite map_length, Lf. rewrite firstn_map, map_map.
  replace (firstn n (seq 0 (2 * n))) with (seq 0 n).
  2:{ replace (2 * n)%nat with (n + n)%nat by lia. rewrite seq_app. rewrite firstn_app, seq_length, Nat.sub_diag, firstn_O, app_nil_r.
      symmetry. apply firstn_all2. rewrite seq_length. lia. }
  apply map_ext_in. intros t Ht. apply in_seq in Ht.
  rewrite (csum_ext _ _ (fun k => Cmult (RtoC (Cmod (fourier (fun j => nth j v 0) n (2 * PI * INR k / INR (2 * n))) ^ 2))
     (cis (2 * PI * INR k * INR t / INR (2 * n))))).
  - rewrite wiener_khinchin; [|lia..|intros j Hj; apply nth_overflow; exact Hj].
    cbn [fst RtoC]. apply acf_full. unfold n. lia.
  - intros k Hk. apply in_seq in Hk. f_equal.
    rewrite (nth_indep _ (RtoC 0) ((fun z => RtoC (Cmod z ^ 2)) (RtoC 0))) by (rewrite map_length, Lf; lia).
    rewrite (map_nth (fun z => RtoC (Cmod z ^ 2))). rewrite fft_real by lia. rewrite Lx.
    do 3 f_equal. rewrite (fourier_trunc _ n (2 * n)) by (try lia; intros j Hj; unfold x; rewrite padded; apply nth_overflow; exact Hj).
    unfold fourier. apply csum_ext. intros j _. unfold x. rewrite padded. reflexivity.
Qed.

Theorem methods_agree : forall v m, (1 <= m <= 7)%nat -> acorr_raw v m = Some (map (acf v) (seq 0 (length v))).
Proof.
  intros v m Hm.
  assert (A3 : map (fun t => rsum (map2 Rmult (firstn (length v - t) v) (skipn t v))) (seq 0 (length v)) = map (acf v) (seq 0 (length v))).
  { apply map_ext_in. intros t Ht. apply in_seq in Ht. apply m3. lia. }
  destruct m as [|[|[|[|[|[|[|[|m]]]]]]]]; try lia; cbn [acorr_raw]; f_equal.
  - apply map_ext. intros t. apply m1.
  - apply map_ext. intros t. apply m2.
  - exact A3.
  - apply m4.
  - cbn [flib_acorr Nat.eqb]. apply map_ext. intros t. apply m1.
  - exact A3.
  - apply m7.
Qed.

(** * Bounds *)
Lemma acf_bound : forall v t, Rabs (acf v t) <= acf v 0.
Proof.
  intros v t. rewrite <- (acf_full v t (length v)) by lia. unfold acf. rewrite Nat.sub_0_r. fold (rsum (map (fun j => nth j v 0 * nth (j + 0) v 0) (seq 0 (length v)))).
  set (n := length v).
  assert (A : forall l, Rabs (rsum (map (fun j => nth j v 0 * nth (j + t) v 0) l))
     <= / 2 * rsum (map (fun j => nth j v 0 * nth j v 0) l) + / 2 * rsum (map (fun j => nth (j + t) v 0 * nth (j + t) v 0) l)).
  { unfold rsum. induction l as [|a l IH]; cbn; [rewrite Rabs_R0; lra|].
    eapply Rle_trans; [apply Rabs_triang|]. rewrite Rabs_mult.
    pose proof (pow2_ge_0 (Rabs (nth a v 0) - Rabs (nth (a + t) v 0))) as Q.
    pose proof (pow2_abs (nth a v 0)). pose proof (pow2_abs (nth (a + t) v 0)). nra. }
  eapply Rle_trans; [apply A|].
  assert (B : rsum (map (fun j => nth (j + t) v 0 * nth (j + t) v 0) (seq 0 n)) <= rsum (map (fun j => nth j v 0 * nth j v 0) (seq 0 n))).
  { set (g := fun j => nth j v 0 * nth j v 0).
    replace (rsum (map (fun j => nth (j + t) v 0 * nth (j + t) v 0) (seq 0 n))) with (rsum (map g (seq t n))).
    2:{ f_equal. clear. assert (G : forall n s, map g (seq (s + t) n) = map (fun j => nth (j + t) v 0 * nth (j + t) v 0) (seq s n)).
        { induction n0 as [|n0 IH]; intros s; [reflexivity|]. cbn [seq map]. f_equal. apply (IH (S s)). }
        apply (G n 0%nat). }
    assert (P : forall l, 0 <= rsum (map g l)).
    { unfold rsum. induction l as [|a l IH]; cbn; [lra|]. pose proof (Rle_0_sqr (nth a v 0)) as Q. unfold Rsqr in Q. unfold g at 1. lra. }
    assert (F : rsum (map g (seq 0 (t + n))) = rsum (map g (seq 0 n))).
    { replace (t + n)%nat with (n + t)%nat by lia. rewrite seq_app, map_app, rsum_app.
      rewrite (rsum_zero _ _ (seq (0 + n) t)); [lra|]. intros a Ha. apply in_seq in Ha. unfold g. rewrite nth_overflow; [ring|fold n; lia]. }
    rewrite <- F. rewrite seq_app, map_app, rsum_app. specialize (P (seq 0 t)). cbn [Nat.add]. lra. }
  replace (rsum (map (fun j => nth j v 0 * nth (j + 0) v 0) (seq 0 n))) with (rsum (map (fun j => nth j v 0 * nth j v 0) (seq 0 n))); [lra|].
  f_equal. apply map_ext. intros j. rewrite Nat.add_0_r. reflexivity.
Qed.

Lemma acf0_zero : forall v, acf v 0 = 0 <-> Forall (fun x => x = 0) v.
Proof.
  intros v. unfold acf. rewrite Nat.sub_0_r.
  assert (G : forall v, fold_right Rplus 0 (map (fun j => nth j v 0 * nth (j + 0) v 0) (seq 0 (length v))) = rsum (map (fun x => x * x) v)).
  { clear. induction v as [|x v IH]; [reflexivity|]. cbn [length seq map fold_right]. rewrite <- seq_shift, map_map.
    unfold rsum. cbn [map fold_right]. fold (rsum (map (fun x => x * x) v)). rewrite <- IH. reflexivity. }
  rewrite G. clear G. assert (P : forall v, 0 <= rsum (map (fun x => x * x) v)).
  { unfold rsum. induction v0 as [|a l IH]; cbn; [lra|]. pose proof (Rle_0_sqr a) as Q. unfold Rsqr in Q. lra. }
  induction v as [|x v IH]; [split; [constructor|reflexivity]|]. unfold rsum in *. cbn. split.
  - intros E. specialize (P v). pose proof (Rle_0_sqr x) as Q. unfold Rsqr in Q. constructor; [nra|]. apply IH. lra.
  - intros F. inversion F; subst. rewrite (proj2 IH) by assumption. lra.
Qed.

(** * dft *)
Lemma dft_fft : forall a m, m = "loop"%string \/ m = "matmul"%string -> dft a m = Some (fft a).
Proof.
  intros a m Hm.
  assert (L : forall N : nat, (0 < N)%nat -> linspace_open N = map INR (seq 0 N)).
  { intros N HN. unfold linspace_open. apply map_ext. intros i. assert (0 < INR N) by (apply lt_0_INR; assumption). field. lra. }
  assert (G : forall (f : nat -> C) (b : list C), map2 Cmult b (map f (seq 0 (length b)))
     = map (fun n => Cmult (nth n b (RtoC 0)) (f n)) (seq 0 (length b))).
  { intros f b. revert f. induction b as [|z b IH]; intros f; [reflexivity|]. cbn [length seq map map2 nth]. f_equal.
    rewrite <- seq_shift, !map_map. rewrite (IH (fun n => f (S n))). apply map_ext. reflexivity. }
  assert (S : forall (x y : list C), map2 Cmult x y = map2 Cmult y x).
  { induction x as [|p x IH]; intros [|q y]; cbn; try reflexivity. rewrite IH, Cmult_comm. reflexivity. }
  destruct (Nat.eq_dec (length a) 0) as [Z|NZ].
  { destruct a; [|discriminate]. destruct Hm as [-> | ->]; reflexivity. }
  unfold dft, fft. rewrite L by lia. destruct Hm as [-> | ->]; cbn [String.eqb Ascii.eqb Bool.eqb]; f_equal; rewrite ?map_map.
  - apply map_ext. intros k. rewrite map_map. rewrite (G (fun n => cis (-2 * PI * INR k * INR n / INR (length a)))).
    f_equal. apply map_ext. intros n. do 2 f_equal. assert (0 < INR (length a)) by (apply lt_0_INR; lia). field. lra.
  - apply map_ext. intros k. rewrite map_map, S. rewrite (G (fun n => cis (-2 * PI * (INR n * INR k) / INR (length a)))).
    f_equal. apply map_ext. intros n. do 2 f_equal. assert (0 < INR (length a)) by (apply lt_0_INR; lia). field. lra.
Qed.

(** * Peaks *)
Lemma diff_nth : forall y i, (i + 1 < length y)%nat -> nth i (map2 Rminus (tl y) y) 0 = nth (i + 1) y 0 - nth i y 0.
Proof.
  intros y i H. destruct y as [|a y]; [cbn in H; lia|]. cbn [tl]. rewrite Nat.add_1_r. cbn [nth]. cbn [length] in H.
  revert a i H. induction y as [|b y IH]; intros a i H; [cbn in H; lia|]. destruct i as [|i]; [reflexivity|].
  change (nth (S i) (map2 Rminus (b :: y) (a :: b :: y)) 0) with (nth i (map2 Rminus y (b :: y)) 0).
  rewrite IH by (cbn in H; lia). reflexivity.
Qed.
Lemma diff_length : forall y : list R, length (map2 Rminus (tl y) y) = (length y - 1)%nat.
Proof.
  assert (G : forall (a b : list R), length (map2 Rminus a b) = min (length a) (length b)).
  { induction a as [|x a IH]; intros [|z b]; cbn; auto. }
  intros [|a y]; [reflexivity|]. rewrite G. cbn [tl length]. lia.
Qed.

Lemma Rltb_spec : forall x y, Rltb x y = true <-> x < y.
Proof. intros. unfold Rltb. destruct (Rlt_dec x y); split; intros; auto; discriminate. Qed.
Lemma Rleb_spec : forall x y, Rleb x y = true <-> x <= y.
Proof. intros. unfold Rleb. destruct (Rle_dec x y); split; intros; auto; discriminate. Qed.

Lemma flat_singleton_in : forall (p : nat -> bool) l i,
  In i (flat_map (fun ii => if p ii then [(ii + 1)%nat] else []) l) <-> (0 < i)%nat /\ In (i - 1)%nat l /\ p (i - 1)%nat = true.
Proof.
  intros p l i. rewrite in_flat_map. split.
  - intros (j & Hj & H). destruct (p j) eqn:E; [|destruct H]. destruct H as [<-|[]]. replace (j + 1 - 1)%nat with j by lia. split; [lia|auto].
  - intros (H0 & H1 & H2). exists (i - 1)%nat. split; [assumption|]. rewrite H2. left. lia.
Qed.

Lemma peaks_spec : forall y m l, find_peaks y (Some m) = Some l ->
  forall i, In i l <-> peak y i /\ m <= nth (i - 1) y 0.
Proof.
  intros y m l E i. cbn in E. injection E as <-. rewrite flat_singleton_in, in_seq, diff_length.
  rewrite !andb_true_iff, !Rltb_spec, Rleb_spec. unfold peak. split.
  - intros (H0 & H1 & (H2 & H3) & H4). rewrite !diff_nth in * by lia.
    replace (i - 1 + 1)%nat with i in * by lia. split; [|assumption]. repeat split; try lia; lra.
  - intros ((H0 & H1 & H2 & H3) & H4). rewrite !diff_nth by lia.
    replace (i - 1 + 1)%nat with i by lia. repeat split; try lia; lra.
Qed.

Lemma fold_Rmin_le : forall a l x, In x (a :: l) -> fold_right Rmin a l <= x.
Proof.
  intros a l x. assert (G : forall l, fold_right Rmin a l <= a /\ forall y, In y l -> fold_right Rmin a l <= y).
  { induction l0 as [|b l0 [I1 I2]]; cbn; [split; [lra|intros y []]|]. split.
    - eapply Rle_trans; [apply Rmin_r|assumption].
    - intros y [->|Hy]; [apply Rmin_l|]. eapply Rle_trans; [apply Rmin_r|auto]. }
  intros [<-|H]; [exact (proj1 (G l))|exact (proj2 (G l) x H)].
Qed.

Lemma peaks_all : forall y l, find_peaks y None = Some l -> forall i, In i l <-> peak y i.
Proof.
  intros y l E i. destruct y as [|a y]; [discriminate|].
  pose proof (peaks_spec (a :: y) _ l E i) as H. rewrite H. split; [intros []; assumption|]. intros P. split; [assumption|].
  apply fold_Rmin_le. destruct P as (_ & B & _). change (nth (i - 1) (a :: y) 0) with (nth (i - 1) (a :: y) 0). apply nth_In. lia.
Qed.

Lemma flat_sorted : forall (p : nat -> bool) n s, StronglySorted lt (flat_map (fun ii => if p ii then [(ii + 1)%nat] else []) (seq s n)).
Proof.
  intros p n. induction n as [|n IH]; intros s; [constructor|]. cbn [seq flat_map]. destruct (p s); [|apply IH].
  cbn. constructor; [apply IH|]. rewrite Forall_forall. intros x Hx. apply flat_singleton_in in Hx. destruct Hx as (_ & Hx & _).
  apply in_seq in Hx. lia.
Qed.

(** * Welch window *)
Lemma welch_nth : forall M n, (2 <= M)%nat -> (n < M)%nat ->
  nth n (welch M) 0 = 1 - ((INR n - 1 / 2 * (INR M - 1)) / (1 / 2 * (INR M - 1))) ^ 2.
Proof.
  intros M n H1 H2. unfold welch. destruct (Nat.ltb_spec M 1); [lia|]. destruct (Nat.eqb_spec M 1); [lia|].
  apply nth_map_seq. assumption.
Qed.
Lemma welch_length : forall M, length (welch M) = M.
Proof.
  intros M. unfold welch. destruct (Nat.ltb_spec M 1); [cbn; lia|]. destruct (Nat.eqb_spec M 1); [subst; reflexivity|].
  rewrite map_length, seq_length. reflexivity.
Qed.
Lemma welch_range : forall M n, (2 <= M)%nat -> (n < M)%nat -> 0 <= nth n (welch M) 0 <= 1 /\
  nth n (welch M) 0 = nth (M - 1 - n) (welch M) 0 /\ (nth n (welch M) 0 = 0 <-> n = 0%nat \/ n = (M - 1)%nat).
Proof.
  intros M n H1 H2. rewrite !welch_nth by lia.
  assert (Q : 1 <= INR M - 1). { assert (INR 2 <= INR M) by (apply le_INR; assumption). cbn in *. lra. }
  set (u := (INR n - 1 / 2 * (INR M - 1)) / (1 / 2 * (INR M - 1))).
  assert (U : u = 2 * INR n / (INR M - 1) - 1) by (unfold u; field; lra).
  assert (B : 0 <= INR n <= INR M - 1).
  { split; [apply pos_INR|]. assert (INR (S n) <= INR M) by (apply le_INR; lia). rewrite S_INR in *. lra. }
  assert (K : INR n = (u + 1) * (INR M - 1) / 2) by (rewrite U; field; lra).
  assert (-1 <= u <= 1) by (split; nra).
  replace (INR (M - 1 - n)) with (INR M - 1 - INR n) by (rewrite !minus_INR by lia; cbn; lra).
  replace ((INR M - 1 - INR n - 1 / 2 * (INR M - 1)) / (1 / 2 * (INR M - 1))) with (- u) by (unfold u; field; lra).
  split; [nra|]. split; [ring|]. split.
  - intros E. assert (u = 1 \/ u = -1) as [V|V].
    { assert ((1 - u) * (1 + u) = 0) as Z by (ring_simplify; lra). apply Rmult_integral in Z. destruct Z; [left|right]; lra. }
    + right. apply INR_eq. rewrite minus_INR by lia. cbn. rewrite K, V. field.
    + left. apply INR_eq. rewrite K, V. cbn. field.
  - intros [-> | ->].
    + replace u with (-1); [ring|]. rewrite U. cbn. field. lra.
    + replace u with 1; [ring|]. rewrite U. rewrite minus_INR by lia. cbn. field. lra.
Qed.
