From Coq Require Import Reals List Arith Bool Lia Lra FunctionalExtensionality FinFun.
From Verif Require Import Poly PolySpec.
Import ListNotations.
Local Open Scope R_scope.

(** * Exponents *)
Lemma powers_length : forall n deg, length (poly_powers n deg) = ((deg + 1) ^ n)%nat.
Proof.
  induction n as [|n IH]; intros deg; [reflexivity|]. cbn [poly_powers].
  assert (G : forall l, length (flat_map (fun k => map (cons k) (poly_powers n deg)) l)
    = (length l * (deg + 1) ^ n)%nat).
  { induction l as [|a l IHl]; [reflexivity|]. cbn [flat_map]. rewrite app_length, map_length, IH, IHl. cbn [length]. lia. }
  rewrite G, seq_length. reflexivity.
Qed.

Lemma powers_in : forall n deg pw, In pw (poly_powers n deg) <-> length pw = n /\ Forall (fun k => (k <= deg)%nat) pw.
Proof.
  induction n as [|n IH]; intros deg pw; cbn [poly_powers].
  - split.
    + intros [<-|[]]. split; auto.
    + intros [L _]. destruct pw; [left; reflexivity|discriminate].
  - rewrite in_flat_map. split.
    + intros (k & Hk & Hp). apply in_map_iff in Hp. destruct Hp as (q & <- & Hq).
      apply IH in Hq. apply in_seq in Hk. destruct Hq. split; [cbn; lia|]. constructor; [lia|assumption].
    + intros [L F]. destruct pw as [|k q]; [discriminate|]. exists k. split.
      * apply in_seq. inversion F; lia.
      * apply in_map. apply IH. split; [cbn in L; lia|]. inversion F; assumption.
Qed.

Lemma NoDup_app_intro {A} : forall l m : list A, NoDup l -> NoDup m -> (forall x, In x l -> ~ In x m) -> NoDup (l ++ m).
Proof.
  induction l as [|a l IH]; intros m Hl Hm D; [assumption|]. cbn. inversion Hl; subst. constructor.
  - rewrite in_app_iff. intros [H|H]; [contradiction|]. exact (D a (or_introl eq_refl) H).
  - apply IH; auto. intros x Hx. apply D. right. assumption.
Qed.

Lemma powers_nodup : forall n deg, NoDup (poly_powers n deg).
Proof.
  induction n as [|n IH]; intros deg; cbn [poly_powers]; [constructor; [intros []|constructor]|].
  generalize (seq_NoDup (deg + 1) 0). generalize (seq 0 (deg + 1)).
  induction l as [|k l IHl]; intros ND; [constructor|]. cbn [flat_map]. inversion ND; subst. apply NoDup_app_intro.
  - apply Injective_map_NoDup; [intros x y E; injection E; auto|apply IH].
  - auto.
  - intros x Hx Hy. apply in_map_iff in Hx. destruct Hx as (q & <- & _).
    apply in_flat_map in Hy. destruct Hy as (k' & Hk' & Hy). apply in_map_iff in Hy. destruct Hy as (q' & E & _).
    injection E as -> _. contradiction.
Qed.

(** * Lists *)
Lemma skipn_skipn {A} : forall m k (l : list A), skipn k (skipn m l) = skipn (k + m) l.
Proof.
  induction m as [|m IH]; intros k l; [rewrite Nat.add_0_r; reflexivity|].
  destruct l as [|a l]; [rewrite !skipn_nil; reflexivity|].
  rewrite Nat.add_succ_r. cbn. apply IH.
Qed.

Lemma zip_length {A B C} (f : A -> B -> C) : forall l m, length l = length m -> length (zip f l m) = length l.
Proof. induction l as [|x l IH]; destruct m as [|y m]; cbn; intros E; try lia. rewrite IH; lia. Qed.

Lemma dot_app : forall a b c d, length a = length c -> dot (a ++ b) (c ++ d) = dot a c + dot b d.
Proof.
  unfold dot. induction a as [|x a IH]; destruct c as [|y c]; intros d E; try discriminate; cbn.
  - unfold sum. cbn. lra.
  - injection E as E. specialize (IH b c d E). unfold sum in *. cbn. rewrite IH. lra.
Qed.

Lemma dot_map_scale : forall k a c, dot (map (Rmult k) a) c = k * dot a c.
Proof.
  unfold dot, sum. induction a as [|x a IH]; intros c; cbn; [lra|]. destruct c as [|y c]; cbn; [lra|]. rewrite IH. lra.
Qed.

Lemma dot_flat : forall (f g : nat -> list R) l, (forall k, length (f k) = length (g k)) ->
  dot (flat_map f l) (flat_map g l) = sum (map (fun k => dot (f k) (g k)) l).
Proof.
  intros f g l E. induction l as [|k l IH]; [reflexivity|]. cbn [flat_map map]. rewrite dot_app by apply E.
  rewrite IH. reflexivity.
Qed.

Lemma sum_app : forall l m, sum (l ++ m) = sum l + sum m.
Proof. unfold sum. induction l as [|x l IH]; intros m; cbn; [lra|]. rewrite IH. lra. Qed.

Lemma sum_seq : forall f n, sum (map f (seq 0 (n + 1))) = sum_f_R0 f n.
Proof.
  intros f. induction n as [|n IH]; [unfold sum; cbn; lra|].
  cbn [sum_f_R0]. rewrite <- IH. replace (S n + 1)%nat with (n + 1 + 1)%nat by lia.
  rewrite seq_app, map_app, sum_app. replace (0 + (n + 1))%nat with (S n) by lia.
  cbn [seq map]. unfold sum at 2. cbn [fold_right]. lra.
Qed.

Lemma sum_swap : forall (F : nat -> nat -> R) m m',
  sum_f_R0 (fun k => sum_f_R0 (fun j => F k j) m') m = sum_f_R0 (fun j => sum_f_R0 (fun k => F k j) m) m'.
Proof.
  intros F. induction m as [|m IHm]; intros m'; [reflexivity|]. rewrite tech5, IHm, <- plus_sum.
  apply sum_eq. intros. reflexivity.
Qed.

Lemma map_flat_map {A B C} (h : B -> C) (f : A -> list B) : forall l,
  map h (flat_map f l) = flat_map (fun a => map h (f a)) l.
Proof. induction l as [|a l IH]; [reflexivity|]. cbn. rewrite map_app, IH. reflexivity. Qed.

Lemma row_cons : forall x xs deg, vander_row (x :: xs) deg
  = flat_map (fun k => map (Rmult (x ^ k)) (vander_row xs deg)) (seq 0 (deg + 1)).
Proof.
  intros x xs deg. unfold vander_row. cbn [length poly_powers]. rewrite map_flat_map.
  apply flat_map_ext. intros k. rewrite !map_map. apply map_ext. intros pw. reflexivity.
Qed.

Lemma row_length : forall x deg, length (vander_row x deg) = ((deg + 1) ^ length x)%nat.
Proof. intros. unfold vander_row. rewrite map_length, powers_length. reflexivity. Qed.

(** * Coefficient lists and polynomials *)
Section Poly.
  Variable deg : nat.

  Fixpoint to_coeffs {n} (p : mpoly n) : list R :=
    match p with
    | Const c => [c]
    | Coeffs m c => flat_map (fun k => to_coeffs (c k)) (seq 0 (deg + 1))
    end.

  Lemma to_length : forall n (p : mpoly n), length (to_coeffs p) = ((deg + 1) ^ n)%nat.
  Proof.
    induction p as [c|n c IH]; [reflexivity|]. cbn [to_coeffs].
    assert (G : forall l, length (flat_map (fun k => to_coeffs (c k)) l) = (length l * (deg + 1) ^ n)%nat).
    { induction l as [|a l IHl]; [reflexivity|]. cbn [flat_map]. rewrite app_length, IH, IHl. cbn [length]. lia. }
    rewrite G, seq_length. reflexivity.
  Qed.

  Lemma to_value : forall n (p : mpoly n) x, length x = n -> dot (vander_row x deg) (to_coeffs p) = value deg p x.
  Proof.
    induction p as [c|n c IH]; intros x L.
    - destruct x; [|discriminate]. unfold dot, sum, vander_row, prod. cbn. lra.
    - destruct x as [|x xs]; [discriminate|]. injection L as L.
      rewrite row_cons. cbn [to_coeffs value hd tl].
      rewrite (dot_flat _ (fun k => to_coeffs (c k))).
      + rewrite sum_seq. apply sum_eq. intros k _. rewrite dot_map_scale, IH by assumption. reflexivity.
      + intros k. rewrite map_length, row_length, to_length, L. reflexivity.
  Qed.

  Fixpoint of_coeffs (n : nat) (a : list R) : mpoly n :=
    match n with
    | O => Const (hd 0 a)
    | S m => Coeffs m (fun k => of_coeffs m (firstn ((deg + 1) ^ m) (skipn (k * (deg + 1) ^ m) a)))
    end.

  Lemma dot_chunks : forall N (f : nat -> list R) (j : nat) s a, (forall k, length (f k) = N) -> length a = (j * N)%nat ->
    dot (flat_map f (seq s j)) a
    = sum (map (fun i => dot (f (s + i)%nat) (firstn N (skipn (i * N) a))) (seq 0 j)).
  Proof.
    intros N f j. induction j as [|j IH]; intros s a Hf La; [reflexivity|].
    cbn [seq flat_map]. rewrite <- (firstn_skipn N a) at 1.
    assert (Lf : length (firstn N a) = N). { rewrite firstn_length_le; [reflexivity|]. rewrite La. nia. }
    rewrite dot_app by (rewrite Hf, Lf; reflexivity).
    rewrite IH; [|assumption|rewrite skipn_length; nia].
    cbn [map]. unfold sum at 2. cbn [fold_right]. rewrite Nat.add_0_r. rewrite Nat.mul_0_l. cbn [skipn].
    f_equal. rewrite <- seq_shift, map_map. unfold sum. f_equal. apply map_ext. intros i.
    rewrite skipn_skipn. replace (i * N + N)%nat with (S i * N)%nat by lia.
    replace (S s + i)%nat with (s + S i)%nat by lia. reflexivity.
  Qed.

  Lemma of_value : forall n a x, length a = ((deg + 1) ^ n)%nat -> length x = n ->
    value deg (of_coeffs n a) x = dot (vander_row x deg) a.
  Proof.
    induction n as [|n IH]; intros a x La Lx.
    - destruct x; [|discriminate]. destruct a as [|a [|]]; cbn in La; try lia.
      unfold dot, sum, vander_row, prod. cbn. lra.
    - destruct x as [|x xs]; [discriminate|]. injection Lx as Lx. cbn [of_coeffs value hd tl].
      rewrite row_cons, (dot_chunks ((deg + 1) ^ n)%nat).
      + rewrite sum_seq. apply sum_eq. intros k Hk. rewrite dot_map_scale. f_equal. apply IH; [|assumption].
        rewrite firstn_length_le; [reflexivity|]. rewrite skipn_length, La. cbn [Nat.pow].
        generalize ((deg + 1) ^ n)%nat. intros N. nia.
      + intros k. rewrite map_length, row_length, Lx. reflexivity.
      + rewrite La. cbn [Nat.pow]. lia.
  Qed.

  (** * Functions given by a polynomial; closed under what the scaling does *)
  Definition isp (n : nat) (f : list R -> R) : Type :=
    { p : mpoly n | forall x, length x = n -> f x = value deg p x }.

  Lemma isp_ext : forall n f g, isp n f -> (forall x, length x = n -> g x = f x) -> isp n g.
  Proof. intros n f g [p Hp] E. exists p. intros x L. rewrite E by assumption. auto. Defined.

  Lemma mpoly_0 : forall p : mpoly 0, { c | p = Const c }.
  Proof.
    intros p. refine (match p as q in mpoly n return
      match n return mpoly n -> Type with O => fun q => { c | q = Const c } | S _ => fun _ => unit end q
      with Const c => _ | Coeffs _ _ => tt end).
    exists c. reflexivity.
  Defined.
  Lemma mpoly_S : forall n (p : mpoly (S n)), { c | p = Coeffs n c }.
  Proof.
    intros n p. refine (match p as q in mpoly k return
      match k return mpoly k -> Type with O => fun _ => unit | S m => fun q => { c | q = Coeffs m c } end q
      with Const c => tt | Coeffs _ c => _ end).
    exists c. reflexivity.
  Defined.

  Lemma isp_zero : forall n, isp n (fun _ => 0).
  Proof.
    induction n as [|n [z Hz]].
    - exists (Const 0). reflexivity.
    - exists (Coeffs n (fun _ => z)). intros x L. destruct x as [|x xs]; [discriminate|]. injection L as L.
      cbn [value hd tl]. rewrite (sum_eq _ (fun _ => 0)); [|intros i _; rewrite <- Hz by assumption; lra].
      clear. induction deg; cbn; lra.
  Defined.

  Lemma isp_const : forall c n, isp n (fun _ => c).
  Proof.
    intros c. induction n as [|n IH].
    - exists (Const c). reflexivity.
    - destruct IH as [p Hp]. destruct (isp_zero n) as [z Hz].
      exists (Coeffs n (fun k => match k with O => p | S _ => z end)).
      intros x L. destruct x as [|x xs]; [discriminate|]. injection L as L. cbn [value hd tl].
      transitivity (sum_f_R0 (fun k => match k with O => c | S _ => 0 end) deg).
      + clear. induction deg as [|d IHd]; cbn; [reflexivity|]. rewrite <- IHd. lra.
      + apply sum_eq. intros [|k] _; [rewrite <- Hp by assumption; lra|rewrite <- Hz by assumption; lra].
  Defined.

  Lemma isp_lin : forall n a f b g, isp n f -> isp n g -> isp n (fun x => a * f x + b * g x).
  Proof.
    induction n as [|n IH]; intros a f b g [p Hp] [q Hq].
    - destruct (mpoly_0 p) as [c ->], (mpoly_0 q) as [d ->]. exists (Const (a * c + b * d)).
      intros x L. rewrite Hp, Hq by assumption. reflexivity.
    - destruct (mpoly_S n p) as [c ->], (mpoly_S n q) as [d ->].
      assert (K : forall k, isp n (fun x => a * value deg (c k) x + b * value deg (d k) x)).
      { intros k. apply IH; [exists (c k)|exists (d k)]; reflexivity. }
      exists (Coeffs n (fun k => proj1_sig (K k))). intros x L. rewrite Hp, Hq by assumption.
      destruct x as [|x xs]; [discriminate|]. injection L as L. cbn [value hd tl].
      rewrite !scal_sum, <- plus_sum. apply sum_eq. intros k _.
      rewrite <- (proj2_sig (K k)) by assumption. lra.
  Defined.

  Lemma isp_sum : forall n (f : nat -> list R -> R) m, (forall k, isp n (f k)) -> isp n (fun x => sum_f_R0 (fun k => f k x) m).
  Proof.
    intros n f m K. induction m as [|m IH]; [apply K|].
    eapply isp_ext; [apply (isp_lin n 1 _ 1 _ IH (K (S m)))|]. intros x _. cbn. lra.
  Defined.

  (** Powers of an affine function of one variable. *)
  Lemma affine_power : forall al be k m, (k <= m)%nat -> { c : nat -> R | forall x, (al * x + be) ^ k = sum_f_R0 (fun j => c j * x ^ j) m }.
  Proof.
    intros al be. induction k as [|k IH]; intros m Hm.
    - exists (fun j => match j with O => 1 | S _ => 0 end). intros x. clear Hm. induction m as [|m IHm]; cbn; [lra|].
      rewrite <- IHm. cbn. lra.
    - destruct m as [|m]; [lia|]. destruct (IH m ltac:(lia)) as [c Hc].
      exists (fun j => al * match j with O => 0 | S i => c i end + be * (if (j <=? m)%nat then c j else 0)).
      intros x. cbn [pow]. rewrite Hc.
      assert (E1 : forall m, sum_f_R0 (fun j => match j with O => 0 | S i => c i end * x ^ j) (S m)
                = x * sum_f_R0 (fun j => c j * x ^ j) m).
      { induction m0 as [|m0 IHm]; [cbn; lra|]. rewrite (tech5 _ (S m0)). rewrite IHm.
        rewrite (tech5 _ m0). cbn [pow]. ring. }
      assert (E2 : sum_f_R0 (fun j => (if (j <=? m)%nat then c j else 0) * x ^ j) (S m)
                = sum_f_R0 (fun j => c j * x ^ j) m).
      { rewrite tech5. replace (S m <=? m)%nat with false by (symmetry; apply Nat.leb_gt; lia).
        rewrite Rmult_0_l, Rplus_0_r. apply sum_eq. intros j Hj.
        replace (j <=? m)%nat with true by (symmetry; apply Nat.leb_le; lia). reflexivity. }
      rewrite (sum_eq (fun j => (al * match j with O => 0 | S i => c i end + be * (if (j <=? m)%nat then c j else 0)) * x ^ j)
        (fun j => (match j with O => 0 | S i => c i end * x ^ j) * al
                + ((if (j <=? m)%nat then c j else 0) * x ^ j) * be)).
      2:{ intros; ring. }
      rewrite plus_sum. rewrite <- !scal_sum, E1, E2. ring.
  Defined.

  Lemma isp_affine : forall n al be f, length al = n -> length be = n -> isp n f ->
    isp n (fun x => f (zip Rplus (zip Rmult al x) be)).
  Proof.
    induction n as [|n IH]; intros al be f La Lb [p Hp].
    - destruct al; [|discriminate]. exists p. intros x L. destruct x; [|discriminate]. apply Hp. reflexivity.
    - destruct al as [|a al]; [discriminate|]. destruct be as [|b be]; [discriminate|].
      injection La as La. injection Lb as Lb. destruct (mpoly_S n p) as [c ->].
      pose (C := fun k => match le_dec k deg with left H => proj1_sig (affine_power a b k deg H) | right _ => fun _ => 0 end).
      assert (K : forall j, isp n (fun x => sum_f_R0 (fun k => C k j * value deg (c k) (zip Rplus (zip Rmult al x) be)) deg)).
      { intros j. apply isp_sum. intros k.
        assert (Q : isp n (fun x => value deg (c k) (zip Rplus (zip Rmult al x) be))).
        { apply IH; auto. exists (c k). reflexivity. }
        eapply isp_ext; [apply (isp_lin n (C k j) _ 0 _ Q Q)|]. intros x _. cbv beta. lra. }
      exists (Coeffs n (fun j => proj1_sig (K j))). intros x L.
      destruct x as [|x xs]; [discriminate|]. injection L as L.
      assert (L2 : length (zip Rplus (zip Rmult al xs) be) = n) by (rewrite !zip_length; rewrite ?zip_length; lia).
      cbn [zip]. rewrite Hp by (cbn [length]; lia). cbn [value hd tl].
      transitivity (sum_f_R0 (fun k => sum_f_R0 (fun j => x ^ j * (C k j * value deg (c k) (zip Rplus (zip Rmult al xs) be))) deg) deg).
      + apply sum_eq. intros k Hk. unfold C. destruct (le_dec k deg) as [H|H]; [|contradiction].
        destruct (affine_power a b k deg H) as [cc Hc]. cbn [proj1_sig]. rewrite Hc.
        rewrite Rmult_comm, scal_sum. apply sum_eq. intros. ring.
      + transitivity (sum_f_R0 (fun j => sum_f_R0 (fun k => x ^ j * (C k j * value deg (c k) (zip Rplus (zip Rmult al xs) be))) deg) deg).
        * apply (sum_swap (fun k j => x ^ j * (C k j * value deg (c k) (zip Rplus (zip Rmult al xs) be)))).
        * apply sum_eq. intros j _. rewrite <- (proj2_sig (K j)) by assumption. rewrite scal_sum. apply sum_eq. intros. ring.
  Defined.
End Poly.

(** * Least squares *)
Lemma dot_combine : forall r c, fold_right Rplus 0 (map (fun q => fst q * snd q) (combine r c)) = dot r c.
Proof. unfold dot, sum. induction r as [|x r IH]; destruct c as [|y c]; cbn; try reflexivity. rewrite IH. reflexivity. Qed.

Lemma residual_dot : forall A y c, residual A y c = deviation (fun r => dot r c) A y.
Proof. intros. unfold residual. f_equal. apply functional_extensionality. intros r. apply dot_combine. Qed.

Lemma deviation_ext : forall f g xs vs, (forall x, In x xs -> f x = g x) -> deviation f xs vs = deviation g xs vs.
Proof.
  induction xs as [|x xs IH]; intros vs E; [reflexivity|]. destruct vs as [|v vs]; [reflexivity|]. cbn.
  rewrite E by (left; reflexivity). rewrite IH; [reflexivity|]. intros. apply E. right. assumption.
Qed.

Lemma deviation_scaled : forall (F : list R -> R) m s (G : list R -> list R) xs vs, s <> 0 ->
  deviation F (map G xs) (map (fun v => (v - m) / s) vs)
  = deviation (fun x => F (G x) * s + m) xs vs / s ^ 2.
Proof.
  intros F m s G xs. induction xs as [|x xs IH]; intros vs Hs; cbn; [field; assumption|].
  destruct vs as [|v vs]; cbn; [field; assumption|]. rewrite IH by assumption. cbn. field. assumption.
Qed.

Lemma deviation_map : forall (F : list R -> R) (G : list R -> list R) xs vs,
  deviation F (map G xs) vs = deviation (fun x => F (G x)) xs vs.
Proof. induction xs as [|x xs IH]; intros vs; [reflexivity|]. destruct vs; [reflexivity|]. cbn. rewrite IH. reflexivity. Qed.

Lemma dot_div : forall r s c, length r = length s -> length s = length c ->
  dot (zip Rdiv r s) c = dot r (zip Rdiv c s).
Proof.
  unfold dot, sum. induction r as [|x r IH]; destruct s as [|y s]; destruct c as [|z c]; cbn; intros E1 E2; try lia; try reflexivity.
  rewrite IH by lia. unfold Rdiv. ring.
Qed.

Lemma zip_div_mul : forall s c, length s = length c -> Forall (fun x => x <> 0) s -> zip Rdiv (zip Rmult c s) s = c.
Proof.
  induction s as [|y s IH]; destruct c as [|z c]; cbn; intros E F; try lia; [reflexivity|].
  rewrite IH; [|lia|inversion F; assumption]. f_equal. field. inversion F; assumption.
Qed.

Lemma Rnz_spec : forall l, forallb Rnz l = true <-> Forall (fun x => x <> 0) l.
Proof.
  intros l. rewrite forallb_forall, Forall_forall. unfold Rnz. split; intros H x Hx; specialize (H x Hx).
  - destruct (Req_EM_T x 0); [discriminate|assumption].
  - destruct (Req_EM_T x 0); [contradiction|reflexivity].
Qed.

Lemma vander_rows : forall n deg pts, Forall (fun x => length x = n) pts ->
  Forall (fun r => length r = ((deg + 1) ^ n)%nat) (vander pts deg).
Proof.
  intros n deg pts F. unfold vander. rewrite Forall_forall in *. intros r Hr. apply in_map_iff in Hr.
  destruct Hr as (x & <- & Hx). rewrite row_length. rewrite (F x Hx). reflexivity.
Qed.

Definition unscaled (pmin pscale u : list R) : list R := zip Rplus (zip Rmult pscale u) pmin.

Lemma scaled_length : forall m s x, length m = length x -> length s = length x -> length (scaled m s x) = length x.
Proof. intros. unfold scaled. rewrite !zip_length; rewrite ?zip_length; lia. Qed.

Lemma unscaled_scaled : forall m s x, length m = length x -> length s = length x -> Forall (fun y => y <> 0) s ->
  unscaled m s (scaled m s x) = x.
Proof.
  unfold unscaled, scaled. induction m as [|a m IH]; destruct s as [|b s]; destruct x as [|c x]; cbn; intros E1 E2 F; try lia; [reflexivity|].
  rewrite IH; [|lia|lia|inversion F; assumption]. f_equal. field. inversion F; assumption.
Qed.

Lemma scaled_affine : forall m s x, length m = length x -> length s = length x ->
  scaled m s x = zip Rplus (zip Rmult (map Rinv s) x) (zip (fun a b => - (a / b)) m s).
Proof.
  unfold scaled. induction m as [|a m IH]; destruct s as [|b s]; destruct x as [|c x]; cbn; intros E1 E2; try lia; [reflexivity|].
  rewrite IH by lia. f_equal. unfold Rdiv. ring.
Qed.

Lemma polyfit_inv : forall lstsq n points values deg s sv f,
  Forall (fun x => length x = n) points ->
  polyfit lstsq n points values deg s sv = Some f ->
  points <> [] /\ length values = length points /\ deg_ f = deg /\ ndim f = n /\
  length (pmin f) = n /\ length (pscale f) = n /\ Forall (fun x => x <> 0) (pscale f) /\ vscale f <> 0 /\
  let A := vander (map (scaled (pmin f) (pscale f)) points) deg in
  let y := map (fun v => (v - vmin f) / vscale f) values in
  (sv = false /\ coeffs f = lstsq A y) \/
  (sv = true /\ exists w, length w = ((deg + 1) ^ n)%nat /\ Forall (fun x => x <> 0) w /\
     coeffs f = zip Rdiv (lstsq (map (fun r => zip Rdiv r w) A) y) w).
Proof.
  intros lstsq n points values deg s sv f F E. unfold polyfit in E.
  destruct (negb _) eqn:E1 in E; [discriminate|]. apply negb_false_iff, Nat.eqb_eq in E1.
  destruct (Nat.eqb_spec (length points) 0) as [|N]; [discriminate|].
  assert (points <> []) by (intros ->; apply N; reflexivity).
  destruct (if s then _ else _) as [[[pm vm] ps] vs] eqn:Es in E.
  assert (length pm = n /\ length ps = n) as [Lm Ls].
  { destruct s; injection Es as <- <- <- <-.
    - unfold columns. split; [rewrite !map_length, seq_length; reflexivity|].
      rewrite zip_length; rewrite !map_length, ?seq_length; reflexivity.
    - rewrite !repeat_length. auto. }
  destruct (negb (forallb Rnz ps && Rnz vs)) eqn:E2; [discriminate|].
  apply negb_false_iff, andb_true_iff in E2. destruct E2 as [E2 E3]. apply Rnz_spec in E2.
  assert (vs <> 0). { unfold Rnz in E3. destruct (Req_EM_T vs 0); [discriminate|assumption]. }
  destruct sv.
  - set (w := map _ (columns _ _)) in E. destruct (negb (forallb Rnz w)) eqn:E4; [discriminate|].
    apply negb_false_iff, Rnz_spec in E4. injection E as <-. cbn. do 8 (split; [auto|]).
    right. split; [reflexivity|]. exists w. split; [|auto].
    unfold w, columns. rewrite !map_length, seq_length, powers_length. reflexivity.
  - injection E as <-. cbn. do 8 (split; [auto|]). left. auto.
Qed.

Definition poly_at (f : fit) (x : list R) : R :=
  dot (vander_row (scaled (pmin f) (pscale f) x) (deg_ f)) (coeffs f) * vscale f + vmin f.

Lemma polyval_0 : forall f pts, Forall (fun x => length x = ndim f) pts -> polyval f pts 0 = Some (map (poly_at f) pts).
Proof.
  intros f pts F. unfold polyval.
  replace (forallb _ pts) with true.
  2:{ symmetry. apply forallb_forall. rewrite Forall_forall in F. intros x Hx. apply Nat.eqb_eq. auto. }
  cbn [negb]. change (0 <? 0)%nat with false. cbv iota. unfold matvec, vander. rewrite !map_map. reflexivity.
Qed.

Theorem fit_spec : forall lstsq n points values deg s sv f, least_squares lstsq ->
  Forall (fun x => length x = n) points ->
  polyfit lstsq n points values deg s sv = Some f ->
  { p : mpoly n | (forall x, length x = n -> poly_at f x = value deg p x) /\
    forall p' : mpoly n, deviation (value deg p) points values <= deviation (value deg p') points values }.
Proof.
  intros lstsq n points values deg s sv f LS F E.
  destruct (polyfit_inv _ _ _ _ _ _ _ _ F E) as (NE & Lv & Dg & Nd & Lm & Lsc & Nz & Vz & Cs).
  set (A := vander (map (scaled (pmin f) (pscale f)) points) deg) in *.
  set (y := map (fun v => (v - vmin f) / vscale f) values) in *.
  assert (F' : Forall (fun x => length x = n) (map (scaled (pmin f) (pscale f)) points)).
  { rewrite Forall_forall in *. intros x Hx. apply in_map_iff in Hx. destruct Hx as (x0 & <- & Hx).
    specialize (F x0 Hx). rewrite scaled_length; lia. }
  pose proof (vander_rows n deg _ F') as FA. fold A in FA.
  assert (NA : A <> []). { unfold A, vander. destruct points; [contradiction|discriminate]. }
  assert (Ly : length y = length A). { unfold y, A, vander. rewrite !map_length. assumption. }
  assert (C : length (coeffs f) = ((deg + 1) ^ n)%nat /\
    forall c, length c = ((deg + 1) ^ n)%nat -> residual A y (coeffs f) <= residual A y c).
  { destruct Cs as [[-> Hc]|[-> (w & Lw & Nw & Hc)]].
    - rewrite Hc. apply LS; assumption.
    - set (B := map (fun r => zip Rdiv r w) A) in *.
      assert (FB : Forall (fun r => length r = ((deg + 1) ^ n)%nat) B).
      { rewrite Forall_forall in *. intros r Hr. apply in_map_iff in Hr. destruct Hr as (r0 & <- & Hr).
        specialize (FA r0 Hr). rewrite zip_length; lia. }
      assert (NB : B <> []) by (unfold B; destruct A; [contradiction|discriminate]).
      assert (LB : length y = length B) by (unfold B; rewrite map_length; assumption).
      destruct (LS _ B y NB LB FB) as [Lc Hmin].
      assert (RB : forall c, length c = ((deg + 1) ^ n)%nat -> residual B y c = residual A y (zip Rdiv c w)).
      { intros c L. rewrite !residual_dot. unfold B. rewrite (deviation_map (fun r => dot r c)). apply deviation_ext.
        intros r Hr. rewrite Forall_forall in FA. apply dot_div; [rewrite FA, Lw by assumption; reflexivity|lia]. }
      rewrite Hc. split; [rewrite zip_length; lia|]. intros c L.
      rewrite <- RB by assumption. rewrite <- (zip_div_mul w c) by (auto; lia).
      rewrite <- RB by (rewrite zip_length; lia). apply Hmin. rewrite zip_length; lia. }
  destruct C as [Lc Hmin].
  assert (P : isp deg n (poly_at f)).
  { assert (Q : isp deg n (fun x => value deg (of_coeffs deg n (coeffs f)) (zip Rplus (zip Rmult (map Rinv (pscale f)) x) (zip (fun a b => - (a / b)) (pmin f) (pscale f))))).
    { apply isp_affine; [rewrite map_length; assumption|rewrite zip_length; lia|]. exists (of_coeffs deg n (coeffs f)). reflexivity. }
    eapply isp_ext; [apply (isp_lin deg n (vscale f) _ (vmin f) _ Q (isp_const deg 1 n))|].
    intros x L. cbv beta. unfold poly_at. rewrite Dg. rewrite <- scaled_affine by lia.
    rewrite (of_value deg n) by (auto; rewrite scaled_length; lia). lra. }
  destruct P as [p Hp]. exists p. split; [assumption|]. intros p'.
  assert (P' : isp deg n (fun u => (value deg p' (unscaled (pmin f) (pscale f) u) - vmin f) / vscale f)).
  { assert (Q : isp deg n (fun u => value deg p' (unscaled (pmin f) (pscale f) u))).
    { apply isp_affine; auto. exists p'. reflexivity. }
    eapply isp_ext; [apply (isp_lin deg n (/ vscale f) _ (- (vmin f / vscale f)) _ Q (isp_const deg 1 n))|].
    intros x _. cbv beta. field. assumption. }
  destruct P' as [q Hq].
  specialize (Hmin (to_coeffs deg q) (to_length deg n q)).
  rewrite !residual_dot in Hmin. unfold A, vander, y in Hmin. rewrite map_map in Hmin.
  rewrite !(deviation_scaled _ (vmin f) (vscale f) (fun x => vander_row (scaled (pmin f) (pscale f) x) deg)) in Hmin by assumption.
  assert (0 < vscale f ^ 2). { pose proof (Rsqr_pos_lt _ Vz) as Q. unfold Rsqr in Q. cbn. lra. }
  apply (Rmult_le_compat_r (vscale f ^ 2)) in Hmin; [|lra].
  unfold Rdiv in Hmin. rewrite !Rmult_assoc, Rinv_l, !Rmult_1_r in Hmin by lra.
  rewrite Forall_forall in F.
  eapply Rle_trans; [|eapply Rle_trans; [exact Hmin|]]; right; apply deviation_ext; intros x Hx.
  { rewrite <- Hp by auto. unfold poly_at. rewrite Dg. reflexivity. }
  pose proof (F x Hx) as Lx. cbv beta.
  rewrite to_value by (rewrite scaled_length; lia). rewrite <- Hq by (rewrite scaled_length; lia).
  rewrite unscaled_scaled by (auto; lia). field. assumption.
Qed.

Lemma coeffs_length : forall lstsq n points values deg s sv f, least_squares lstsq ->
  Forall (fun x => length x = n) points ->
  polyfit lstsq n points values deg s sv = Some f -> length (coeffs f) = ((deg + 1) ^ n)%nat.
Proof.
  intros lstsq n points values deg s sv f LS F E.
  destruct (polyfit_inv _ _ _ _ _ _ _ _ F E) as (NE & Lv & Dg & Nd & Lm & Lsc & Nz & Vz & Cs).
  set (A := vander (map (scaled (pmin f) (pscale f)) points) deg) in *.
  set (y := map (fun v => (v - vmin f) / vscale f) values) in *.
  assert (F' : Forall (fun x => length x = n) (map (scaled (pmin f) (pscale f)) points)).
  { rewrite Forall_forall in *. intros x Hx. apply in_map_iff in Hx. destruct Hx as (x0 & <- & Hx).
    specialize (F x0 Hx). rewrite scaled_length; lia. }
  pose proof (vander_rows n deg _ F') as FA. fold A in FA.
  assert (NA : A <> []). { unfold A, vander. destruct points; [contradiction|discriminate]. }
  assert (Ly : length y = length A). { unfold y, A, vander. rewrite !map_length. assumption. }
  destruct Cs as [[-> Hc]|[-> (w & Lw & Nw & Hc)]]; rewrite Hc.
  - apply LS; assumption.
  - assert (L : length (lstsq (map (fun r => zip Rdiv r w) A) y) = ((deg + 1) ^ n)%nat).
    { apply LS; [destruct A; [contradiction|discriminate]|rewrite map_length; assumption|].
      rewrite Forall_forall in *. intros r Hr. apply in_map_iff in Hr. destruct Hr as (r0 & <- & Hr).
      specialize (FA r0 Hr). rewrite zip_length; lia. }
    rewrite zip_length; lia.
Qed.
