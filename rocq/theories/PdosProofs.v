From Coq Require Import Reals List Arith ZArith String Lra Lia.
From Coquelicot Require Import Coquelicot.
From Verif Require Import Signal SignalSpec SignalProofs Omp Vacf VacfSpec VacfProofs Num NumSpec NumProofs Nd NdSpec NdProofs Pad PadSpec PadProofs Pdos PdosSpec.
Import ListNotations.
Local Notation length := List.length.
Local Notation total := VacfSpec.total.
Local Open Scope R_scope.

(** ** Power spectrum and autocorrelation *)
Definition gap (s c : nat) : nat := ((s - c) + (c - s))%nat.

Lemma diagonal : forall v n s, (s < 2 * n - 1)%nat -> length v = n ->
  csum (map (fun a => csum (map (fun b => if (a + (n - 1) =? b + s)%nat then RtoC (nth a v 0 * nth b v 0) else RtoC 0) (seq 0 n))) (seq 0 n))
  = RtoC (acf v (gap s (n - 1))).
Proof.
  intros v n s Hs Hv. rewrite <- (acf_full v (gap s (n - 1)) n) by lia. unfold gap. destruct (Nat.le_gt_cases (n - 1) s) as [L|L].
  - replace (s - (n - 1) + (n - 1 - s))%nat with (s - (n - 1))%nat by lia. set (d := (s - (n - 1))%nat). rewrite csum_swap.
    rewrite <- csum_real, map_map. apply csum_ext. intros b Hb. apply in_seq in Hb. destruct (Nat.lt_ge_cases (b + d) n) as [K|K].
    + rewrite (csum_single _ 0 n (b + d)%nat); [|lia|intros j Hj; destruct (Nat.eqb_spec (j + (n - 1)) (b + s)); [lia|reflexivity]].
      destruct (Nat.eqb_spec (b + d + (n - 1)) (b + s)); [f_equal; ring|lia].
    + rewrite (nth_overflow v 0 (n := (b + d)%nat)) by lia. rewrite csum_zero; [f_equal; ring|].
      intros a Ha. apply in_seq in Ha. destruct (Nat.eqb_spec (a + (n - 1)) (b + s)); [lia|reflexivity].
  - replace (s - (n - 1) + (n - 1 - s))%nat with (n - 1 - s)%nat by lia. set (d := (n - 1 - s)%nat).
    rewrite <- csum_real, map_map. apply csum_ext. intros a Ha. apply in_seq in Ha. destruct (Nat.lt_ge_cases (a + d) n) as [K|K].
    + rewrite (csum_single _ 0 n (a + d)%nat); [|lia|intros j Hj; destruct (Nat.eqb_spec (a + (n - 1)) (j + s)); [lia|reflexivity]].
      destruct (Nat.eqb_spec (a + (n - 1)) (a + d + s)); [reflexivity|lia].
    + rewrite (nth_overflow v 0 (n := (a + d)%nat)) by lia. rewrite csum_zero; [f_equal; ring|].
      intros b Hb. apply in_seq in Hb. destruct (Nat.eqb_spec (a + (n - 1)) (b + s)); [lia|reflexivity].
Qed.

Lemma power_acf : forall v n w, length v = n -> (0 < n)%nat ->
  RtoC (Cmod (fourier (fun j => nth j v 0) n w) ^ 2)
  = csum (map (fun s => Cmult (RtoC (acf v (gap s (n - 1)))) (cis ((INR (n - 1) - INR s) * w))) (seq 0 (2 * n - 1))).
Proof.
  intros v n w Hv Hn. rewrite power.
  rewrite (csum_ext _ _ (fun a => csum (map (fun b => csum (map (fun s =>
     Cmult (if (a + (n - 1) =? b + s)%nat then RtoC (nth a v 0 * nth b v 0) else RtoC 0) (cis ((INR (n - 1) - INR s) * w))) (seq 0 (2 * n - 1)))) (seq 0 n)))).
  2:{ intros a Ha. apply csum_ext. intros b Hb. apply in_seq in Ha, Hb. symmetry.
      rewrite (csum_single _ 0 (2 * n - 1) (a + (n - 1) - b)%nat);
        [|lia|intros j Hj; destruct (Nat.eqb_spec (a + (n - 1)) (b + j)); [lia|ring]].
      destruct (Nat.eqb_spec (a + (n - 1)) (b + (a + (n - 1) - b))); [|lia]. do 2 f_equal. rewrite (minus_INR (a + (n - 1)) b) by lia. rewrite plus_INR. ring. }
  rewrite (csum_ext _ _ (fun a => csum (map (fun s => csum (map (fun b =>
     Cmult (if (a + (n - 1) =? b + s)%nat then RtoC (nth a v 0 * nth b v 0) else RtoC 0) (cis ((INR (n - 1) - INR s) * w))) (seq 0 n))) (seq 0 (2 * n - 1)))))
    by (intros; apply csum_swap).
  rewrite csum_swap. apply csum_ext. intros s Hs. apply in_seq in Hs. rewrite <- (diagonal v n s) by (auto; lia).
  rewrite Cmult_comm, <- csum_scal. apply csum_ext. intros a _. rewrite <- csum_scal. apply csum_ext. intros b _. ring.
Qed.

Lemma csum_RtoC_total : forall n f, csum (map (fun i => RtoC (f i)) (seq 0 n)) = RtoC (total n f).
Proof. intros. rewrite <- rsum_total, <- csum_real, map_map. reflexivity. Qed.

(** ** The vacf route: Fourier transform of the mirrored function *)
Lemma mirror_nth : forall (l : list R) s, l <> [] -> nth s (mirror l) 0 = nth (gap s (length l - 1)) l 0 \/ (2 * length l - 1 <= s)%nat.
Proof.
  intros [|a l] s NE; [contradiction|]. unfold mirror, gap. cbn [tl]. destruct (Nat.lt_ge_cases s (length (a :: l))) as [L|L].
  - left. rewrite app_nth1 by (rewrite rev_length; assumption). rewrite rev_nth by assumption. f_equal. cbn [length] in *. lia.
  - destruct (Nat.lt_ge_cases s (2 * length (a :: l) - 1)) as [K|K]; [left|right; assumption].
    rewrite app_nth2 by (rewrite rev_length; assumption). rewrite rev_length. cbn [length] in *.
    replace (s - (S (length l) - 1) + (S (length l) - 1 - s))%nat with (S (s - S (length l))) by lia. reflexivity.
Qed.
Lemma mirror_length : forall l : list R, l <> [] -> length (mirror l) = (2 * length l - 1)%nat.
Proof. intros [|a l] NE; [contradiction|]. unfold mirror. rewrite app_length, rev_length. cbn [tl length]. lia. Qed.

Lemma Cmod_power : forall (x : nat -> R) n w, Cmod (fourier x n w) ^ 2 = power_at x n w.
Proof.
  intros x n w. assert (E : fourier x n w = (total n (fun j => x j * cos (INR j * w)), - total n (fun j => x j * sin (INR j * w)))).
  { unfold fourier. induction n as [|n IH]; [cbn; apply injective_projections; cbn; ring|].
    rewrite seq_S, map_app, csum_app, IH. cbn [map csum fold_right VacfSpec.total]. unfold csum, cis. cbn [fold_right Nat.add].
    rewrite cos_neg, sin_neg. apply injective_projections; cbn; ring. }
  rewrite E. unfold Cmod. cbn [fst snd]. rewrite <- Rsqr_pow2, Rsqr_sqrt by (apply Rplus_le_le_0_compat; apply pow2_ge_0). unfold power_at. ring.
Qed.
Lemma spectrum_fourier : forall vel nstep natoms m w, spectrum vel nstep natoms m w
  = total natoms (fun i => m i * total 3 (fun k => Cmod (fourier (fun j => nth j (column vel nstep i k) 0) nstep w) ^ 2)).
Proof.
  intros. unfold spectrum. apply total_ext. intros i _. f_equal. apply total_ext. intros k _. rewrite <- Cmod_power. do 2 f_equal.
  unfold fourier. apply csum_ext. intros j Hj. apply in_seq in Hj. rewrite column_nth by lia. reflexivity.
Qed.

Lemma spectrum_nonneg : forall vel nstep natoms m w, (forall i, (i < natoms)%nat -> 0 <= m i) -> 0 <= spectrum vel nstep natoms m w.
Proof.
  intros vel nstep natoms m w P. rewrite spectrum_fourier. replace 0 with (total natoms (fun _ => 0)) by (clear; induction natoms as [|n IH]; cbn; lra).
  apply total_le. intros i Hi. apply Rmult_le_pos; [auto|]. cbn. repeat (apply Rplus_le_le_0_compat); try lra; apply Rmult_le_pos; try lra; try apply Rmult_le_pos; try lra; apply Cmod_ge_0.
Qed.

Lemma spectrum_acf : forall vel nstep natoms m w, (0 < nstep)%nat ->
  RtoC (spectrum vel nstep natoms m w)
  = csum (map (fun s => Cmult (RtoC (Cvv vel nstep natoms m (gap s (nstep - 1)))) (cis ((INR (nstep - 1) - INR s) * w))) (seq 0 (2 * nstep - 1))).
Proof.
  intros vel nstep natoms m w Hn. rewrite spectrum_fourier. rewrite <- csum_RtoC_total.
  rewrite (csum_ext _ _ (fun i => csum (map (fun s => Cmult (RtoC (m i * (acf (column vel nstep i 0) (gap s (nstep - 1)) + acf (column vel nstep i 1) (gap s (nstep - 1)) + acf (column vel nstep i 2) (gap s (nstep - 1)))))
     (cis ((INR (nstep - 1) - INR s) * w))) (seq 0 (2 * nstep - 1))))).
  2:{ intros i _. rewrite RtoC_mult. cbn [total]. rewrite Rplus_0_l, !RtoC_plus. rewrite !power_acf by (auto; apply column_length).
      rewrite <- !csum_plus, <- csum_scal. apply csum_ext. intros s _. rewrite RtoC_mult, !RtoC_plus. ring. }
  rewrite csum_swap. apply csum_ext. intros s _. rewrite Cvv_acf, <- csum_RtoC_total.
  rewrite Cmult_comm, <- csum_scal. apply csum_ext. intros i _. ring.
Qed.

Lemma Cmod_cis : forall x, Cmod (cis x) = 1.
Proof.
  intros x. unfold Cmod, cis. cbn [fst snd]. pose proof (sin2_cos2 x) as E. unfold Rsqr in E.
  replace (cos x ^ 2 + sin x ^ 2) with 1 by (cbn; lra). apply sqrt_1.
Qed.

Lemma vacf_spectrum : forall vel nstep natoms m C0 k, (0 < nstep)%nat -> (k < 2 * nstep - 1)%nat -> 0 < C0 ->
  (forall i, (i < natoms)%nat -> 0 <= m i) ->
  Cmod (nth k (fft (map RtoC (mirror (map (fun t => Cvv vel nstep natoms m t / C0) (seq 0 nstep))))) (RtoC 0))
  = spectrum vel nstep natoms m (2 * PI * INR k / INR (2 * nstep - 1)) / C0.
Proof.
  intros vel nstep natoms m C0 k Hn Hk HC P. set (L := map (fun t => Cvv vel nstep natoms m t / C0) (seq 0 nstep)).
  assert (LL : length L = nstep) by (unfold L; rewrite map_length, seq_length; reflexivity).
  assert (LN : L <> []) by (intros E; rewrite E in LL; cbn in LL; lia).
  assert (LM : length (mirror L) = (2 * nstep - 1)%nat) by (rewrite mirror_length, LL by assumption; reflexivity).
  rewrite fft_real by (rewrite LM; assumption). rewrite LM. set (w := 2 * PI * INR k / INR (2 * nstep - 1)).
  assert (E : fourier (fun j => nth j (mirror L) 0) (2 * nstep - 1) w
    = Cmult (RtoC (/ C0)) (Cmult (cis (- (INR (nstep - 1) * w))) (RtoC (spectrum vel nstep natoms m w)))).
  { rewrite spectrum_acf by assumption. rewrite <- !csum_scal. unfold fourier. apply csum_ext. intros s Hs. apply in_seq in Hs.
    destruct (mirror_nth L s LN) as [M|M]; [|lia]. rewrite M, LL. unfold L.
    rewrite (nth_map_seq _ (fun t => Cvv vel nstep natoms m t / C0)) by (unfold gap; lia).
    replace (- (INR s * w)) with (- (INR (nstep - 1) * w) + (INR (nstep - 1) - INR s) * w) by ring. rewrite cis_add.
    unfold Rdiv. rewrite RtoC_mult. ring. }
  rewrite E. rewrite !Cmod_mult, Cmod_cis, !Cmod_R. pose proof (spectrum_nonneg vel nstep natoms m w P).
  rewrite !Rabs_right; [unfold Rdiv; ring|lra|apply Rle_ge, Rlt_le, Rinv_0_lt_compat; assumption].
Qed.

(** ** The direct route *)
Lemma indices_1 : forall n, indices [n] = map (fun j => [j]) (seq 0 n).
Proof. intros n. unfold indices. generalize 0%nat. induction n as [|n IH]; intros s; [reflexivity|]. cbn in *. rewrite IH. reflexivity. Qed.

Lemma padded_column_spec : forall vel nstep i k npad tonext l, padded_column vel nstep i k npad tonext = Some l ->
  (nstep <= length l)%nat /\ (forall j, nth j l 0 = if (j <? nstep)%nat then vel j i k else 0) /\
  match npad with
  | None => length l = nstep
  | Some p => if tonext then next_power (Z.of_nat (nstep + (nstep - 1) * p)) (Z.of_nat (length l))
              else length l = (nstep + (nstep - 1) * p)%nat
  end.
Proof.
  intros vel nstep i k npad tonext l E. unfold padded_column in E. destruct npad as [p|].
  - set (a := column_arr vel nstep i k) in *.
    set (r := if tonext then _ else _) in E. destruct r as [r'|] eqn:Er; [|discriminate]. injection E as <-.
    assert (Ax : axis_is (length (shape a)) 0 0) by (split; cbn; [lia|left; reflexivity]).
    assert (G : exists n', (nstep <= n')%nat /\ padded 0 "end" a 0 n' r' /\
       if tonext then next_power (Z.of_nat (nstep + (nstep - 1) * p)) (Z.of_nat n') else n' = (nstep + (nstep - 1) * p)%nat).
    { subst r. destruct tonext; apply (proj1 (pad_spec 0 a 0 0 _ _ _ _ _ Ax)) in Er; destruct Er as (n' & R & L & P & _); exists n'; cbn [nth shape a] in *;
        (split; [exact L|]); (split; [exact P|]).
      - inversion R; subst; [|congruence]. rewrite Nat2Z.inj_add. assumption.
      - inversion R; subst. apply Nat2Z.inj. rewrite Nat2Z.inj_add. symmetry. assumption. }
    destruct G as (n' & L & (Sh & At) & T). change (shape r' = [n']) in Sh.
    rewrite Sh, indices_1, map_map. rewrite map_length, seq_length. split; [exact L|]. split; [|exact T].
    intros j. destruct (Nat.lt_ge_cases j n') as [J|J].
    + rewrite (nth_map_seq _ (fun j => at_ r' [j])) by assumption. destruct (At [j]) as [Ae _]; [rewrite Sh; repeat constructor; assumption|].
      destruct (Ae eq_refl) as [A1 A2]. cbn [nth shape a column_arr] in A1, A2. destruct (Nat.ltb_spec j nstep) as [K|K]; [rewrite A1 by assumption; reflexivity|apply A2; assumption].
    + rewrite nth_overflow by (rewrite map_length, seq_length; assumption). destruct (Nat.ltb_spec j nstep); [lia|reflexivity].
  - injection E as <-. rewrite map_length, seq_length. split; [lia|]. split; [|reflexivity]. intros j. destruct (Nat.ltb_spec j nstep).
    + apply (nth_map_seq _ (fun j => vel j i k)). assumption.
    + apply nth_overflow. rewrite map_length, seq_length. assumption.
Qed.

Lemma padded_column_exists : forall vel nstep i k npad, exists l, padded_column vel nstep i k npad false = Some l.
Proof.
  intros vel nstep i k [p|]; [|eexists; reflexivity]. unfold padded_column. set (a := column_arr vel nstep i k).
  assert (Ax : axis_is (length (shape a)) 0 0) by (split; cbn; [lia|left; reflexivity]).
  destruct (proj2 (pad_spec 0 a 0 0 "end" (Some (Z.of_nat ((nstep - 1) * p))) None (Some false) None Ax) (Z.of_nat nstep + Z.of_nat ((nstep - 1) * p))%Z) as [r Er].
  - apply by_number. discriminate.
  - cbn [nth shape a column_arr]. lia.
  - auto.
  - rewrite Er. eauto.
Qed.

Lemma direct_spectrum : forall vel nstep natoms m k columns N, (k < N)%nat -> (nstep <= N)%nat ->
  (forall i c, length (columns i c) = N /\ forall j, nth j (columns i c) 0 = if (j <? nstep)%nat then vel j i c else 0) ->
  power_sum columns natoms m k = spectrum vel nstep natoms (masses m) (2 * PI * INR k / INR N).
Proof.
  intros vel nstep natoms m k columns N Hk HN Col. rewrite spectrum_fourier. unfold power_sum, sum2. rewrite rsum_total. apply total_ext. intros i _.
  rewrite (rsum_total _ 3), <- total_scal. apply total_ext. intros c _. destruct (Col i c) as [Lc Nc].
  rewrite fft_real by (rewrite Lc; assumption). rewrite Lc.
  assert (E : fourier (fun j => nth j (columns i c) 0) N (2 * PI * INR k / INR N)
    = fourier (fun j => nth j (column vel nstep i c) 0) nstep (2 * PI * INR k / INR N)).
  { rewrite (fourier_trunc _ nstep N); [|assumption|intros j Hj; rewrite Nc; destruct (Nat.ltb_spec j nstep); [lia|reflexivity]].
    unfold fourier. apply csum_ext. intros j Hj. apply in_seq in Hj. rewrite Nc, column_nth by lia. destruct (Nat.ltb_spec j nstep); [reflexivity|lia]. }
  rewrite E. destruct m; cbn [masses]; ring.
Qed.

(** ** Both routes *)
Lemma fft_length : forall l, length (fft l) = length l.
Proof. intros. unfold fft. rewrite map_length, seq_length. reflexivity. Qed.
Lemma firstn_map_nth : forall (l : list C) (f : C -> R) k d, (k <= length l)%nat -> firstn k (map f l) = map (fun i => f (nth i l d)) (seq 0 k).
Proof.
  intros l f k d. revert k. induction l as [|x l IH]; intros [|k] H; cbn in *; try lia; auto. rewrite IH by lia.
  rewrite <- seq_shift, map_map. reflexivity.
Qed.

Theorem routes_agree : forall func vel nstep natoms dt m area window res, homogeneous func -> (0 < nstep)%nat ->
  (forall i, (i < natoms)%nat -> 0 <= masses m i) ->
  let vel2 := windowed vel nstep window in
  Cvv vel2 nstep natoms (masses m) 0 <> 0 ->
  let N := (2 * nstep - 1)%nat in
  func (map (fun k => spectrum vel2 nstep natoms (masses m) (2 * PI * INR k / INR N)) (seq 0 (N / 2))) (faxis N dt) <> 0 ->
  pdos_vacf func vel nstep natoms dt m area window true res ->
  res = pdos_direct func vel nstep natoms dt m area window (Some 1%nat) false /\ res <> None.
Proof.
  intros func vel nstep natoms dt m area window res Hf Hn P vel2 NZ N NI (v & V & ->).
  fold vel2 in V. rewrite (fvacf_spec vel2 nstep natoms m 2 v ltac:(lia) Hn P V). unfold over_first.
  destruct (Req_EM_T _ 0); [contradiction|]. split; [|discriminate]. set (C0 := Cvv vel2 nstep natoms (masses m) 0) in *.
  assert (HC : 0 < C0) by (pose proof (Cvv_bound vel2 nstep natoms (masses m) 0 P) as B; fold C0 in B; pose proof (Rabs_pos_lt C0 NZ); lra).
  unfold pdos_direct. fold vel2. destruct (padded_column_exists vel2 nstep 0 0 (Some 1%nat)) as [c00 Ec]. rewrite Ec.
  pose proof (padded_column_spec _ _ _ _ _ _ _ Ec) as (_ & _ & Lc). cbv iota in Lc. rewrite Lc.
  replace (nstep + (nstep - 1) * 1)%nat with N by (unfold N; lia).
  set (L := map (fun t => Cvv vel2 nstep natoms (masses m) t / C0) (seq 0 nstep)).
  assert (LN : L <> []) by (unfold L; destruct nstep; [lia|discriminate]).
  assert (LF : length (fft (map RtoC (mirror L))) = N).
  { rewrite fft_length, map_length, mirror_length by assumption. unfold L, N. rewrite map_length, seq_length. reflexivity. }
  unfold pdos_of_vacf. rewrite LF. f_equal. f_equal.
  assert (HN : (N / 2 <= N)%nat) by (apply Nat.div_le_upper_bound; lia).
  set (S := map (fun k => spectrum vel2 nstep natoms (masses m) (2 * PI * INR k / INR N)) (seq 0 (N / 2))) in *.
  assert (E1 : firstn (N / 2) (map Cmod (fft (map RtoC (mirror L)))) = map (Rmult (/ C0)) S).
  { rewrite (firstn_map_nth _ _ _ (RtoC 0)) by (rewrite LF; assumption). unfold S. rewrite map_map. apply map_ext_in. intros k Hk. apply in_seq in Hk.
    unfold L. assert (N / 2 < N)%nat by (apply Nat.div_lt; unfold N; lia). rewrite vacf_spectrum by (auto; fold N; lia). fold N. unfold Rdiv. ring. }
  assert (E2 : map (power_sum (fun i c => match padded_column vel2 nstep i c (Some 1%nat) false with Some l => l | None => [] end) natoms m) (seq 0 (N / 2)) = S).
  { unfold S. apply map_ext_in. intros k Hk. apply in_seq in Hk. assert (N / 2 < N)%nat by (apply Nat.div_lt; unfold N; lia).
    apply direct_spectrum; [lia|unfold N; lia|]. intros i c.
    destruct (padded_column_exists vel2 nstep i c (Some 1%nat)) as [l El]. rewrite El.
    pose proof (padded_column_spec _ _ _ _ _ _ _ El) as (_ & Nl & Ll). cbv iota in Ll. split; [unfold N; lia|exact Nl]. }
  rewrite E1, E2. assert (I0 : / C0 <> 0) by (apply Rinv_neq_0_compat; assumption).
  assert (FS : func (map (Rmult (/ C0)) S) (faxis N dt) = / C0 * func S (faxis N dt)) by (apply (proj1 Hf)).
  destruct (norm_int_spec func (map (Rmult (/ C0)) S) (faxis N dt) area true Hf) as [-> _]; [rewrite FS; apply Rmult_integral_contrapositive; auto|].
  destruct (norm_int_spec func S (faxis N dt) area true Hf) as [-> _]; [assumption|]. rewrite map_map. apply map_ext. intros x. rewrite FS. field. split; assumption.
Qed.

(** Any padding. *)
Theorem direct_spec : forall func vel nstep natoms dt m area window npad tonext f p, homogeneous func -> (0 < nstep)%nat ->
  pdos_direct func vel nstep natoms dt m area window npad tonext = Some (f, p) ->
  exists N, (nstep <= N)%nat /\
    match npad with
    | None => N = nstep
    | Some q => if tonext then next_power (Z.of_nat (nstep + (nstep - 1) * q)) (Z.of_nat N) else N = (nstep + (nstep - 1) * q)%nat
    end /\
    f = map (fun k => INR k / (INR N * dt)) (seq 0 (N / 2)) /\
    let s := map (fun k => spectrum (windowed vel nstep window) nstep natoms (masses m) (2 * PI * INR k / INR N)) (seq 0 (N / 2)) in
    (func s f <> 0 -> p = map (fun x => x * area / func s f) s /\ func p f = area).
Proof.
  intros func vel nstep natoms dt m area window npad tonext f p Hf Hn E. unfold pdos_direct in E. set (vel2 := windowed vel nstep window) in *.
  destruct (padded_column vel2 nstep 0 0 npad tonext) as [c00|] eqn:Ec; [|discriminate].
  pose proof (padded_column_spec _ _ _ _ _ _ _ Ec) as (L0 & _ & T0). set (N := length c00) in *. exists N. split; [assumption|]. split; [assumption|].
  injection E as <- <-. split; [reflexivity|]. intros s NZ.
  assert (HN : (0 < N)%nat) by lia.
  assert (E2 : map (power_sum (fun i c => match padded_column vel2 nstep i c npad tonext with Some l => l | None => [] end) natoms m) (seq 0 (N / 2)) = s).
  { unfold s. apply map_ext_in. intros k Hk. apply in_seq in Hk. assert (N / 2 < N)%nat by (apply Nat.div_lt; lia).
    apply direct_spectrum; [lia|assumption|]. intros i c.
    assert (exists l, padded_column vel2 nstep i c npad tonext = Some l) as [l El].
    { unfold padded_column in *. destruct npad as [q|]; [|eauto].
      assert (Q : forall i c nadd tn tm, pad_count (column_arr vel2 nstep i c) 0 nadd None tn tm = pad_count (column_arr vel2 nstep 0 0) 0 nadd None tn tm) by reflexivity.
      assert (W : forall nadd tn tm, (exists r, pad_zeros 0 (column_arr vel2 nstep 0 0) 0 "end" nadd None tn tm = Some r) -> exists r, pad_zeros 0 (column_arr vel2 nstep i c) 0 "end" nadd None tn tm = Some r).
      { intros nadd tn tm [r Er]. assert (Ax : forall i c, axis_is (length (shape (column_arr vel2 nstep i c))) 0 0) by (intros; split; cbn; [lia|left; reflexivity]).
        destruct (proj1 (pad_spec 0 _ 0 0 _ _ _ _ _ (Ax 0%nat 0%nat)) r Er) as (n' & R & Ln & _). cbn [nth shape column_arr] in R, Ln.
        apply (proj2 (pad_spec 0 (column_arr vel2 nstep i c) 0 0 "end" nadd None tn tm (Ax i c)) (Z.of_nat n')); [exact R|cbn [nth shape column_arr]; lia|auto]. }
      destruct tonext.
      - destruct (pad_zeros 0 (column_arr vel2 nstep 0 0) _ _ _ _ _ _) as [r|] eqn:Er in Ec; [|discriminate].
        destruct (W None (Some true) (Some (Z.of_nat nstep + Z.of_nat ((nstep - 1) * q))%Z)) as [r2 E2']; [eauto|]. rewrite E2'. eauto.
      - destruct (pad_zeros 0 (column_arr vel2 nstep 0 0) _ _ _ _ _ _) as [r|] eqn:Er in Ec; [|discriminate].
        destruct (W (Some (Z.of_nat ((nstep - 1) * q))) (Some false) None) as [r2 E2']; [eauto|]. rewrite E2'. eauto. }
    rewrite El. pose proof (padded_column_spec _ _ _ _ _ _ _ El) as (_ & Nl & Ll). split; [|exact Nl].
    destruct npad as [q|]; [destruct tonext|]; [|congruence|congruence]. pose proof (next_power_unique _ _ _ T0 Ll). lia. }
  match goal with |- context [norm_int func ?y ?x area true] => change y with (map (power_sum (fun i c => match padded_column vel2 nstep i c npad tonext with Some l => l | None => [] end) natoms m) (seq 0 (N / 2))) end.
  rewrite E2. apply norm_int_spec; assumption.
Qed.
