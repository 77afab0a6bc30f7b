From Coq Require Import Reals List Bool Arith Lia Lra.
From Verif Require Import Kpath KpathSpec.
Import ListNotations.
Local Open Scope R_scope.

Lemma vzip_length f u v : length u = length v -> length (vzip f u v) = length u.
Proof. intro H. unfold vzip. rewrite map_length, combine_length. lia. Qed.

Lemma vzip_nth f u v c : length u = length v -> (c < length u)%nat ->
  nth c (vzip f u v) 0 = f (nth c u 0) (nth c v 0).
Proof.
  intros L C. unfold vzip.
  rewrite (nth_indep _ 0 (f (fst (0, 0)) (snd (0, 0)))) by (rewrite map_length, combine_length; lia).
  rewrite (map_nth (fun p : R * R => f (fst p) (snd p))).
  rewrite combine_nth by exact L. reflexivity.
Qed.

Lemma list_ext (u v : list R) : length u = length v ->
  (forall c, (c < length u)%nat -> nth c u 0 = nth c v 0) -> u = v.
Proof. intros L H. apply (nth_ext u v 0 0); auto. Qed.

Lemma map_nth0 (f : R -> R) l c : (c < length l)%nat -> nth c (map f l) 0 = f (nth c l 0).
Proof. intro H. rewrite (nth_indep _ 0 (f 0)) by (rewrite map_length; exact H). apply map_nth. Qed.

Lemma nth_map_seq (f : nat -> R) n c : (c < n)%nat -> nth c (map f (seq 0 n)) 0 = f c.
Proof.
  intro H. rewrite (nth_indep _ 0 (f (length (seq 0 n)))) by (rewrite map_length, seq_length; exact H).
  rewrite map_nth, seq_nth by exact H. reflexivity.
Qed.

Lemma between_length a b s : length (between a b s) = length a.
Proof. unfold between. rewrite map_length, seq_length. reflexivity. Qed.

Lemma between_nth a b s c : (c < length a)%nat ->
  nth c (between a b s) 0 = nth c a 0 + s * (nth c b 0 - nth c a 0).
Proof. intro H. unfold between. rewrite (nth_map_seq (fun c => _)) by exact H. reflexivity. Qed.

Lemma between_0 a b : between a b 0 = a.
Proof.
  apply list_ext; [apply between_length|]. rewrite between_length. intros c H.
  rewrite between_nth by exact H. lra.
Qed.

Lemma between_1 a b : length a = length b -> between a b 1 = b.
Proof.
  intro L. apply list_ext; [rewrite between_length; exact L|]. rewrite between_length. intros c H.
  rewrite between_nth by exact H. lra.
Qed.

Lemma cumsum_from_repeat acc d n j : length acc = length d -> (j < n)%nat ->
  nth j (cumsum_from acc (repeat d n)) [] = vzip (fun x y => x + INR (S j) * y) acc d.
Proof.
  revert acc j. induction n as [|n IH]; intros acc j L J; [lia|].
  cbn [repeat cumsum_from]. destruct j as [|j].
  - cbn [nth]. unfold vzip. apply map_ext. intros [x y]. cbn. lra.
  - cbn [nth]. rewrite IH by (rewrite ?vzip_length; lia).
    apply list_ext; rewrite !vzip_length; rewrite ?vzip_length; auto.
    intros c C. rewrite !vzip_nth by (rewrite ?vzip_length; auto).
    rewrite (S_INR (S j)). lra.
Qed.

Lemma cumsum_from_length acc rows : length (cumsum_from acc rows) = length rows.
Proof. revert acc; induction rows; intro acc; cbn; auto. Qed.

Lemma vlinspace_ok a b num : length a = length b -> (1 <= num)%nat ->
  exists rows, vlinspace a b num false = Some rows /\ length rows = num /\
    forall j, (j < num)%nat -> nth j rows [] = between a b (INR j / INR num).
Proof.
  intros L H. unfold vlinspace.
  destruct (Nat.eqb_spec (length a) (length b)) as [_|h]; [|contradiction].
  destruct (Nat.leb_spec 1 num) as [_|h]; [|lia]. cbn [negb].
  eexists. split; [reflexivity|].
  destruct num as [|n]; [lia|]. cbn [repeat tl]. split.
  - cbn [cumsum length]. rewrite cumsum_from_length, repeat_length. reflexivity.
  - intros j J. assert (N0 : INR (S n) <> 0) by (apply not_0_INR; lia).
    cbn [cumsum]. destruct j as [|j]; cbn [nth].
    + replace (INR 0 / INR (S n)) with 0 by (cbn; field; exact N0). symmetry. apply between_0.
    + assert (Ld : length (map (fun x => x / INR (S n)) (vzip Rminus b a)) = length a)
        by (rewrite map_length, vzip_length; auto).
      rewrite cumsum_from_repeat by (rewrite ?Ld; lia).
      apply list_ext; [rewrite between_length, vzip_length; auto|].
      rewrite vzip_length by (rewrite Ld; reflexivity). intros c C.
      rewrite vzip_nth, between_nth by (rewrite ?Ld; auto).
      rewrite map_nth0 by (rewrite vzip_length; lia).
      rewrite vzip_nth by lia. field. exact N0.
Qed.

Lemma vlinspace_endpoint a b num : length a = length b -> (2 <= num)%nat ->
  exists rows, vlinspace a b num true = Some rows /\ length rows = num /\
    forall j, (j < num)%nat -> nth j rows [] = between a b (INR j / INR (num - 1)).
Proof.
  intros L H. unfold vlinspace.
  destruct (Nat.eqb_spec (length a) (length b)) as [_|h]; [|contradiction].
  destruct (Nat.leb_spec 1 num) as [_|h]; [|lia]. cbn [negb].
  destruct (Nat.eqb_spec num 1) as [h|_]; [lia|].
  eexists. split; [reflexivity|].
  assert (N0 : INR (num - 1) <> 0) by (apply not_0_INR; lia).
  remember (INR (num - 1)) as nn. destruct num as [|n]; [lia|]. cbn [repeat tl]. split.
  - cbn [cumsum length]. rewrite cumsum_from_length, repeat_length. reflexivity.
  - intros j J.
    cbn [cumsum]. destruct j as [|j]; cbn [nth].
    + replace (INR 0 / nn) with 0 by (cbn; field; exact N0). symmetry. apply between_0.
    + assert (Ld : length (map (fun x => x / nn) (vzip Rminus b a)) = length a)
        by (rewrite map_length, vzip_length; auto).
      rewrite cumsum_from_repeat by (rewrite ?Ld; lia).
      apply list_ext; [rewrite between_length, vzip_length; auto|].
      rewrite vzip_length by (rewrite Ld; reflexivity). intros c C.
      rewrite vzip_nth, between_nth by (rewrite ?Ld; auto).
      rewrite map_nth0 by (rewrite vzip_length; lia).
      rewrite vzip_nth by lia. field. exact N0.
Qed.

(** ** kpath *)

Lemma set_rows_ok arr new lo hi : (lo <= hi <= length arr)%nat -> length new = (hi - lo)%nat ->
  exists r, set_rows arr new lo hi = Some r /\ length r = length arr /\
    forall j, nth j r [] = if (lo <=? j)%nat && (j <? hi)%nat then nth (j - lo) new [] else nth j arr [].
Proof.
  intros B L. unfold set_rows. rewrite firstn_length, skipn_length.
  destruct (Nat.eqb_spec (Nat.min (hi - lo) (length arr - lo)) (length new)) as [_|h]; [|lia].
  eexists. split; [reflexivity|]. split.
  - rewrite !app_length, firstn_length, skipn_length. lia.
  - intro j. destruct (Nat.leb_spec lo j) as [h|h]; cbn [andb].
    + rewrite app_nth2 by (rewrite firstn_length; lia).
      rewrite firstn_length, Nat.min_l by lia.
      destruct (Nat.ltb_spec j hi) as [h'|h'].
      * apply app_nth1. lia.
      * rewrite app_nth2 by lia. rewrite L.
        assert (S : forall (l : list (list R)) k i, nth i (skipn k l) [] = nth (k + i) l []).
        { clear. intros l k. revert l. induction k; intros l i; [reflexivity|].
          destruct l; cbn [skipn]; [destruct i; reflexivity | apply IHk]. }
        rewrite S. f_equal. lia.
    + rewrite app_nth1 by (rewrite firstn_length; lia).
      assert (F : forall (l : list (list R)) k i, (i < k)%nat -> nth i (firstn k l) [] = nth i l []).
      { clear. intros l k. revert l. induction k; intros l i I; [lia|].
        destruct l; [destruct i; reflexivity|]. destruct i; cbn; [reflexivity | apply IHk; lia]. }
      apply F. lia.
Qed.

(** the point of the path with number j *)
Definition path_point (vecs : list (list R)) (N j : nat) : list R :=
  between (nth (j / N) vecs []) (nth (S (j / N)) vecs []) (INR (j mod N) / INR N).

Lemma same_dim_nth M vecs i : same_dim M vecs -> (i < length vecs)%nat -> length (nth i vecs []) = M.
Proof. intros H I. unfold same_dim in H. rewrite Forall_forall in H. apply H, nth_In, I. Qed.

Lemma kpath_loop_ok M vecs N m : same_dim M vecs -> (1 <= N)%nat -> forall k arr,
  (k + m < length vecs)%nat -> length arr = (N * (length vecs - 1) + 1)%nat ->
  (forall j, (j < k * N)%nat -> nth j arr [] = path_point vecs N j) ->
  exists r, kpath_loop vecs N (seq (S k) m) arr = Some r /\ length r = length arr /\
    forall j, (j < (k + m) * N)%nat -> nth j r [] = path_point vecs N j.
Proof.
  intros D HN. induction m as [|m IH]; intros k arr K L H.
  - exists arr. rewrite Nat.add_0_r. auto.
  - cbn [seq kpath_loop]. rewrite Nat.sub_succ, Nat.sub_0_r.
    destruct (vlinspace_ok (nth k vecs []) (nth (S k) vecs []) N) as (rows & -> & Lr & Hr).
    { rewrite !(same_dim_nth M) by (auto || lia). reflexivity. }
    { exact HN. }
    destruct (set_rows_ok arr rows (k * N) (S k * N)) as (r & -> & Lr' & Hr').
    { rewrite L. split; nia. }
    { rewrite Lr. lia. }
    destruct (IH (S k) r) as (r2 & E2 & L2 & H2).
    { lia. } { lia. }
    { intros j J. rewrite Hr'. destruct (Nat.leb_spec (k * N) j) as [h|h]; cbn [andb].
      - destruct (Nat.ltb_spec j (S k * N)) as [_|h']; [|lia].
        rewrite Hr by lia. unfold path_point.
        assert (Q : (j / N)%nat = k) by (symmetry; apply (Nat.div_unique j N k (j - k * N)); lia).
        assert (Q' : (j mod N)%nat = (j - k * N)%nat)
          by (symmetry; apply (Nat.mod_unique j N k (j - k * N)); lia).
        rewrite Q, Q'. reflexivity.
      - apply H. exact h. }
    exists r2. split; [exact E2|]. split; [lia|]. intros j J. apply H2. lia.
Qed.

Lemma kpath_ok M vecs N junk : same_dim M vecs -> (1 <= N)%nat -> vecs <> [] ->
  length junk = (N * (length vecs - 1) + 1)%nat ->
  exists p, kpath junk vecs N = Some p /\ length p = (N * (length vecs - 1) + 1)%nat /\
    (forall j, (j < N * (length vecs - 1))%nat -> nth j p [] = path_point vecs N j) /\
    nth (N * (length vecs - 1)) p [] = nth (length vecs - 1) vecs [].
Proof.
  intros D HN NE L.
  assert (U : kpath junk vecs N = match kpath_loop vecs N (seq 1 (length vecs - 1)) junk with
      | None => None
      | Some nv => set_rows nv [nth (length vecs - 1) vecs []] (length nv - 1) (length nv) end)
    by (unfold kpath; destruct vecs; [congruence | reflexivity]).
  rewrite U. clear U.
  assert (K0 : (0 < length vecs)%nat) by (destruct vecs; [congruence | cbn; lia]).
  destruct (kpath_loop_ok M vecs N (length vecs - 1) D HN 0%nat junk) as (r & E & Lr & H).
  { lia. } { exact L. } { intros j J. lia. }
  rewrite E.
  destruct (set_rows_ok r [nth (length vecs - 1) vecs []] (length r - 1) (length r)) as (p & -> & Lp & Hp).
  { lia. } { cbn [length]. lia. }
  exists p. split; [reflexivity|]. split; [lia|]. split.
  - intros j J. rewrite Hp. destruct (Nat.leb_spec (length r - 1) j) as [h|h]; [lia|]. cbn [andb].
    apply H. lia.
  - rewrite Hp. clear - L Lr. set (q := (N * (length vecs - 1))%nat) in *. clearbody q.
    destruct (Nat.leb_spec (length r - 1) q) as [h|h]; [|lia].
    destruct (Nat.ltb_spec q (length r)) as [h'|h']; [|lia].
    cbn [andb]. replace (q - (length r - 1))%nat with 0%nat by lia. reflexivity.
Qed.

(** point number j on edge i, the end of the edge included *)
Lemma kpath_edge M vecs N junk p i j : same_dim M vecs -> (1 <= N)%nat ->
  length junk = (N * (length vecs - 1) + 1)%nat -> kpath junk vecs N = Some p ->
  (i < length vecs - 1)%nat -> (j <= N)%nat ->
  nth (i * N + j) p [] = between (nth i vecs []) (nth (S i) vecs []) (INR j / INR N).
Proof.
  intros D HN L E I J.
  assert (NE : vecs <> []) by (intros ->; cbn in I; lia).
  destruct (kpath_ok M vecs N junk D HN NE L) as (p' & E' & Lp & Hp & Hl).
  rewrite E in E'. injection E' as <-.
  assert (N0 : INR N <> 0) by (apply not_0_INR; lia).
  destruct (Nat.eq_dec j N) as [->|ne].
  - replace (INR N / INR N) with 1 by (field; exact N0).
    rewrite between_1 by (rewrite !(same_dim_nth M) by (auto || lia); reflexivity).
    replace (i * N + N)%nat with (S i * N)%nat by lia.
    destruct (Nat.eq_dec (S i) (length vecs - 1)) as [e|e].
    + rewrite e. rewrite Nat.mul_comm. exact Hl.
    + rewrite Hp by nia. unfold path_point.
      rewrite Nat.div_mul, Nat.mod_mul by lia.
      replace (INR 0 / INR N) with 0 by (cbn; field; exact N0). apply between_0.
  - rewrite Hp by nia. unfold path_point.
    rewrite Nat.div_add_l, Nat.div_small by lia. rewrite Nat.add_0_r.
    rewrite (Nat.add_comm (i * N)), Nat.mod_add, Nat.mod_small by lia. reflexivity.
Qed.

(** ** get_path_norm *)

Lemma sumsq_total v : forall k l, v = skipn k l ->
  sumsq v = total (fun c => nth (k + c) l 0 * nth (k + c) l 0) (length v).
Proof.
  assert (T : forall f n, total f (S n) = f 0%nat + total (fun c => f (S c)) n).
  { intros f n. induction n as [|n IH]; cbn [total] in *; [lra|]. rewrite IH. lra. }
  induction v as [|x v IH]; intros k l E; [reflexivity|].
  cbn [sumsq length]. rewrite T. rewrite (IH (S k) l).
  - assert (X : nth (k + 0) l 0 = x).
    { assert (S : forall (l : list R) k i, nth i (skipn k l) 0 = nth (k + i) l 0).
      { clear. intros l k. revert l. induction k; intros l i; [reflexivity|].
        destruct l; cbn [skipn]; [destruct i; reflexivity | apply IHk]. }
      rewrite <- S, <- E. reflexivity. }
    rewrite X. f_equal.
    assert (G : forall n, total (fun c => nth (S k + c) l 0 * nth (S k + c) l 0) n
       = total (fun c => nth (k + S c) l 0 * nth (k + S c) l 0) n).
    { induction n as [|n IHn]; [reflexivity|]. cbn [total]. rewrite IHn.
      replace (S k + n)%nat with (k + S n)%nat by lia. reflexivity. }
    apply G.
  - clear - E. revert l E. induction k as [|k IH]; intros l E.
    + cbn in E. subst l. reflexivity.
    + destruct l; [discriminate|]. cbn [skipn] in E |- *. apply IH. exact E.
Qed.

Lemma total_ext f g n : (forall i, (i < n)%nat -> f i = g i) -> total f n = total g n.
Proof. induction n as [|n IH]; intro H; [reflexivity|]. cbn [total]. rewrite IH, H by auto. reflexivity. Qed.

Lemma norm1_length v : norm1 v = length_of v.
Proof. unfold norm1, length_of. f_equal. exact (sumsq_total v 0 v eq_refl). Qed.

Lemma norm1_diff a b : length a = length b -> norm1 (vzip Rminus b a) = distance a b.
Proof.
  intro L. unfold norm1, distance. f_equal. rewrite (sumsq_total (vzip Rminus b a) 0 (vzip Rminus b a) eq_refl).
  rewrite vzip_length by auto. rewrite <- L. apply total_ext. intros c C.
  cbn [Nat.add]. rewrite vzip_nth by lia. reflexivity.
Qed.

Lemma cumsum1_length acc l : length (cumsum1 acc l) = length l.
Proof. revert acc; induction l; intro acc; cbn; auto. Qed.

Lemma cumsum1_nth l : forall acc i, (i < length l)%nat ->
  nth i (cumsum1 acc l) 0 = acc + total (fun m => nth m l 0) (S i).
Proof.
  assert (T : forall f n, total f (S n) = f 0%nat + total (fun c => f (S c)) n).
  { intros f n. induction n as [|n IH]; cbn [total] in *; [lra|]. rewrite IH. lra. }
  induction l as [|x l IH]; intros acc i I; [cbn in I; lia|].
  cbn [cumsum1]. destruct i as [|i].
  - cbn. lra.
  - cbn [nth]. rewrite IH by (cbn in I; lia). rewrite (T _ (S i)). cbn [nth]. lra.
Qed.

Lemma diff_norms_length ks prev : length (diff_norms prev ks) = length ks.
Proof. revert prev; induction ks; intro prev; cbn; auto. Qed.

Lemma diff_norms_nth ks : forall prev m, (m < length ks)%nat ->
  nth m (diff_norms prev ks) 0 = norm1 (vzip Rminus (nth (S m) (prev :: ks) []) (nth m (prev :: ks) [])).
Proof.
  induction ks as [|k ks IH]; intros prev m H; [cbn in H; lia|].
  destruct m as [|m]; [reflexivity|].
  change (nth (S (S m)) (prev :: k :: ks) []) with (nth (S m) (k :: ks) []).
  change (nth (S m) (prev :: k :: ks) []) with (nth m (k :: ks) []).
  cbn [diff_norms]. cbn [nth]. apply (IH k m). cbn in H. lia.
Qed.

Lemma path_norm_ok M ks : same_dim M ks -> ks <> [] ->
  exists l, get_path_norm ks = Some l /\ length l = length ks /\
    forall i, (i < length ks)%nat ->
      nth i l 0 = length_of (nth 0 ks []) + total (fun m => distance (nth m ks []) (nth (S m) ks [])) i.
Proof.
  intros D NE. destruct ks as [|k ks]; [congruence|].
  eexists. split; [reflexivity|]. split.
  { rewrite cumsum1_length. cbn [length]. rewrite diff_norms_length. reflexivity. }
  intros i I. rewrite cumsum1_nth by (cbn [length] in *; rewrite diff_norms_length; exact I).
  assert (T : forall f n, total f (S n) = f 0%nat + total (fun c => f (S c)) n).
  { intros f n. induction n as [|n IH]; cbn [total] in *; [lra|]. rewrite IH. lra. }
  rewrite T, Rplus_0_l. cbn [nth]. rewrite norm1_length. f_equal.
  apply total_ext. intros m Hm. cbn [length] in I.
  rewrite diff_norms_nth by lia.
  apply norm1_diff.
  transitivity M.
  - apply (same_dim_nth M (k :: ks) m D). cbn [length]. lia.
  - symmetry. apply (same_dim_nth M (k :: ks) (S m) D). cbn [length]. lia.
Qed.

Lemma distance_nonneg a b : 0 <= distance a b.
Proof. apply sqrt_pos. Qed.

Lemma total_nonneg f n : (forall i, 0 <= f i) -> 0 <= total f n.
Proof. intro H. induction n as [|n IH]; cbn [total]; [lra|]. specialize (H n). lra. Qed.

Lemma total_mono f i j : (forall m, 0 <= f m) -> (i <= j)%nat -> total f i <= total f j.
Proof.
  intros H L. induction L as [|j L IH]; [lra|]. cbn [total]. specialize (H j). lra.
Qed.

(** distances on an edge *)
Lemma total_scale f k n : total (fun m => k * f m) n = k * total f n.
Proof. induction n as [|n IH]; cbn [total]; [lra|]. rewrite IH. lra. Qed.

Lemma distance_between a b s s' : length a = length b ->
  distance (between a b s) (between a b s') = Rabs (s' - s) * distance a b.
Proof.
  intro L. unfold distance. rewrite between_length.
  rewrite (total_ext _ (fun c => Rsqr (s' - s) * ((nth c b 0 - nth c a 0) * (nth c b 0 - nth c a 0)))).
  - rewrite total_scale, sqrt_mult_alt, sqrt_Rsqr_abs by apply Rle_0_sqr. reflexivity.
  - intros c C. rewrite !between_nth by exact C. unfold Rsqr. ring.
Qed.

Lemma total_plus f n m : total f (n + m) = total f n + total (fun i => f (n + i)%nat) m.
Proof.
  induction m as [|m IH]; [rewrite Nat.add_0_r; cbn; lra|].
  rewrite Nat.add_succ_r. cbn [total]. rewrite IH. lra.
Qed.

Lemma total_const c n : total (fun _ => c) n = INR n * c.
Proof. induction n as [|n IH]; [cbn; lra|]. cbn [total]. rewrite IH, S_INR. lra. Qed.

Lemma kpath_norm_vertex M vecs N junk p : same_dim M vecs -> (1 <= N)%nat ->
  length junk = (N * (length vecs - 1) + 1)%nat -> kpath junk vecs N = Some p ->
  forall i, (i <= length vecs - 1)%nat ->
  total (fun m => distance (nth m p []) (nth (S m) p [])) (i * N)
  = total (fun m => distance (nth m vecs []) (nth (S m) vecs [])) i.
Proof.
  intros D HN L E i. induction i as [|i IH]; intro I; [reflexivity|].
  replace (S i * N)%nat with (i * N + N)%nat by lia.
  rewrite total_plus, IH by lia. cbn [total]. f_equal.
  assert (N0 : INR N <> 0) by (apply not_0_INR; lia).
  assert (Np : 0 < INR N) by (apply lt_0_INR; lia).
  rewrite (total_ext _ (fun _ => / INR N * distance (nth i vecs []) (nth (S i) vecs []))).
  - rewrite total_const. field. exact N0.
  - intros r Hr. replace (S (i * N + r))%nat with (i * N + S r)%nat by lia.
    rewrite !(kpath_edge M vecs N junk p) by (auto || lia).
    rewrite distance_between by (rewrite !(same_dim_nth M) by (auto || lia); reflexivity).
    f_equal. rewrite S_INR.
    replace ((INR r + 1) / INR N - INR r / INR N) with (/ INR N) by (field; exact N0).
    apply Rabs_pos_eq. left. apply Rinv_0_lt_compat. exact Np.
Qed.
