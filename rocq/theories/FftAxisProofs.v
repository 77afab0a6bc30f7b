From Coq Require Import Reals Lra List ZArith Lia Arith Bool.
From Verif Require Import Traj Nd NdSpec NdProofs FftAxis FftAxisSpec.
Import ListNotations.
Local Open Scope list_scope.
Local Notation length := List.length.

Lemma replace_app {B} (x y : B) l1 l2 : replace (length l1) x (l1 ++ y :: l2) = l1 ++ x :: l2.
Proof. induction l1 as [|a l1 IH]; cbn; [reflexivity|now rewrite IH]. Qed.
(** the index for a line *)
Lemma fill t (start pre post : nat) : forall (l1 : list item) l2, length l1 = start ->
  fold_left (fun sl ia => replace (snd ia) (IInt (Z.of_nat (fst ia))) sl) (combine t (seq start (length t))) (l1 ++ repeat full (length t) ++ l2) = l1 ++ map (fun x => IInt (Z.of_nat x)) t ++ l2.
Proof.
  revert start. induction t as [|a t IH]; intros start l1 l2 L; [reflexivity|]. cbn [length seq combine fold_left fst snd repeat map app]. subst start. rewrite replace_app.
  specialize (IH (S (length l1)) (l1 ++ [IInt (Z.of_nat a)]) l2). rewrite <- !app_assoc in IH. cbn in IH. apply IH. rewrite app_length. cbn. lia.
Qed.
Lemma combine_app {B D} (a b : list B) (c d : list D) : length a = length c -> combine (a ++ b) (c ++ d) = combine a c ++ combine b d.
Proof. revert c. induction a as [|x a IH]; intros [|y c] L; try discriminate L; [reflexivity|]. cbn in *. now rewrite IH by lia. Qed.
Lemma axes_split k n : (k < n)%nat -> filter (fun ax => negb (Z.of_nat ax =? Z.of_nat k)%Z) (seq 0 n) = seq 0 k ++ seq (S k) (n - S k).
Proof.
  intros L. replace n with (k + S (n - S k))%nat at 1 by lia. rewrite seq_app, filter_app. cbn [Nat.add seq filter]. rewrite Z.eqb_refl. cbn [negb].
  assert (F : forall l, (forall x, In x l -> x <> k) -> filter (fun ax => negb (Z.of_nat ax =? Z.of_nat k)%Z) l = l).
  { induction l as [|x l IH]; intros H; [reflexivity|]. cbn. assert (x <> k) by (apply H; now left). destruct (Z.eqb_spec (Z.of_nat x) (Z.of_nat k)); [lia|]. cbn. f_equal. apply IH. intros; apply H; now right. }
  rewrite !F; [reflexivity|..]; intros x I; apply in_seq in I; lia.
Qed.
Lemma index_line t1 t2 : index_for (length t1 + S (length t2)) (seq 0 (length t1) ++ seq (S (length t1)) (length t2)) (t1 ++ t2) = map (fun x => IInt (Z.of_nat x)) t1 ++ full :: map (fun x => IInt (Z.of_nat x)) t2.
Proof.
  unfold index_for. rewrite combine_app by now rewrite seq_length. rewrite fold_left_app. rewrite repeat_app. cbn [repeat].
  assert (E := fill t1 0 0 0 [] (full :: repeat full (length t2)) eq_refl). cbn [app] in E. rewrite E.
  assert (E2 := fill t2 (S (length t1)) 0 0 (map (fun x => IInt (Z.of_nat x)) t1 ++ [full]) []). rewrite <- !app_assoc in E2. cbn [app] in E2. rewrite !app_nil_r in E2. apply E2. rewrite app_length, map_length. cbn. lia.
Qed.
Lemma view_ints t s : Forall2 lt t s -> exists f, view (map (fun x => IInt (Z.of_nat x)) t) s = Some ([], f) /\ f [] = t.
Proof.
  induction 1 as [|x n t s L F IH]; [eexists; split; reflexivity|]. destruct IH as (f & V & E). cbn [map view].
  assert (((- Z.of_nat n <=? Z.of_nat x) && (Z.of_nat x <? Z.of_nat n))%Z = true) as -> by (apply andb_true_iff; split; [apply Z.leb_le|apply Z.ltb_lt]; lia).
  rewrite V. eexists. split; [reflexivity|]. cbn. rewrite E. f_equal. destruct (Z.ltb_spec (Z.of_nat x) 0); lia.
Qed.
Lemma view_line t1 t2 s1 n s2 : Forall2 lt t1 s1 -> Forall2 lt t2 s2 -> exists f, view (map (fun x => IInt (Z.of_nat x)) t1 ++ full :: map (fun x => IInt (Z.of_nat x)) t2) (s1 ++ n :: s2) = Some ([n], f) /\ forall j, (j < n)%nat -> f [j] = t1 ++ j :: t2.
Proof.
  intros F1 F2. induction F1 as [|x m t1 s1 L F1 IH].
  - cbn [map app view]. destruct (view_ints t2 s2 F2) as (f & V & E). unfold full. change (slice_indices (Slice None None None) (Z.of_nat n)) with (Some (0, Z.of_nat n, 1)%Z). cbv iota. rewrite V.
    assert (RL : range_len 0 (Z.of_nat n) 1 = n) by (unfold range_len; cbn [Z.ltb Z.compare]; destruct (Z.ltb_spec 0 (Z.of_nat n)); rewrite ?Z.div_1_r; lia).
    rewrite RL. eexists. split; [reflexivity|]. intros j J. cbn [hd tl]. rewrite E. f_equal. lia.
  - destruct IH as (f & V & E). cbn [map app view]. assert (((- Z.of_nat m <=? Z.of_nat x) && (Z.of_nat x <? Z.of_nat m))%Z = true) as -> by (apply andb_true_iff; split; [apply Z.leb_le|apply Z.ltb_lt]; lia).
    rewrite V. eexists. split; [reflexivity|]. intros j J. cbn beta. rewrite E by exact J. cbn [app]. f_equal. destruct (Z.ltb_spec (Z.of_nat x) 0); lia.
Qed.
Lemma f2_split {B D} (P : B -> D -> Prop) l s1 n s2 : Forall2 P l (s1 ++ n :: s2) -> exists t1 x t2, l = t1 ++ x :: t2 /\ Forall2 P t1 s1 /\ P x n /\ Forall2 P t2 s2.
Proof. intros F. apply Forall2_app_inv_r in F as (t1 & r & F1 & F2 & ->). inversion F2; subst. now exists t1, x, l. Qed.
Lemma f2_lengths {B D} (P : B -> D -> Prop) l s : Forall2 P l s -> length l = length s.
Proof. induction 1; cbn; congruence. Qed.
Lemma split_at {B} (t1 : list B) x t2 : firstn (length t1) (t1 ++ x :: t2) = t1 /\ skipn (S (length t1)) (t1 ++ x :: t2) = t2 /\ forall d, nth (length t1) (t1 ++ x :: t2) d = x.
Proof. split; [|split]; induction t1 as [|a t1 IH]; cbn; try reflexivity; try (now rewrite IH); try exact IH. Qed.
Lemma app_same {B} (a c b d : list B) : length a = length c -> a ++ b = c ++ d -> a = c /\ b = d.
Proof. revert c. induction a as [|x a IH]; intros [|y c] L E; try discriminate L; [now split|]. cbn in *. injection E as -> E. destruct (IH c ltac:(lia) E). now subst. Qed.
Lemma one_index p n : index_of [n] p -> exists y, p = [y] /\ (y < n)%nat.
Proof. intros F. inversion F as [|y ? l' ? L Q]. subst. inversion Q. subst. now exists y. Qed.
Section PROOF.
Context {A : Type}.
Variables (fft1 : list A -> option (list A)) (g : list A -> list A) (dflt : A) (a : arr A) (s1 s2 : list nat) (n : nat).
Hypothesis G : forall l, l <> [] -> fft1 l = Some (g l) /\ length (g l) = length l.
Hypothesis SH : shape a = s1 ++ n :: s2.
Hypothesis N : (0 < n)%nat.
Let k := length s1.
Let val (i : list nat) : A := nth (nth k i 0%nat) (g (on_line a k i)) dflt.
Lemma line_ok out t1 t2 : shape out = shape a -> Forall2 lt t1 s1 -> Forall2 lt t2 s2 ->
  exists out', line fft1 dflt a out (map (fun x => IInt (Z.of_nat x)) t1 ++ full :: map (fun x => IInt (Z.of_nat x)) t2) = Some out' /\ shape out' = shape a /\
    forall i, Forall2 lt i (shape a) -> (firstn k i ++ skipn (S k) i = t1 ++ t2 -> at_ out' i = val i) /\ (at_ out i = val i -> at_ out' i = val i).
Proof.
  intros SO F1 F2. unfold line, getitem, setitem. rewrite SO, SH. destruct (view_line t1 t2 s1 n s2 F1 F2) as (f & V & E). rewrite V. cbn [shape at_].
  assert (ME : map (fun j => at_ a (f [j])) (seq 0 n) = map (fun j => at_ a (t1 ++ j :: t2)) (seq 0 n)) by (apply map_ext_in; intros j J; apply in_seq in J; now rewrite E by lia).
  rewrite ME. set (l := map (fun j => at_ a (t1 ++ j :: t2)) (seq 0 n)). assert (LL : length l = n) by (unfold l; now rewrite map_length, seq_length).
  assert (NE : l <> []) by (intros Q; rewrite Q in LL; cbn in LL; lia). destruct (G l NE) as (E1 & E2). rewrite E1. rewrite E2, LL, Nat.eqb_refl.
  eexists. split; [reflexivity|]. destruct (put_loop f (fun p => nth (hd 0%nat p) (g l) dflt) (indices [n]) out) as (S1 & O & P). split; [now rewrite S1, SO, SH|].
  assert (L1 := f2_lengths _ _ _ F1).
  assert (W : forall i, Forall2 lt i (s1 ++ n :: s2) -> firstn k i ++ skipn (S k) i = t1 ++ t2 -> exists x, i = t1 ++ x :: t2 /\ (x < n)%nat).
  { intros i FI R. apply f2_split in FI as (u1 & x & u2 & -> & FU1 & LX & FU2). assert (LU := f2_lengths _ _ _ FU1). destruct (split_at u1 x u2) as (X1 & X2 & _). unfold k in R. rewrite <- LU in R. rewrite X1, X2 in R. apply app_same in R as (-> & ->); [|congruence]. now exists x. }
  assert (VAL : forall x, (x < n)%nat -> val (t1 ++ x :: t2) = nth x (g l) dflt).
  { intros x LX. unfold val, on_line. unfold k. rewrite <- L1. destruct (split_at t1 x t2) as (X1 & X2 & X3). rewrite X1, X2, X3. rewrite SH, L1. destruct (split_at s1 n s2) as (_ & _ & X4). rewrite X4. reflexivity. }
  assert (HIT : forall x, (x < n)%nat -> at_ (fold_left (fun a0 p => Array (shape a0) (fun i => if idx_eqb (f p) i then nth (hd 0%nat p) (g l) dflt else at_ a0 i)) (indices [n]) out) (t1 ++ x :: t2) = val (t1 ++ x :: t2)).
  { intros x LX. rewrite VAL by exact LX. rewrite <- (E x LX). rewrite P; [reflexivity|apply indices_in; repeat constructor; exact LX|].
    intros q Q EQ. apply indices_in in Q. destruct (one_index _ _ Q) as (y & -> & LY). rewrite !E in EQ by assumption. apply app_inv_head in EQ. now injection EQ as ->. }
  intros i FI. split.
  - intros R. destruct (W i FI R) as (x & -> & LX). now apply HIT.
  - intros OI. destruct (list_eq_dec Nat.eq_dec (firstn k i ++ skipn (S k) i) (t1 ++ t2)) as [R|R]; [destruct (W i FI R) as (x & -> & LX); now apply HIT|].
    rewrite O; [exact OI|]. intros p IP EQ. apply indices_in in IP. destruct (one_index _ _ IP) as (y & -> & LY). apply R. rewrite <- EQ. rewrite E by assumption. unfold k. rewrite <- L1. destruct (split_at t1 y t2) as (-> & -> & _). reflexivity.
Qed.
Lemma lines_ok tups : forall out, shape out = shape a -> (forall t, In t tups -> exists t1 t2, t = t1 ++ t2 /\ Forall2 lt t1 s1 /\ Forall2 lt t2 s2) ->
  exists out', lines fft1 dflt a out (length s1 + S (length s2)) (seq 0 (length s1) ++ seq (S (length s1)) (length s2)) tups = Some out' /\ shape out' = shape a /\
    forall i, Forall2 lt i (shape a) -> (In (firstn k i ++ skipn (S k) i) tups -> at_ out' i = val i) /\ (at_ out i = val i -> at_ out' i = val i).
Proof.
  induction tups as [|t tups IH]; intros out SO H.
  - exists out. split; [reflexivity|]. split; [exact SO|]. intros i FI. split; [intros []|auto].
  - destruct (H t ltac:(now left)) as (t1 & t2 & -> & F1 & F2). cbn [lines]. assert (L1 := f2_lengths _ _ _ F1). assert (L2 := f2_lengths _ _ _ F2). rewrite <- L1, <- L2, index_line. destruct (line_ok out t1 t2 SO F1 F2) as (o1 & E1 & S1 & V1). rewrite E1. rewrite L1, L2.
    destruct (IH o1 S1) as (o2 & E2 & S2 & V2); [intros; apply H; now right|]. exists o2. split; [exact E2|]. split; [exact S2|]. intros i FI. destruct (V1 i FI) as (A1 & B1), (V2 i FI) as (A2 & B2). split.
    + intros [R|R]; [|now apply A2]. apply B2, A1. now symmetry.
    + intros R. apply B2, B1, R.
Qed.
End PROOF.
Lemma dims_of (s1 s2 : list nat) n : map (fun ax => nth ax (s1 ++ n :: s2) 0%nat) (seq 0 (length s1) ++ seq (S (length s1)) (length s2)) = s1 ++ s2.
Proof.
  rewrite map_app. f_equal.
  - apply nth_ext with (d := 0%nat) (d' := 0%nat); [now rewrite map_length, seq_length|]. intros i I. rewrite map_length, seq_length in I. rewrite (nth_indep _ 0%nat (nth 0%nat (s1 ++ n :: s2) 0%nat)) by now rewrite map_length, seq_length. rewrite (map_nth (fun ax => nth ax (s1 ++ n :: s2) 0%nat)), seq_nth by exact I. cbn. now rewrite app_nth1.
  - apply nth_ext with (d := 0%nat) (d' := 0%nat); [now rewrite map_length, seq_length|]. intros i I. rewrite map_length, seq_length in I. rewrite (nth_indep _ 0%nat (nth 0%nat (s1 ++ n :: s2) 0%nat)) by now rewrite map_length, seq_length. rewrite (map_nth (fun ax => nth ax (s1 ++ n :: s2) 0%nat)), seq_nth by exact I. rewrite app_nth2 by lia. replace (S (length s1) + i - length s1)%nat with (S i) by lia. reflexivity.
Qed.
Lemma loop_ok {A} (fft1 : list A -> option (list A)) g dflt junk (a : arr A) k : (forall l, l <> [] -> fft1 l = Some (g l) /\ length (g l) = length l) ->
  (k < length (shape a))%nat -> (0 < nth k (shape a) 0)%nat -> exists r, fft_1d_loop fft1 dflt junk a (Z.of_nat k) = Some r /\ along dflt g k a r.
Proof.
  intros G K N. destruct (nth_split (shape a) 0%nat K) as (s1 & s2 & SH & LK). set (n := nth k (shape a) 0%nat) in *. clearbody n. unfold fft_1d_loop. destruct (Z.ltb_spec (Z.of_nat k) 0) as [C|_]; [lia|].
  rewrite axes_split by exact K. subst k. assert (LS : length (shape a) = (length s1 + S (length s2))%nat) by (rewrite SH, app_length; reflexivity). rewrite LS. replace (length s1 + S (length s2) - S (length s1))%nat with (length s2) by lia. assert (DM : map (fun ax => nth ax (shape a) 0%nat) (seq 0 (length s1) ++ seq (S (length s1)) (length s2)) = s1 ++ s2) by (rewrite SH; apply dims_of). rewrite DM.
  destruct (lines_ok fft1 g dflt a s1 s2 n G SH N (indices (s1 ++ s2)) (Array (shape a) junk) eq_refl) as (r & E & S & V).
  { intros t I. apply indices_in in I. apply Forall2_app_inv_r in I as (t1 & t2 & F1 & F2 & ->). now exists t1, t2. }
  exists r. split; [exact E|]. split; [exact S|]. intros i FI. apply (proj1 (V i FI)). apply indices_in. rewrite SH in FI. apply f2_split in FI as (t1 & x & t2 & -> & F1 & _ & F2). assert (L := f2_lengths _ _ _ F1). rewrite <- L. destruct (split_at t1 x t2) as (-> & -> & _). now apply Forall2_app.
Qed.
(** an axis too large: every element is a number *)
Lemma fill_all t : index_for (length t) (seq 0 (length t)) t = map (fun x => IInt (Z.of_nat x)) t.
Proof. unfold index_for. assert (E := fill t 0 0 0 [] [] eq_refl). cbn [app] in E. now rewrite !app_nil_r in E. Qed.
Lemma loop_bad {A} (fft1 : list A -> option (list A)) dflt junk (a : arr A) z : (Z.of_nat (length (shape a)) <= z)%Z -> Forall (fun n => 0 < n)%nat (shape a) -> fft_1d_loop fft1 dflt junk a z = None.
Proof.
  intros L P. unfold fft_1d_loop. destruct (Z.ltb_spec z 0); [lia|].
  assert (F : filter (fun ax => negb (Z.of_nat ax =? z)%Z) (seq 0 (length (shape a))) = seq 0 (length (shape a))).
  { assert (H1 : forall l, (forall x, In x l -> (x < length (shape a))%nat) -> filter (fun ax => negb (Z.of_nat ax =? z)%Z) l = l).
    { induction l as [|x l IH]; intros HH; [reflexivity|]. cbn. assert (x < length (shape a))%nat by (apply HH; now left). destruct (Z.eqb_spec (Z.of_nat x) z); [lia|]. cbn. f_equal. apply IH. intros; apply HH; now right. }
    apply H1. intros x I. apply in_seq in I. lia. }
  rewrite F. assert (D : map (fun ax => nth ax (shape a) 0%nat) (seq 0 (length (shape a))) = shape a).
  { apply nth_ext with (d := 0%nat) (d' := 0%nat); [now rewrite map_length, seq_length|]. intros i I. rewrite map_length, seq_length in I. rewrite (nth_indep _ 0%nat (nth 0%nat (shape a) 0%nat)) by now rewrite map_length, seq_length. rewrite (map_nth (fun ax => nth ax (shape a) 0%nat)), seq_nth by exact I. reflexivity. }
  rewrite D. assert (NE : In (repeat 0%nat (length (shape a))) (indices (shape a))). { apply indices_in. unfold index_of. clear -P. induction P; cbn; constructor; assumption. }
  destruct (indices (shape a)) as [|t l] eqn:E; [destruct NE|]. assert (IT : In t (indices (shape a))) by (rewrite E; now left). apply indices_in in IT. cbn [lines]. assert (LT := f2_lengths _ _ _ IT). rewrite <- LT, fill_all. unfold line, getitem. destruct (view_ints t (shape a) IT) as (f & V & _). rewrite V. reflexivity.
Qed.
