From Coq Require Import List ZArith Bool Arith String Lia.
From Verif Require Import Traj Nd NdSpec NdProofs Pad PadSpec.
Import ListNotations.
Local Open Scope Z_scope.

Lemma powers_nth : forall e p, nth_error two_powers e = Some p <-> (e < 30)%nat /\ p = 2 ^ Z.of_nat e.
Proof.
  intros e p. destruct (Nat.lt_ge_cases e 30) as [L|L].
  - unfold two_powers. rewrite (map_nth_error (fun e => 2 ^ Z.of_nat e) e (seq 0 30) (d := e)).
    + split; [intros E; injection E as <-; auto|intros [_ ->]; reflexivity].
    + rewrite seq_nth_error. destruct (Nat.ltb_spec e 30); [reflexivity|lia].
  - split; [|lia]. intros E. exfalso. assert (nth_error two_powers e <> None) by (rewrite E; discriminate).
    apply nth_error_Some in H. change (List.length two_powers) with 30%nat in H. lia.
Qed.

(** In an ascending list, exactly the elements before the insertion point are smaller. *)
Lemma searchsorted_spec : forall l x, (forall i j a b, (i < j)%nat -> nth_error l i = Some a -> nth_error l j = Some b -> a < b) ->
  forall i a, nth_error l i = Some a -> (a < x <-> (i < searchsorted l x)%nat).
Proof.
  induction l as [|y l IH]; intros x S i a E; [destruct i; discriminate|].
  assert (S' : forall i j a b, (i < j)%nat -> nth_error l i = Some a -> nth_error l j = Some b -> a < b)
    by (intros i' j' a' b' L A B; apply (S (1 + i')%nat (1 + j')%nat); [lia|assumption|assumption]).
  unfold searchsorted. cbn [List.filter]. destruct (Z.ltb_spec y x) as [L|L].
  - cbn [List.length]. destruct i as [|i]; cbn in E; [injection E as <-; split; [intros; apply Nat.lt_0_succ|intros; assumption]|].
    specialize (IH x S' i a E). unfold searchsorted in IH. rewrite IH. lia.
  - assert (F : List.filter (fun y => y <? x) l = []).
    { destruct (List.filter (fun y => y <? x) l) as [|z f] eqn:Ef; [reflexivity|]. exfalso.
      assert (I : In z (List.filter (fun y => y <? x) l)) by (rewrite Ef; left; reflexivity).
      apply filter_In in I. destruct I as [I1 I2]. apply Z.ltb_lt in I2. apply In_nth_error in I1. destruct I1 as [m Hm].
      pose proof (S 0%nat (1 + m)%nat y z ltac:(lia) eq_refl Hm). lia. }
    rewrite F. cbn [List.length]. split; [|lia]. intros La. destruct i as [|i]; cbn in E; [injection E as <-; lia|].
    pose proof (S 0%nat (1 + i)%nat y a ltac:(lia) eq_refl E). lia.
Qed.
Lemma powers_ascending : forall i j a b, (i < j)%nat -> nth_error two_powers i = Some a -> nth_error two_powers j = Some b -> a < b.
Proof.
  intros i j a b L A B. apply powers_nth in A, B. destruct A as [_ ->]. destruct B as [_ ->]. apply Z.pow_lt_mono_r; lia.
Qed.

Lemma next_power_found : forall m, m <= 2 ^ 29 ->
  exists p, nth_error two_powers (searchsorted two_powers m) = Some p /\ next_power m p.
Proof.
  intros m Hm. set (e := searchsorted two_powers m).
  assert (E : (e < 30)%nat).
  { destruct (Nat.lt_ge_cases e 30); [assumption|]. exfalso.
    pose proof (searchsorted_spec two_powers m powers_ascending 29 (2 ^ 29)) as P. fold e in P.
    assert (2 ^ 29 < m); [apply P; [reflexivity|lia]|lia]. }
  exists (2 ^ Z.of_nat e). assert (N : nth_error two_powers e = Some (2 ^ Z.of_nat e)) by (apply powers_nth; auto).
  split; [assumption|]. split; [|split].
  - pose proof (searchsorted_spec two_powers m powers_ascending e _ N) as P. fold e in P. lia.
  - exists (Z.of_nat e). split; [lia|reflexivity].
  - intros e' He' L. destruct (Z.lt_ge_cases e' (Z.of_nat e)) as [K|K]; [|apply Z.pow_le_mono_r; lia]. exfalso.
    pose proof (searchsorted_spec two_powers m powers_ascending (Z.to_nat e') (2 ^ e')) as P. fold e in P.
    assert (2 ^ e' < m); [|lia]. apply P; [|lia]. apply powers_nth. split; [lia|]. f_equal. lia.
Qed.
Lemma next_power_unique : forall m p q, next_power m p -> next_power m q -> p = q.
Proof.
  intros m p q (A1 & (e & He & ->) & A2) (B1 & (f & Hf & ->) & B2). specialize (A2 f Hf B1). specialize (B2 e He A1). lia.
Qed.

Opaque two_powers searchsorted.
Section Pad.
Context {A : Type}.
Variable zero : A.
Implicit Types a r : arr A.

Lemma shape_at_axis : forall a z k, axis_is (List.length (shape a)) z k -> shape_at a z = Some (Z.of_nat (nth k (shape a) 0%nat)).
Proof. intros a z k H. unfold shape_at. rewrite (proj2 (norm_axis_some _ _ _) H). reflexivity. Qed.

Lemma count_request : forall a z k nadd upto tonext tm, axis_is (List.length (shape a)) z k ->
  let n := Z.of_nat (nth k (shape a) 0%nat) in
  (forall c, pad_count a z nadd upto tonext tm = Some c -> request n nadd upto tonext tm (n + c)) /\
  (forall n', request n nadd upto tonext tm n' -> pad_count a z nadd upto tonext tm = Some (n' - n)).
Proof.
  intros a z k nadd upto tonext tm Ax n. unfold pad_count. rewrite (shape_at_axis a z k Ax). fold n. split.
  - intros c E. destruct nadd as [x|]; destruct upto as [u|]; destruct tonext as [[|]|]; cbn [is_none Nat.b2n Nat.add Nat.eqb orb negb] in E; try discriminate.
    + injection E as <-. apply by_number. discriminate.
    + injection E as <-. apply by_number. discriminate.
    + injection E as <-. replace (n + (u - n)) with u by lia. apply by_length. discriminate.
    + injection E as <-. replace (n + (u - n)) with u by lia. apply by_length. discriminate.
    + replace (match tm with Some m => Some m | None => Some n end) with (Some (match tm with Some m => m | None => n end)) in E by (destruct tm; reflexivity).
      set (m := match tm with Some m => m | None => n end) in *.
      destruct (Z.leb_spec m (2 ^ 29)) as [L|L]; cbn [negb] in E.
      * destruct (next_power_found m L) as (p & Np & P). rewrite Np in E. injection E as <-. replace (n + (p - n)) with p by lia.
        apply by_power; assumption.
      * discriminate.
    + injection E as <-. replace (n + n) with (2 * n) by lia. apply twice. discriminate.
    + injection E as <-. replace (n + n) with (2 * n) by lia. apply twice. discriminate.
  - intros n' R. destruct R as [x tn tm T|u tn tm T|tm p L P|tn tm T].
    + destruct tn as [[|]|]; try congruence; cbn [is_none Nat.b2n Nat.add Nat.eqb orb negb]; f_equal; lia.
    + destruct tn as [[|]|]; try congruence; cbn [is_none Nat.b2n Nat.add Nat.eqb orb negb]; f_equal; lia.
    + cbn [is_none Nat.b2n Nat.add Nat.eqb orb negb].
      replace (match tm with Some m => Some m | None => Some n end) with (Some (match tm with Some m => m | None => n end)) by (destruct tm; reflexivity).
      set (m := match tm with Some m => m | None => n end) in *.
      destruct (Z.leb_spec m (2 ^ 29)) as [L'|L']; [|lia]. cbn [negb].
      destruct (next_power_found m L) as (q & Nq & Q). rewrite Nq. rewrite (next_power_unique m p q P Q). reflexivity.
    + destruct tn as [[|]|]; try congruence; cbn [is_none Nat.b2n Nat.add Nat.eqb orb negb]; f_equal; lia.
Qed.

Lemma replace_self {B} (d : B) : forall l k, (k < List.length l)%nat -> replace k (nth k l d) l = l.
Proof. induction l as [|x l IH]; intros [|k] H; cbn in *; try lia; [reflexivity|]. f_equal. apply IH. lia. Qed.
Lemma replace_replace {B} (x y : B) : forall l k, replace k x (replace k y l) = replace k x l.
Proof. induction l as [|z l IH]; intros [|k]; cbn; try reflexivity. f_equal. apply IH. Qed.
Lemma nth_replace {B} (x d : B) : forall l k, (k < List.length l)%nat -> nth k (replace k x l) d = x.
Proof. induction l as [|z l IH]; intros [|k] H; cbn in *; try lia; [reflexivity|]. apply IH. lia. Qed.
Lemma map_Z_nat : forall l, map Z.to_nat (map Z.of_nat l) = l.
Proof. intros l. rewrite map_map. rewrite (map_ext _ (fun x => x)) by (intros; apply Nat2Z.id). apply map_id. Qed.
Lemma all_nonneg : forall l k c, (k < List.length l)%nat -> forallb (fun n => 0 <=? n) (replace k c (map Z.of_nat l)) = (0 <=? c).
Proof.
  assert (G : forall l, forallb (fun n => 0 <=? n) (map Z.of_nat l) = true)
    by (induction l as [|x l IH]; [reflexivity|]; cbn [map forallb]; rewrite IH; destruct (Z.leb_spec 0 (Z.of_nat x)); [reflexivity|lia]).
  induction l as [|x l IH]; intros [|k] c H; cbn [map replace forallb List.length] in *; try lia.
  - rewrite G. apply andb_true_r.
  - rewrite IH by lia. destruct (Z.leb_spec 0 (Z.of_nat x)); [reflexivity|lia].
Qed.

(** What the second half of the function does with a number of zeros. *)
Lemma pad_by : forall a z k where_ c, axis_is (List.length (shape a)) z k -> c <> 0 ->
  let n := nth k (shape a) 0%nat in
  forall r : option (arr A), r = match set_item (map Z.of_nat (shape a)) z c with
    | None => None
    | Some add_shape =>
      if (where_ =? "end")%string then match zeros zero add_shape with Some o => concatenate a o z | None => None end
      else if (where_ =? "start")%string then match zeros zero add_shape with Some o => concatenate o a z | None => None end
      else None
    end ->
  (0 <= c -> where_ = "end"%string \/ where_ = "start"%string -> exists r', r = Some r' /\ padded zero where_ a k (n + Z.to_nat c) r') /\
  (c < 0 \/ (where_ <> "end"%string /\ where_ <> "start"%string) -> r = None).
Proof.
  intros a z k where_ c Ax NZ n r Er. pose proof (proj2 (norm_axis_some _ _ _) Ax) as Nk. pose proof (proj1 Ax) as Lk.
  unfold set_item in Er. rewrite map_length in Er. rewrite Nk in Er.
  assert (Z0 : zeros zero (replace k c (map Z.of_nat (shape a))) = if 0 <=? c then Some (Array (replace k (Z.to_nat c) (shape a)) (fun _ => zero)) else None).
  { unfold zeros. rewrite all_nonneg by assumption. destruct (0 <=? c); [|reflexivity]. rewrite map_replace, map_Z_nat. reflexivity. }
  rewrite Z0 in Er. split.
  - intros C W. destruct (Z.leb_spec 0 c); [|lia]. unfold concatenate in Er. cbn [shape at_] in Er. rewrite replace_length in Er. rewrite Nk in Er.
    rewrite !remove_replace in Er. destruct (list_eq_dec _ _ _) as [_|F] in Er; [|congruence].
    rewrite !nth_replace in Er by assumption. fold n in Er.
    destruct W as [-> | ->]; [change ("end" =? "end")%string with true in Er|change ("start" =? "end")%string with false in Er; change ("start" =? "start")%string with true in Er];
      cbv iota in Er; eexists; (split; [exact Er|]); split; cbn [shape at_].
    + reflexivity.
    + intros i Hi. split; [intros _|discriminate]. split; intros J; destruct (Nat.ltb_spec (nth k i 0%nat) n); try lia; reflexivity.
    + rewrite replace_replace. rewrite Nat.add_comm. reflexivity.
    + intros i Hi. split; [discriminate|intros _]. fold n. replace (n + Z.to_nat c - n)%nat with (Z.to_nat c) by lia.
      split; intros J; destruct (Nat.ltb_spec (nth k i 0%nat) (Z.to_nat c)); try lia; reflexivity.
  - intros [C|[W1 W2]]; subst r.
    + destruct (Z.leb_spec 0 c); [lia|]. destruct (where_ =? "end")%string; [reflexivity|]. destruct (where_ =? "start")%string; reflexivity.
    + destruct (String.eqb_spec where_ "end"); [contradiction|]. destruct (String.eqb_spec where_ "start"); [contradiction|]. reflexivity.
Qed.

Lemma padded_same : forall a where_ k, (k < List.length (shape a))%nat -> padded zero where_ a k (nth k (shape a) 0%nat) a.
Proof.
  intros a where_ k L. split; [rewrite replace_self by assumption; reflexivity|]. intros i Hi j. rewrite Nat.sub_diag.
  assert (J : (j < nth k (shape a) 0)%nat /\ (k < List.length i)%nat).
  { unfold j. unfold index_of in Hi. revert k L j. induction Hi as [|x n i sh Lx Hi IH]; intros k L j; cbn in L; [lia|]. destruct k as [|k]; cbn; [lia|].
    specialize (IH k ltac:(lia)). cbn in IH. lia. }
  repeat split; intros; try lia. rewrite Nat.sub_0_r. unfold j. rewrite replace_self by apply J. reflexivity.
Qed.

Theorem pad_spec : forall a z k where_ nadd upto tonext tm, axis_is (List.length (shape a)) z k ->
  let n := nth k (shape a) 0%nat in
  (forall r, pad_zeros zero a z where_ nadd upto tonext tm = Some r ->
     exists n', request (Z.of_nat n) nadd upto tonext tm (Z.of_nat n') /\ (n <= n')%nat /\ padded zero where_ a k n' r /\
       (where_ = "end" \/ where_ = "start" \/ n' = n)%string) /\
  (forall n', request (Z.of_nat n) nadd upto tonext tm n' -> Z.of_nat n <= n' ->
     (where_ = "end" \/ where_ = "start" \/ n' = Z.of_nat n)%string ->
     exists r, pad_zeros zero a z where_ nadd upto tonext tm = Some r).
Proof.
  intros a z k where_ nadd upto tonext tm Ax n. destruct (count_request a z k nadd upto tonext tm Ax) as [F B]. fold n in F, B.
  unfold pad_zeros. split.
  - intros r E. destruct (pad_count a z nadd upto tonext tm) as [c|] eqn:Ec; [|discriminate].
    specialize (F c eq_refl). destruct (Z.eqb_spec c 0) as [->|NZ].
    + injection E as <-. exists n. rewrite Z.add_0_r in F. split; [assumption|]. split; [lia|]. split; [apply padded_same; apply Ax|auto].
    + destruct (pad_by a z k where_ c Ax NZ (Some r) (eq_sym E)) as [P N].
      assert (0 <= c) as C0 by (destruct (Z.lt_ge_cases c 0); [exfalso; assert (Some r = None) by (apply N; auto); discriminate|lia]).
      assert (where_ = "end" \/ where_ = "start")%string as W.
      { destruct (String.eqb_spec where_ "end"); [auto|]. destruct (String.eqb_spec where_ "start"); [auto|].
        exfalso. assert (Some r = None) by (apply N; auto). discriminate. }
      destruct (P C0 W) as (r' & Er & Pr). injection Er as <-. exists (n + Z.to_nat c)%nat.
      replace (Z.of_nat (n + Z.to_nat c)) with (Z.of_nat n + c) by lia. split; [assumption|]. split; [lia|]. split; [exact Pr|tauto].
  - intros n' R L W. rewrite (B n' R). destruct (Z.eqb_spec (n' - Z.of_nat n) 0); [eauto|].
    destruct (pad_by a z k where_ (n' - Z.of_nat n) Ax n0 _ eq_refl) as [P _]. destruct P as (r & Er & _); [lia|intuition lia|]. exists r. exact Er.
Qed.

Theorem pad_bad_axis : forall a z where_ nadd upto tonext tm, bad_axis (List.length (shape a)) z -> nadd <> Some 0 ->
  pad_zeros zero a z where_ nadd upto tonext tm = None.
Proof.
  intros a z where_ nadd upto tonext tm Bad NZ. pose proof (proj2 (norm_axis_none _ _) Bad) as N. unfold pad_zeros, pad_count, shape_at, set_item.
  rewrite map_length, N. destruct (negb _); [reflexivity|]. destruct nadd as [c|].
  - destruct (Z.eqb_spec c 0) as [->|]; [congruence|reflexivity].
  - destruct upto as [u|]; [reflexivity|]. destruct tonext as [[|]|]; try reflexivity. destruct tm; [|reflexivity].
    destruct (negb _); [reflexivity|]. destruct (nth_error _ _); reflexivity.
Qed.
End Pad.
