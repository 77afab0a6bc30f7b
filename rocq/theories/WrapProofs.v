From Coq Require Import List Reals Lra Lia ZArith SpecFloat.
From Verif Require Import Vec3 Wrap WrapSpec.
Import ListNotations.
Open Scope R_scope.

Lemma int_between (k : Z) : -1 < IZR k < 1 -> k = 0%Z.
Proof. intros [H1 H2]. apply lt_IZR in H1. apply lt_IZR in H2. lia. Qed.
Lemma congruent_refl x : congruent x x.
Proof. exists 0%Z. lra. Qed.
Lemma congruent_trans x y z : congruent x y -> congruent y z -> congruent x z.
Proof. intros [k ->] [l ->]. exists (k + l)%Z. rewrite plus_IZR. lra. Qed.
Lemma congruent_sym x y : congruent x y -> congruent y x.
Proof. intros [k ->]. exists (- k)%Z. rewrite opp_IZR. lra. Qed.
Lemma unique_in a x y y' : congruent x y -> congruent x y' -> a <= y < a + 1 -> a <= y' < a + 1 -> y = y'.
Proof.
  intros [k ->] [l ->] H1 H2. assert (k - l = 0)%Z as E by (apply int_between; rewrite minus_IZR; lra).
  assert (k = l) by lia. subst. reflexivity.
Qed.
Lemma centred_unique x y y' : centred x y -> centred x y' -> y = y'.
Proof. intros [C1 R1] [C2 R2]. apply (unique_in (-(1/2)) x); auto; lra. Qed.
Lemma inside_unique x y y' : inside x y -> inside x y' -> y = y'.
Proof. intros [C1 R1] [C2 R2]. apply (unique_in 0 x); auto; lra. Qed.

Lemma geb_spec x y : geb x y = true <-> y <= x.
Proof. unfold geb. destruct (Rle_dec y x); split; auto; discriminate. Qed.
Lemma ltb_spec x y : ltb x y = true <-> x < y.
Proof. unfold ltb. destruct (Rlt_dec x y); split; auto; discriminate. Qed.
Lemma geb_false x y : geb x y = false <-> x < y.
Proof. unfold geb. destruct (Rle_dec y x); split; intros; try discriminate; try lra; auto. Qed.
Lemma ltb_false x y : ltb x y = false <-> y <= x.
Proof. unfold ltb. destruct (Rlt_dec x y); split; intros; try discriminate; try lra; auto. Qed.

(** ** The masked loops *)
Lemma masked_while_ge : forall n l fuel, Forall (fun x => x < 1/2 + INR n) l -> (n < fuel)%nat ->
  exists r, masked_while (fun x => geb x (1/2)) (-1) fuel l = Some r /\
    Forall2 (fun x y => congruent x y /\ y < 1/2 /\ (y = x \/ -(1/2) <= y)) l r.
Proof.
  induction n as [|n IH]; intros l fuel H Hf; (destruct fuel as [|fuel]; [lia|]); cbn [masked_while].
  - assert (E : existsb (fun x => geb x (1/2)) l = false).
    { apply Bool.not_true_is_false. intros E. apply existsb_exists in E as (x & Hx & G). apply geb_spec in G.
      rewrite Forall_forall in H. specialize (H x Hx). cbn in H. lra. }
    rewrite E. exists l. split; [reflexivity|]. clear E. induction H as [|x l Hx H IH]; constructor; [|exact IH].
    cbn in Hx. split; [apply congruent_refl|]. split; [lra|left; reflexivity].
  - destruct (existsb (fun x => geb x (1/2)) l) eqn:E.
    + destruct (IH (map (fun x => if geb x (1/2) then x + -1 else x) l) fuel) as (r & Er & Hr).
      * rewrite Forall_forall in *. intros y Hy. apply in_map_iff in Hy as (x & <- & Hx). specialize (H x Hx).
        rewrite S_INR in H. destruct (geb x (1/2)) eqn:G; [lra|]. apply geb_false in G. pose proof (pos_INR n). lra.
      * lia.
      * exists r. split; [exact Er|]. clear Er E IH Hf. revert r Hr. induction l as [|x l IHl]; intros r Hr; inversion Hr; subst; constructor.
        -- destruct H2 as (C & U & B). destruct (geb x (1/2)) eqn:G.
           ++ split; [|split; [exact U|]].
              ** apply congruent_trans with (x + -1); [exists (-1)%Z; reflexivity|exact C].
              ** apply geb_spec in G. right. destruct B as [->|B]; lra.
           ++ auto.
        -- apply IHl; [inversion H; auto|assumption].
    + exists l. split; [reflexivity|]. clear - E. induction l as [|x l IHl]; constructor.
      * cbn in E. apply Bool.orb_false_iff in E as [G _]. apply geb_false in G. split; [apply congruent_refl|auto].
      * apply IHl. cbn in E. apply Bool.orb_false_iff in E as [_ E]. exact E.
Qed.
Lemma masked_while_lt : forall n l fuel, Forall (fun x => -(1/2) - INR n <= x) l -> (n < fuel)%nat ->
  exists r, masked_while (fun x => ltb x (-(1/2))) 1 fuel l = Some r /\
    Forall2 (fun x y => congruent x y /\ -(1/2) <= y /\ (y = x \/ y < 1/2)) l r.
Proof.
  induction n as [|n IH]; intros l fuel H Hf; (destruct fuel as [|fuel]; [lia|]); cbn [masked_while].
  - assert (E : existsb (fun x => ltb x (-(1/2))) l = false).
    { apply Bool.not_true_is_false. intros E. apply existsb_exists in E as (x & Hx & G). apply ltb_spec in G.
      rewrite Forall_forall in H. specialize (H x Hx). cbn in H. lra. }
    rewrite E. exists l. split; [reflexivity|]. clear E. induction H as [|x l Hx H IH]; constructor; [|exact IH].
    cbn in Hx. split; [apply congruent_refl|]. split; [lra|left; reflexivity].
  - destruct (existsb (fun x => ltb x (-(1/2))) l) eqn:E.
    + destruct (IH (map (fun x => if ltb x (-(1/2)) then x + 1 else x) l) fuel) as (r & Er & Hr).
      * rewrite Forall_forall in *. intros y Hy. apply in_map_iff in Hy as (x & <- & Hx). specialize (H x Hx).
        rewrite S_INR in H. destruct (ltb x (-(1/2))) eqn:G; [lra|]. apply ltb_false in G. pose proof (pos_INR n). lra.
      * lia.
      * exists r. split; [exact Er|]. clear Er E IH Hf. revert r Hr. induction l as [|x l IHl]; intros r Hr; inversion Hr; subst; constructor.
        -- destruct H2 as (C & U & B). destruct (ltb x (-(1/2))) eqn:G.
           ++ split; [|split; [exact U|]].
              ** apply congruent_trans with (x + 1); [exists 1%Z; reflexivity|exact C].
              ** apply ltb_spec in G. right. destruct B as [->|B]; lra.
           ++ auto.
        -- apply IHl; [inversion H; auto|assumption].
    + exists l. split; [reflexivity|]. clear - E. induction l as [|x l IHl]; constructor.
      * cbn in E. apply Bool.orb_false_iff in E as [G _]. apply ltb_false in G. split; [apply congruent_refl|auto].
      * apply IHl. cbn in E. apply Bool.orb_false_iff in E as [_ E]. exact E.
Qed.
Lemma archimed_nat x : exists n, x < INR n.
Proof.
  exists (Z.to_nat (up x)). destruct (archimed x) as [H _]. destruct (Z.le_gt_cases 0 (up x)) as [P|N].
  - rewrite INR_IZR_INZ, Z2Nat.id by exact P. exact H.
  - assert (E : Z.to_nat (up x) = 0%nat) by lia. rewrite E. cbn. apply Rlt_trans with (IZR (up x)); [exact H|].
    apply IZR_lt. lia.
Qed.
Lemma bound_list l : exists n, Forall (fun x => x < 1/2 + INR n /\ -(1/2) - INR n <= x) l.
Proof.
  induction l as [|x l [n H]]; [exists 0%nat; constructor|].
  destruct (archimed_nat (Rabs x)) as [m Hm]. exists (Nat.max n m).
  pose proof (le_INR _ _ (Nat.le_max_l n m)). pose proof (le_INR _ _ (Nat.le_max_r n m)). constructor.
  - destruct (Rabs_def2 x (INR m) Hm). lra.
  - eapply Forall_impl; [|exact H]. cbn. intros y Hy. lra.
Qed.
Lemma min_image_spec l : exists n r, (forall fuel, (n < fuel)%nat -> min_image_convention fuel l = Some r) /\ Forall2 centred l r.
Proof.
  destruct (bound_list l) as [n H]. exists n.
  assert (H1 : Forall (fun x => x < 1/2 + INR n) l) by (eapply Forall_impl; [|exact H]; cbn; tauto).
  assert (H2 : Forall (fun x => -(1/2) - INR n <= x) l) by (eapply Forall_impl; [|exact H]; cbn; tauto).
  assert (ONE : forall fuel, (n < fuel)%nat -> exists r, min_image_convention fuel l = Some r /\ Forall2 centred l r).
  { intros fuel Hf. unfold min_image_convention. destruct (masked_while_ge n l fuel H1 Hf) as (r & -> & Hr).
    destruct (masked_while_lt n r fuel) as (q & Eq & Hq); [|exact Hf|].
    - clear - Hr H2. induction Hr as [|x y l r (C & U & B) Hr IH]; constructor.
      + inversion H2; subst. pose proof (pos_INR n). destruct B as [->|B]; lra.
      + apply IH. inversion H2; auto.
    - exists q. split; [exact Eq|]. clear - Hr Hq. revert q Hq. induction Hr as [|x y l r (C & U & B) Hr IH]; intros q Hq; inversion Hq; subst; constructor.
      + destruct H1 as (C' & B' & U'). split; [apply congruent_trans with y; assumption|].
        split; [exact B'|]. destruct U' as [->|U']; lra.
      + apply IH. assumption. }
  destruct (ONE (S n) (Nat.lt_succ_diag_r n)) as (r & Er & Hr). exists r. split; [|exact Hr].
  intros fuel Hf. destruct (ONE fuel Hf) as (r' & Er' & Hr'). rewrite Er'. f_equal.
  clear - Hr Hr'. revert r' Hr'. induction Hr as [|x y l r C Hr IH]; intros r' Hr'; inversion Hr'; subst; [reflexivity|].
  f_equal; [apply (centred_unique x); assumption|]. apply IH. assumption.
Qed.

(** ** The scalar loops are the masked ones on one element *)
Lemma do_while_masked cond d fuel x : masked_while cond d fuel [x] = option_map (fun y => [y]) (do_while cond d fuel x).
Proof.
  revert x. induction fuel as [|fuel IH]; intros x; [reflexivity|]. cbn [masked_while do_while existsb map].
  rewrite Bool.orb_false_r. destruct (cond x); [apply IH|reflexivity].
Qed.
Lemma wrap1_spec x : exists n y, (forall fuel, (n < fuel)%nat -> wrap1 fuel x = Some y) /\ centred x y.
Proof.
  destruct (min_image_spec [x]) as (n & r & H & F). inversion F as [|? y ? ? C F' ]; subst. inversion F'; subst.
  exists n, y. split; [|exact C]. intros fuel Hf. specialize (H fuel Hf). unfold min_image_convention in H. unfold wrap1.
  rewrite do_while_masked in H. destruct (do_while (fun x => geb x (1/2)) (-1) fuel x) as [z|]; [|discriminate].
  cbn [option_map] in H. rewrite do_while_masked in H. destruct (do_while _ 1 fuel z); [|discriminate].
  cbn in H. injection H as ->. reflexivity.
Qed.
Lemma wrap3_spec v : exists n w, (forall fuel, (n < fuel)%nat -> wrap3 fuel v = Some w) /\ centred3 v w.
Proof.
  destruct (wrap1_spec (vx v)) as (n1 & x & H1 & C1), (wrap1_spec (vy v)) as (n2 & y & H2 & C2), (wrap1_spec (vz v)) as (n3 & z & H3 & C3).
  exists (Nat.max n1 (Nat.max n2 n3)), (Vec x y z). split; [|repeat split; apply C1 || apply C2 || apply C3].
  intros fuel Hf. unfold wrap3. rewrite H1, H2, H3 by lia. reflexivity.
Qed.

(** ** Shortest distances in orthogonal cells *)
Lemma vecmat_orthogonal v c : orthogonal c ->
  length_sq (vecmat v c) = vx v * vx v * dot (ra c) (ra c) + vy v * vy v * dot (rb c) (rb c) + vz v * vz v * dot (rc c) (rc c).
Proof.
  intros (H1 & H2 & H3).
  assert (E : length_sq (vecmat v c) = vx v * vx v * dot (ra c) (ra c) + vy v * vy v * dot (rb c) (rb c) + vz v * vz v * dot (rc c) (rc c)
    + 2 * (vx v * vy v) * dot (ra c) (rb c) + 2 * (vx v * vz v) * dot (ra c) (rc c) + 2 * (vy v * vz v) * dot (rb c) (rc c)).
  { unfold length_sq, dot, vecmat, vadd, scale. cbn. ring. }
  rewrite E, H1, H2, H3. ring.
Qed.
Lemma dot_pos u : 0 <= dot u u.
Proof. unfold dot. nra. Qed.
Lemma centred_smallest x y z : centred x y -> congruent x z -> y * y <= z * z.
Proof.
  intros [C R] C'. assert (D : congruent y z) by (apply congruent_trans with x; [apply congruent_sym|]; assumption).
  destruct D as [k ->]. destruct (Z.eq_dec k 0) as [->|N]; [nra|].
  assert (K : IZR k <= -1 \/ 1 <= IZR k).
  { destruct (Z.lt_ge_cases k 0); [left; apply IZR_le; lia | right; apply IZR_le; lia]. }
  assert (P : 0 <= IZR k * (2 * y + IZR k)) by (destruct K; nra).
  replace ((y + IZR k) * (y + IZR k)) with (y * y + IZR k * (2 * y + IZR k)) by ring. lra.
Qed.
Lemma orthogonal_shortest c s s' w : orthogonal c -> centred3 s w -> congruent3 s s' ->
  length_sq (vecmat w c) <= length_sq (vecmat s' c).
Proof.
  intros O (C1 & C2 & C3) (D1 & D2 & D3). rewrite !vecmat_orthogonal by exact O.
  pose proof (centred_smallest _ _ _ C1 D1). pose proof (centred_smallest _ _ _ C2 D2). pose proof (centred_smallest _ _ _ C3 D3).
  pose proof (dot_pos (ra c)). pose proof (dot_pos (rb c)). pose proof (dot_pos (rc c)).
  apply Rplus_le_compat; [apply Rplus_le_compat|]; apply Rmult_le_compat_r; assumption.
Qed.

(** ** remainder *)
Lemma remainder1_spec x : inside x (remainder1 x).
Proof.
  unfold remainder1. destruct (base_Int_part x) as [H1 H2]. split; [|lra]. exists (- Int_part x)%Z. rewrite opp_IZR. lra.
Qed.
Lemma remainder1_idem x : remainder1 (remainder1 x) = remainder1 x.
Proof.
  apply (inside_unique (remainder1 x)); [apply remainder1_spec|]. destruct (remainder1_spec x) as [_ R]. split; [apply congruent_refl|exact R].
Qed.
Lemma inside_remainder x y : inside x y -> y = remainder1 x.
Proof. intros H. apply (inside_unique x); [exact H|apply remainder1_spec]. Qed.

(** ** distsq_frac *)
Lemma centred_opp x y y' : centred x y -> centred (- x) y' -> ~ half_integer x -> y' = - y.
Proof.
  intros [C R] [C' R'] H. apply (unique_in (-(1/2)) (-x)); [exact C'| | lra |].
  - destruct C as [k ->]. exists (- k)%Z. rewrite opp_IZR. lra.
  - assert (N : y <> -(1/2)).
    { intros E. apply H. apply congruent_trans with y; [exact C|]. exists 1%Z. rewrite E. lra. }
    lra.
Qed.
Lemma half_integer_opp x y y' : centred x y -> centred (- x) y' -> half_integer x -> y = -(1/2) /\ y' = -(1/2).
Proof.
  intros C C' H. split.
  - apply (centred_unique x); [exact C|]. split; [|lra]. apply congruent_trans with (1/2); [exact H|]. exists (-1)%Z. lra.
  - apply (centred_unique (-x)); [exact C'|]. split; [|lra]. destruct H as [k E]. exists (- k)%Z. rewrite opp_IZR. lra.
Qed.
Lemma centred_opp_sq x y y' : centred x y -> centred (- x) y' -> y' * y' = y * y.
Proof.
  intros C C'. pose proof (centred_smallest x y (- y')) as H1. pose proof (centred_smallest (-x) y' (- y)) as H2.
  assert (congruent x (- y')).
  { destruct C' as [[k E] _]. exists (- k)%Z. rewrite opp_IZR. lra. }
  assert (congruent (- x) (- y)).
  { destruct C as [[k E] _]. exists (- k)%Z. rewrite opp_IZR. lra. }
  specialize (H1 C H). specialize (H2 C' H0). nra.
Qed.
Lemma vsub_opp u v : vsub v u = Vec (- vx (vsub u v)) (- vy (vsub u v)) (- vz (vsub u v)).
Proof. unfold vsub. cbn. f_equal; ring. Qed.
Definition entry_of (cs : list vec) (cell : mat) (i j : nat) (r : R * vec * vec) : Prop :=
  exists n, forall fuel, (n < fuel)%nat -> distsq_entry fuel cs cell true i j = Some r.
Lemma entry_spec cs cell i j u v : nth_error cs i = Some u -> nth_error cs j = Some v ->
  exists w, entry_of cs cell i j (length_sq (vecmat w cell), vecmat w cell, w) /\ centred3 (vsub u v) w.
Proof.
  intros Eu Ev. destruct (wrap3_spec (vsub u v)) as (n & w & H & C). exists w. split; [|exact C].
  exists n. intros fuel Hf. unfold distsq_entry. rewrite Eu, Ev, (H fuel Hf). reflexivity.
Qed.
Lemma entry_unique cs cell i j r r' : entry_of cs cell i j r -> entry_of cs cell i j r' -> r = r'.
Proof.
  intros [n H] [m H']. specialize (H (S (Nat.max n m)) ltac:(lia)). specialize (H' (S (Nat.max n m)) ltac:(lia)). congruence.
Qed.
Lemma entry_inv cs cell i j u v d c w : nth_error cs i = Some u -> nth_error cs j = Some v ->
  entry_of cs cell i j (d, c, w) -> centred3 (vsub u v) w /\ c = vecmat w cell /\ d = length_sq c.
Proof.
  intros Eu Ev H. destruct (entry_spec cs cell i j u v Eu Ev) as (w' & H' & C). pose proof (entry_unique _ _ _ _ _ _ H H') as E.
  injection E as -> -> ->. auto.
Qed.
Lemma symmetric_generic cs cell i j u v d c w d' c' w' : nth_error cs i = Some u -> nth_error cs j = Some v ->
  entry_of cs cell i j (d, c, w) -> entry_of cs cell j i (d', c', w') ->
  ~ half_integer (vx u - vx v) -> ~ half_integer (vy u - vy v) -> ~ half_integer (vz u - vz v) ->
  d' = d /\ w' = Vec (- vx w) (- vy w) (- vz w).
Proof.
  intros Eu Ev H H' N1 N2 N3. destruct (entry_inv _ _ _ _ _ _ _ _ _ Eu Ev H) as ((C1 & C2 & C3) & -> & ->).
  destruct (entry_inv _ _ _ _ _ _ _ _ _ Ev Eu H') as (D & -> & ->). rewrite (vsub_opp u v) in D. destruct D as (D1 & D2 & D3). cbn in D1, D2, D3.
  assert (E : w' = Vec (- vx w) (- vy w) (- vz w)).
  { destruct w' as [x' y' z']. cbn in *. rewrite (centred_opp _ _ _ C1 D1 N1), (centred_opp _ _ _ C2 D2 N2), (centred_opp _ _ _ C3 D3 N3). reflexivity. }
  split; [|exact E]. rewrite E. unfold length_sq, vecmat, dot, vadd, scale. cbn. ring.
Qed.
Lemma symmetric_orthogonal cs cell i j u v d c w d' c' w' : nth_error cs i = Some u -> nth_error cs j = Some v ->
  orthogonal cell -> entry_of cs cell i j (d, c, w) -> entry_of cs cell j i (d', c', w') -> d' = d.
Proof.
  intros Eu Ev O H H'. destruct (entry_inv _ _ _ _ _ _ _ _ _ Eu Ev H) as ((C1 & C2 & C3) & -> & ->).
  destruct (entry_inv _ _ _ _ _ _ _ _ _ Ev Eu H') as (D & -> & ->). rewrite (vsub_opp u v) in D. destruct D as (D1 & D2 & D3). cbn in D1, D2, D3.
  rewrite !vecmat_orthogonal by exact O.
  rewrite (centred_opp_sq _ _ _ C1 D1), (centred_opp_sq _ _ _ C2 D2), (centred_opp_sq _ _ _ C3 D3). reflexivity.
Qed.
Lemma diagonal cs cell i u d c w : nth_error cs i = Some u -> entry_of cs cell i i (d, c, w) -> d = 0 /\ w = Vec 0 0 0.
Proof.
  intros Eu H. destruct (entry_inv _ _ _ _ _ _ _ _ _ Eu Eu H) as ((C1 & C2 & C3) & -> & ->).
  assert (Z0 : forall x y, centred (x - x) y -> y = 0).
  { intros x y Hy. apply (centred_unique (x - x)); [exact Hy|]. split; [exists 0%Z; lra|lra]. }
  cbn in C1, C2, C3. destruct w as [x y z]. cbn in *. apply Z0 in C1, C2, C3. subst. split; [|reflexivity].
  unfold length_sq, vecmat, dot, vadd, scale. cbn. ring.
Qed.
Lemma images_irrelevant cs cs' cell i j u v u' v' r r' :
  nth_error cs i = Some u -> nth_error cs j = Some v -> nth_error cs' i = Some u' -> nth_error cs' j = Some v' ->
  congruent3 u u' -> congruent3 v v' -> entry_of cs cell i j r -> entry_of cs' cell i j r' -> r' = r.
Proof.
  intros Eu Ev Eu' Ev' (U1 & U2 & U3) (V1 & V2 & V3) H H'. destruct r as [[d c] w], r' as [[d' c'] w'].
  destruct (entry_inv _ _ _ _ _ _ _ _ _ Eu Ev H) as ((C1 & C2 & C3) & -> & ->).
  destruct (entry_inv _ _ _ _ _ _ _ _ _ Eu' Ev' H') as ((D1 & D2 & D3) & -> & ->).
  assert (ONE : forall a a' b b' y y', congruent a a' -> congruent b b' -> centred (a - b) y -> centred (a' - b') y' -> y' = y).
  { intros a a' b b' y y' [k ->] [l ->] Cy [[m Em] Ry]. apply (centred_unique (a - b)); [|exact Cy]. split; [|exact Ry].
    exists (k - l + m)%Z. rewrite plus_IZR, minus_IZR. lra. }
  assert (E : w' = w).
  { destruct w as [x y z], w' as [x' y' z']. cbn in *.
    f_equal; [exact (ONE _ _ _ _ _ _ U1 V1 C1 D1)|exact (ONE _ _ _ _ _ _ U2 V2 C2 D2)|exact (ONE _ _ _ _ _ _ U3 V3 C3 D3)]. }
  rewrite E. reflexivity.
Qed.
