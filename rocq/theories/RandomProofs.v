From Coq Require Import Reals List Bool Arith Lia Lra.
From Verif Require Import Vec3 Cells CellsSpec CellsProofs Wrap WrapSpec WrapProofs Random RandomSpec.
Import ListNotations.
Local Open Scope R_scope.

(** ** Wrapping a difference of two numbers in [0,1) *)

Lemma wrap1_small x : -1 < x < 1 -> exists y, wrap1 3 x = Some y /\ centred x y.
Proof.
  intro H. unfold wrap1.
  destruct (Rle_dec (1/2) x) as [h|h].
  - exists (x + -1). split; [|split; [exists (-1)%Z; reflexivity | lra]].
    cbn [do_while].
    rewrite (proj2 (geb_spec x (1/2)) h).
    rewrite (proj2 (geb_false (x + -1) (1/2)) ltac:(lra)).
    rewrite (proj2 (ltb_false (x + -1) (-(1/2))) ltac:(lra)). reflexivity.
  - destruct (Rlt_dec x (-(1/2))) as [h'|h'].
    + exists (x + 1). split; [|split; [exists 1%Z; reflexivity | lra]].
      cbn [do_while].
      rewrite (proj2 (geb_false x (1/2)) ltac:(lra)).
      rewrite (proj2 (ltb_spec x (-(1/2))) h').
      rewrite (proj2 (ltb_false (x + 1) (-(1/2))) ltac:(lra)). reflexivity.
    + exists x. split; [|split; [exists 0%Z; lra | lra]].
      cbn [do_while].
      rewrite (proj2 (geb_false x (1/2)) ltac:(lra)).
      rewrite (proj2 (ltb_false x (-(1/2))) ltac:(lra)). reflexivity.
Qed.

Lemma wrap3_small a b : in_unit a -> in_unit b ->
  exists w, wrap3 3 (vsub a b) = Some w /\ centred3 (vsub a b) w.
Proof.
  intros (A1 & A2 & A3) (B1 & B2 & B3). unfold wrap3, centred3.
  assert (X : -1 < vx (vsub a b) < 1) by (cbn; lra).
  assert (Y : -1 < vy (vsub a b) < 1) by (cbn; lra).
  assert (Z : -1 < vz (vsub a b) < 1) by (cbn; lra).
  destruct (wrap1_small _ X) as (x & Ex & Cx).
  destruct (wrap1_small _ Y) as (y & Ey & Cy).
  destruct (wrap1_small _ Z) as (z & Ez & Cz).
  rewrite Ex, Ey, Ez. exists (Vec x y z). cbn. auto.
Qed.

Lemma centred3_unique v w w' : centred3 v w -> centred3 v w' -> w = w'.
Proof.
  intros (A & B & C) (A' & B' & C'). destruct w, w'. cbn in *.
  f_equal; eapply centred_unique; eassumption.
Qed.

Section Run.
Variable s : settings.
Variable u : nat -> R.
Hypothesis stream : forall n, 0 <= u n < 1.

Lemma too_close_pair_spec cell coords i j a b d :
  nth_error coords i = Some a -> nth_error coords j = Some b -> in_unit a -> in_unit b ->
  image_distance cell a b d ->
  (too_close_pair s cell coords (i, j) = true <-> d < dij_min s i j).
Proof.
  intros Ea Eb Ua Ub (w & Cw & ->). unfold too_close_pair, distsq_entry. cbn [fst snd].
  rewrite Ea, Eb. destruct (wrap3_small a b Ua Ub) as (w' & E & C). rewrite E.
  rewrite (centred3_unique _ _ _ C Cw). fold (norm (vecmat w cell)).
  destruct (Rlt_dec (norm (vecmat w cell)) (dij_min s i j)); split; auto; try discriminate; contradiction.
Qed.

Lemma pairs_spec n i j : In (i, j) (pairs n) <-> (i < j < n)%nat.
Proof.
  unfold pairs. rewrite in_flat_map. split.
  - intros (i' & I & J). apply in_seq in I. apply in_map_iff in J. destruct J as (j' & [= -> ->] & J).
    apply in_seq in J. lia.
  - intro H. exists i. split; [apply in_seq; lia|]. apply in_map_iff. exists j. split; [reflexivity|].
    apply in_seq. lia.
Qed.

Lemma too_close_apart cell coords : List.Forall in_unit coords ->
  (atoms_too_close s cell coords = false <-> apart (dij_min s) cell coords).
Proof.
  intro U. rewrite Forall_forall in U. unfold atoms_too_close. split.
  - intros H i j a b d L Ea Eb D.
    assert (In (i, j) (pairs (length coords))) as P.
    { apply pairs_spec. split; [exact L|]. apply nth_error_Some. rewrite Eb. discriminate. }
    assert (F : too_close_pair s cell coords (i, j) = false).
    { destruct (too_close_pair s cell coords (i, j)) eqn:E; [|reflexivity].
      assert (existsb (too_close_pair s cell coords) (pairs (length coords)) = true)
        by (apply existsb_exists; exists (i, j); auto). congruence. }
    apply Rnot_lt_le. intro Lt.
    rewrite (proj2 (too_close_pair_spec cell coords i j a b d Ea Eb
                      (U a (nth_error_In _ _ Ea)) (U b (nth_error_In _ _ Eb)) D) Lt) in F. discriminate.
  - intro H. destruct (existsb _ _) eqn:E; [|reflexivity]. exfalso.
    apply existsb_exists in E. destruct E as ([i j] & P & T). apply pairs_spec in P.
    destruct (nth_error coords i) as [a|] eqn:Ea; [|apply nth_error_None in Ea; lia].
    destruct (nth_error coords j) as [b|] eqn:Eb; [|apply nth_error_None in Eb; lia].
    pose proof (U a (nth_error_In _ _ Ea)) as Ua. pose proof (U b (nth_error_In _ _ Eb)) as Ub.
    destruct (wrap3_small a b Ua Ub) as (w & _ & C).
    assert (D : image_distance cell a b (norm (vecmat w cell))) by (exists w; auto).
    apply (too_close_pair_spec cell coords i j a b _ Ea Eb Ua Ub D) in T.
    pose proof (H i j a b _ ltac:(lia) Ea Eb D). lra.
Qed.

Lemma rand3_unit pos : in_unit (rand3 u pos).
Proof. unfold in_unit, rand3. cbn. auto. Qed.

(** ** The cell *)

Local Notation fits := (fits s u).
Local Notation rejected := (rejected s u).
Local Notation impossible := (impossible s u).

Lemma rleb_spec x y : rleb x y = true <-> x <= y.
Proof. unfold rleb. destruct (Rle_dec x y); split; auto; try discriminate; contradiction. Qed.

Lemma cell_cases pos : fits pos \/ rejected pos \/ impossible pos.
Proof.
  unfold fits, rejected, impossible. destruct (volume (get_cc s u pos)) as [vol|]; [|auto].
  destruct (Rle_dec (fst (vol_range s)) vol) as [h|h]; destruct (Rle_dec vol (snd (vol_range s))) as [h'|h'];
    [left|right; left..]; exists vol; split; auto; lra.
Qed.

Lemma cell_loop_spec fuel : forall cnt pos, (cnt <= cell_maxtry s + 1)%nat -> (cell_maxtry s + 1 < cnt + fuel)%nat ->
  match cell_loop s u fuel cnt pos with
  | Done (k, c) p => exists j, (cnt + j <= cell_maxtry s)%nat /\ (forall i, (i < j)%nat -> rejected (pos + 12 * i)) /\
      fits (pos + 12 * j) /\ k = get_cc s u (pos + 12 * j) /\ c = (cnt + j)%nat /\ p = (pos + 12 * j + 6)%nat
  | Fail p => (forall i, (cnt + i <= cell_maxtry s)%nat -> rejected (pos + 12 * i)) /\
      p = (pos + 12 * (cell_maxtry s + 1 - cnt))%nat
  | Raise => exists j, (cnt + j <= cell_maxtry s)%nat /\ (forall i, (i < j)%nat -> rejected (pos + 12 * i)) /\
      impossible (pos + 12 * j)
  end.
Proof.
  induction fuel as [|fuel IH]; intros cnt pos C F; cbn [cell_loop].
  - lia.
  - destruct (Nat.leb_spec cnt (cell_maxtry s)) as [h|h].
    2:{ split; [intros i I; lia|]. replace (cell_maxtry s + 1 - cnt)%nat with 0%nat by lia. lia. }
    destruct (volume (get_cc s u pos)) as [vol|] eqn:V.
    2:{ exists 0%nat. rewrite Nat.mul_0_r, Nat.add_0_r, Nat.add_0_r. split; [exact h|]. split; [intros i I; lia|].
        exact V. }
    destruct (rleb (fst (vol_range s)) vol && rleb vol (snd (vol_range s))) eqn:B; cbn [negb].
    + apply andb_prop in B. destruct B as [B1 B2]. apply rleb_spec in B1, B2.
      exists 0%nat. rewrite Nat.mul_0_r, !Nat.add_0_r. split; [exact h|]. split; [intros i I; lia|].
      split; [exists vol; auto|]. auto.
    + assert (Rj : rejected pos).
      { exists vol. split; [exact V|]. intros [H1 H2]. apply rleb_spec in H1, H2. rewrite H1, H2 in B. discriminate. }
      specialize (IH (cnt + 1)%nat (pos + 6 + 6)%nat ltac:(lia) ltac:(lia)).
      assert (Sh : forall i, (pos + 6 + 6 + 12 * i = pos + 12 * S i)%nat) by (intro; lia).
      assert (Pre : forall j, (forall i, (i < j)%nat -> rejected (pos + 6 + 6 + 12 * i)) ->
                    forall i, (i < S j)%nat -> rejected (pos + 12 * i)).
      { intros j H i I. destruct i as [|i]; [rewrite Nat.mul_0_r, Nat.add_0_r; exact Rj|].
        rewrite <- Sh. apply H. lia. }
      destruct (cell_loop s u fuel (cnt + 1) (pos + 6 + 6)) as [[k c] p | p |].
      * destruct IH as (j & J & H & Fi & -> & -> & ->). rewrite Sh in *. exists (S j).
        split; [lia|]. split; [apply Pre; exact H|]. split; [exact Fi|]. split; [reflexivity|]. lia.
      * destruct IH as (H & ->). split; [|lia].
        intros i I. destruct i as [|i]; [rewrite Nat.mul_0_r, Nat.add_0_r; exact Rj|].
        rewrite <- Sh. apply H. lia.
      * destruct IH as (j & J & H & Im). rewrite Sh in Im. exists (S j). split; [lia|]. split; [apply Pre; exact H|].
        exact Im.
Qed.

Lemma cell_spec pos :
  match get_random_cryst_const s u pos with
  | Done (k, c) p => exists j, (j < cell_maxtry s)%nat /\ (forall i, (i < j)%nat -> rejected (pos + 12 * i)) /\
      fits (pos + 12 * j) /\ k = get_cc s u (pos + 12 * j) /\ c = (j + 1)%nat /\ p = (pos + 12 * j + 6)%nat
  | Fail p => (forall i, (i < cell_maxtry s)%nat -> rejected (pos + 12 * i)) /\
      p = (pos + 12 * cell_maxtry s)%nat
  | Raise => exists j, (j < cell_maxtry s)%nat /\ (forall i, (i < j)%nat -> rejected (pos + 12 * i)) /\
      impossible (pos + 12 * j)
  end.
Proof.
  unfold get_random_cryst_const.
  pose proof (cell_loop_spec (S (S (cell_maxtry s))) 1 pos ltac:(lia) ltac:(lia)) as H.
  destruct (cell_loop s u (S (S (cell_maxtry s))) 1 pos) as [[k c] p | p |].
  - destruct H as (j & J & A & B & C & D & E). exists j. repeat split; auto; lia.
  - destruct H as (A & ->). split; [|lia]. intros i I. apply A. lia.
  - destruct H as (j & J & A & B). exists j. repeat split; auto; lia.
Qed.

Lemma cell_fails pos : (forall i, (i < cell_maxtry s)%nat -> rejected (pos + 12 * i)) ->
  get_random_cryst_const s u pos = Fail (pos + 12 * cell_maxtry s).
Proof.
  intro H. pose proof (cell_spec pos) as S.
  destruct (get_random_cryst_const s u pos) as [[k c] p | p |].
  - destruct S as (j & J & _ & (vol & V & R) & _). destruct (H j J) as (vol' & V' & N).
    rewrite V in V'. injection V' as <-. contradiction.
  - destruct S as (_ & ->). reflexivity.
  - destruct S as (j & J & _ & I). destruct (H j J) as (vol' & V' & N). unfold impossible in I. congruence.
Qed.

(** ** The atoms *)

Section Atoms.
Variable cell : mat.

Definition roomy (coords : list vec) (pos : nat) : Prop := apart (dij_min s) cell (coords ++ [rand3 u pos]).

Lemma crowded_spec coords pos : List.Forall in_unit coords ->
  (atoms_too_close s cell (coords ++ [rand3 u pos]) = false <-> roomy coords pos).
Proof.
  intro U. apply too_close_apart. apply Forall_app. split; [exact U|].
  constructor; [apply rand3_unit | constructor].
Qed.

Lemma atom_loop_spec coords : List.Forall in_unit coords -> forall fuel last cnt pos,
  (cnt <= atom_maxtry s + 1)%nat -> (atom_maxtry s + 1 < cnt + fuel)%nat ->
  match atom_loop s u fuel cell coords last cnt pos with
  | Done (a, c) p =>
      (exists j, (cnt + j <= atom_maxtry s)%nat /\ (forall i, (i < j)%nat -> ~ roomy coords (pos + 6 * i)) /\
        roomy coords (pos + 6 * j) /\ a = rand3 u (pos + 6 * j) /\ c = (cnt + j)%nat /\ p = (pos + 6 * j + 3)%nat) \/
      ((forall i, (cnt + i <= atom_maxtry s)%nat -> ~ roomy coords (pos + 6 * i)) /\
        c = (atom_maxtry s + 1)%nat /\ p = (pos + 6 * (atom_maxtry s + 1 - cnt))%nat)
  | _ => False
  end.
Proof.
  intros U fuel. induction fuel as [|fuel IH]; intros last cnt pos C F; cbn [atom_loop]; [lia|].
  destruct (Nat.leb_spec cnt (atom_maxtry s)) as [h|h].
  2:{ right. split; [intros i I; lia|]. lia. }
  cbv zeta. destruct (atoms_too_close s cell (coords ++ [rand3 u pos])) eqn:T.
  - assert (Rj : ~ roomy coords pos).
    { intro Rm. apply (crowded_spec coords pos U) in Rm. congruence. }
    specialize (IH (rand3 u (pos + 3)) (cnt + 1)%nat (pos + 3 + 3)%nat ltac:(lia) ltac:(lia)).
    assert (Sh : forall i, (pos + 3 + 3 + 6 * i = pos + 6 * S i)%nat) by (intro; lia).
    destruct (atom_loop s u fuel cell coords (rand3 u (pos + 3)) (cnt + 1) (pos + 3 + 3)) as [[a c] p | p |];
      [|contradiction..].
    destruct IH as [(j & J & H & Fi & -> & -> & ->) | (H & -> & ->)].
    + left. rewrite Sh in *. exists (S j). split; [lia|]. split.
      * intros i I. destruct i as [|i]; [rewrite Nat.mul_0_r, Nat.add_0_r; exact Rj|].
        rewrite <- Sh. apply H. lia.
      * split; [exact Fi|]. split; [reflexivity|]. lia.
    + right. split; [|lia].
      intros i I. destruct i as [|i]; [rewrite Nat.mul_0_r, Nat.add_0_r; exact Rj|].
      rewrite <- Sh. apply H. lia.
  - left. exists 0%nat. rewrite Nat.mul_0_r, !Nat.add_0_r. split; [exact h|]. split; [intros i I; lia|].
    split; [apply crowded_spec; assumption|]. auto.
Qed.

Lemma place_first pos : (0 < atom_maxtry s)%nat ->
  place_atom s u cell [] pos = Done [rand3 u pos] (pos + 3).
Proof.
  intro H. unfold place_atom. destruct (Nat.ltb_spec (atom_maxtry s) 1); [lia | reflexivity].
Qed.

Lemma apart_single a : apart (dij_min s) cell [a].
Proof.
  intros i j x y d L Ei Ej. destruct j as [|j]; [lia|]. cbn in Ej. destruct j; discriminate.
Qed.

(** one atom: the first candidate with room, or failure after the allowed number *)
Lemma place_atom_spec coords pos : List.Forall in_unit coords -> coords <> [] ->
  match place_atom s u cell coords pos with
  | Done coords' p => exists j, (j < atom_maxtry s)%nat /\ (forall i, (i < j)%nat -> ~ roomy coords (pos + 6 * i)) /\
        roomy coords (pos + 6 * j) /\ coords' = coords ++ [rand3 u (pos + 6 * j)] /\ p = (pos + 6 * j + 3)%nat
  | Fail p => (forall i, (i < atom_maxtry s)%nat -> ~ roomy coords (pos + 6 * i)) /\ p = (pos + 6 * atom_maxtry s)%nat
  | Raise => False
  end.
Proof.
  intros U NE. unfold place_atom. destruct coords as [|c0 cs]; [congruence|].
  pose proof (atom_loop_spec (c0 :: cs) U (S (S (atom_maxtry s))) (Vec 0 0 0) 1 pos ltac:(lia) ltac:(lia)) as H.
  destruct (atom_loop s u (S (S (atom_maxtry s))) cell (c0 :: cs) (Vec 0 0 0) 1 pos) as [[a c] p | p |];
    [|contradiction..].
  destruct H as [(j & J & H & Fi & -> & -> & ->) | (H & -> & ->)].
  - destruct (Nat.ltb_spec (atom_maxtry s) (1 + j)) as [h|_]; [lia|].
    exists j. split; [lia|]. auto.
  - destruct (Nat.ltb_spec (atom_maxtry s) (atom_maxtry s + 1)) as [_|h]; [|lia].
    split; [intros i I; apply H; lia | lia].
Qed.

Lemma place_atoms_spec n : forall coords pos, List.Forall in_unit coords -> apart (dij_min s) cell coords ->
  match place_atoms s u n cell coords pos with
  | Done coords' p => List.Forall in_unit coords' /\ apart (dij_min s) cell coords' /\
      length coords' = (length coords + n)%nat /\ exists more, coords' = coords ++ more
  | Fail p => exists part pos', (length part < length coords + n)%nat /\
      List.Forall in_unit part /\ apart (dij_min s) cell part /\
      (forall i, (i < atom_maxtry s)%nat -> ~ roomy part (pos' + 6 * i))
  | Raise => False
  end.
Proof.
  induction n as [|n IH]; intros coords pos U A; cbn [place_atoms].
  - split; [exact U|]. split; [exact A|]. split; [lia|]. exists []. rewrite app_nil_r. reflexivity.
  - destruct coords as [|c0 cs].
    + unfold place_atom. destruct (Nat.ltb_spec (atom_maxtry s) 1) as [h|h].
      * exists [], pos. split; [cbn; lia|]. split; [constructor|]. split; [exact A|]. intros i I. lia.
      * cbn [app]. specialize (IH [rand3 u pos] (pos + 3)%nat
          ltac:(constructor; [apply rand3_unit | constructor]) (apart_single _)).
        destruct (place_atoms s u n cell [rand3 u pos] (pos + 3)) as [coords' p | p |]; [| |exact IH].
        -- destruct IH as (H1 & H2 & H3 & more & ->). cbn [length] in *. repeat split; auto. eexists. reflexivity.
        -- destruct IH as (part & pos' & H1 & H2). exists part, pos'. split; [cbn [length] in *; lia | exact H2].
    + set (coords := c0 :: cs) in *.
      pose proof (place_atom_spec coords pos U ltac:(discriminate)) as H.
      destruct (place_atom s u cell coords pos) as [coords' p | p |]; [| |contradiction].
      * destruct H as (j & J & _ & Rm & -> & ->).
        specialize (IH (coords ++ [rand3 u (pos + 6 * j)]) (pos + 6 * j + 3)%nat
          ltac:(apply Forall_app; split; [exact U | constructor; [apply rand3_unit | constructor]]) Rm).
        destruct (place_atoms s u n cell (coords ++ [rand3 u (pos + 6 * j)]) (pos + 6 * j + 3)) as [c' p | p |];
          [| |exact IH].
        -- destruct IH as (H1 & H2 & H3 & more & ->). split; [exact H1|]. split; [exact H2|].
           split; [rewrite !app_length in *; cbn [length] in *; lia|]. rewrite <- app_assoc. eexists. reflexivity.
        -- destruct IH as (part & pos' & H1 & H2). exists part, pos'. rewrite app_length in H1. cbn [length] in H1.
           split; [lia | exact H2].
      * destruct H as (H & ->). exists coords, pos. split; [lia|]. auto.
Qed.
End Atoms.

(** ** The structure *)

Lemma struct_spec pos :
  match get_random_struct s u pos with
  | Done (cell, coords) p =>
      (exists j, (j < cell_maxtry s)%nat /\ fits (pos + 12 * j) /\ cell = cc2cell (get_cc s u (pos + 12 * j))) /\
      length coords = natoms s /\ List.Forall in_unit coords /\ apart (dij_min s) cell coords
  | Fail p =>
      (forall i, (i < cell_maxtry s)%nat -> rejected (pos + 12 * i)) \/
      exists cell part pos', (length part < natoms s)%nat /\
        List.Forall in_unit part /\ apart (dij_min s) cell part /\
        (forall i, (i < atom_maxtry s)%nat -> ~ roomy cell part (pos' + 6 * i))
  | Raise => exists j, (j < cell_maxtry s)%nat /\ impossible (pos + 12 * j)
  end.
Proof.
  unfold get_random_struct. pose proof (cell_spec pos) as C.
  destruct (get_random_cryst_const s u pos) as [[k c] p | p |].
  - destruct C as (j & J & _ & Fi & -> & _ & ->).
    set (cell := cc2cell (get_cc s u (pos + 12 * j))).
    pose proof (place_atoms_spec cell (natoms s) [] (pos + 12 * j + 6)%nat (Forall_nil _)) as H.
    assert (A0 : apart (dij_min s) cell []).
    { intros a b x y d L E. destruct a; discriminate. }
    specialize (H A0).
    destruct (place_atoms s u (natoms s) cell [] (pos + 12 * j + 6)) as [coords p' | p' |]; [| |contradiction].
    + destruct H as (H1 & H2 & H3 & _). split; [exists j; auto|]. auto.
    + destruct H as (part & pos' & H1 & H2). right. exists cell, part, pos'. auto.
  - left. apply C.
  - destruct C as (j & J & _ & I). exists j. auto.
Qed.

Lemma nofail_spec fuel : forall pos r, get_random_struct_nofail s u fuel pos = Some r ->
  (exists pos', get_random_struct s u pos' = r) /\ (forall p, r <> Fail p).
Proof.
  induction fuel as [|fuel IH]; intros pos r H; cbn [get_random_struct_nofail] in H; [discriminate|].
  destruct (get_random_struct s u pos) as [x p | p |] eqn:E.
  - injection H as <-. split; [exists pos; exact E | discriminate].
  - apply IH in H. exact H.
  - injection H as <-. split; [exists pos; exact E | discriminate].
Qed.

(** ** Volume, lengths and angles *)

Local Notation sane := (sane s).

Lemma uniform_range r n : fst r <= snd r -> fst r <= uniform u r n <= snd r.
Proof. intro H. unfold uniform. pose proof (stream n). nra. Qed.

Lemma length_range_ok : sane -> 0 < fst (length_range s) <= snd (length_range s).
Proof.
  intros (V & _ & L & _). unfold length_range, length_mean. cbn [fst snd].
  assert (0 < Rpower (vol_mean s) (1 / 3)) by apply exp_pos. split; nra.
Qed.

Lemma fits_valid pos : sane -> fits pos -> valid (get_cc s u pos).
Proof.
  intros S (vol & V & Rg). pose proof (length_range_ok S) as L.
  destruct S as (Vm & Vr & _ & A1 & A2 & A3).
  assert (LL : forall n, 0 < uniform u (length_range s) n).
  { intro n. pose proof (uniform_range (length_range s) n ltac:(lra)). lra. }
  assert (AA : forall n, angle_ok (uniform u (angle_range s) n)).
  { intro n. pose proof (uniform_range (angle_range s) n ltac:(lra)). unfold angle_ok. lra. }
  unfold valid, get_cc. cbn. split; [apply LL|]. split; [apply LL|]. split; [apply LL|].
  split; [apply AA|]. split; [apply AA|]. split; [apply AA|].
  unfold volume in V. cbn in V. unfold rad, gram.
  destruct (Rle_dec _ _) as [G|G] in V; [|discriminate]. injection V as V.
  destruct (Rle_lt_or_eq_dec _ _ G) as [Lt|Eq]; [exact Lt|]. exfalso.
  assert (0 < vol). { unfold vol_range in Rg. cbn in Rg. nra. }
  rewrite <- V in H. unfold volume_cc in H. cbn in H.
  cbn in Eq. rewrite <- Eq in H. rewrite sqrt_0 in H. lra.
Qed.

Lemma fits_volume pos : sane -> fits pos ->
  fst (vol_range s) <= volume_cell (cc2cell (get_cc s u pos)) <= snd (vol_range s).
Proof.
  intros S F. rewrite volume_cc2cell by (apply fits_valid; assumption).
  destruct F as (vol & V & Rg). unfold volume in V. destruct (Rle_dec _ _) in V; [|discriminate].
  injection V as ->. exact Rg.
Qed.
End Run.

(** ** A run with the default settings *)

Section First.
Variable s : settings.
Variable u : nat -> R.
Hypothesis stream : forall n, 0 <= u n < 1.

Lemma cell_first pos : (0 < cell_maxtry s)%nat -> fits s u pos ->
  get_random_cryst_const s u pos = Done (get_cc s u pos, 1%nat) (pos + 6).
Proof.
  intros M (vol & V & Rg). pose proof (cell_spec s u pos) as C.
  assert (E0 : (pos + 12 * 0 = pos)%nat) by lia.
  destruct (get_random_cryst_const s u pos) as [[k c] p | p |].
  - destruct C as (j & J & H & _ & -> & -> & ->). destruct j as [|j].
    + rewrite E0. reflexivity.
    + destruct (H 0%nat ltac:(lia)) as (v' & V' & N). rewrite E0, V in V'. injection V' as <-. contradiction.
  - destruct C as (H & _). destruct (H 0%nat M) as (v' & V' & N). rewrite E0, V in V'. injection V' as <-. contradiction.
  - destruct C as (j & J & H & I). destruct j as [|j].
    + unfold impossible in I. rewrite E0 in I. congruence.
    + destruct (H 0%nat ltac:(lia)) as (v' & V' & N). rewrite E0, V in V'. injection V' as <-. contradiction.
Qed.

Lemma place_now cell coords pos : List.Forall in_unit coords -> coords <> [] -> (0 < atom_maxtry s)%nat ->
  roomy s u cell coords pos -> place_atom s u cell coords pos = Done (coords ++ [rand3 u pos]) (pos + 3).
Proof.
  intros U NE M Rm. pose proof (place_atom_spec s u stream cell coords pos U NE) as C.
  assert (E0 : (pos + 6 * 0 = pos)%nat) by lia.
  destruct (place_atom s u cell coords pos) as [c p | p |]; [| |contradiction].
  - destruct C as (j & J & H & _ & -> & ->). destruct j as [|j].
    + rewrite E0. reflexivity.
    + exfalso. apply (H 0%nat ltac:(lia)). rewrite E0. exact Rm.
  - destruct C as (H & _). exfalso. apply (H 0%nat M). rewrite E0. exact Rm.
Qed.
End First.

Definition u0 (n : nat) : R :=
  match n with 0%nat | 1%nat | 2%nat | 9%nat | 10%nat => 1/2 | _ => 0 end.

Lemma u0_range n : 0 <= u0 n < 1.
Proof. unfold u0. do 11 (destruct n as [|n]; [lra|]). lra. Qed.

Definition ell : R := length_mean (defaults [1; 1]).

Lemma vol_mean0 : vol_mean (defaults [1; 1]) = 32 / 3 * PI.
Proof. unfold vol_mean, defaults. cbn. lra. Qed.

Lemma ell_cube : ell ^ 3 = 32 / 3 * PI.
Proof.
  unfold ell, length_mean. rewrite vol_mean0. pose proof PI_RGT_0 as P.
  set (v := 32 / 3 * PI). assert (0 < v) by (unfold v; lra).
  rewrite <- Rpower_pow by apply exp_pos. rewrite Rpower_mult.
  replace (1 / 3 * INR 3) with 1 by (cbn; lra). apply Rpower_1. exact H.
Qed.

Lemma ell_bounds : 3 < ell < 4.
Proof.
  pose proof ell_cube as E. pose proof PI2_3_2 as P. pose proof PI_4 as P4.
  assert (0 < ell) by apply exp_pos. split; apply Rnot_le_lt; intro H0.
  - assert (ell ^ 3 <= 27) by (replace 27 with (3 ^ 3) by lra; apply pow_incr; lra). lra.
  - assert (4 ^ 3 <= ell ^ 3) by (apply pow_incr; lra). lra.
Qed.

Lemma cc0 : get_cc (defaults [1; 1]) u0 0 = CC ell ell ell 60 60 60.
Proof.
  unfold get_cc, uniform, length_range. fold ell. unfold defaults. cbn -[ell].
  f_equal; lra.
Qed.

Lemma deg60 : 60 * PI / 180 = PI / 3.
Proof. lra. Qed.

Lemma fits0 : fits (defaults [1; 1]) u0 0.
Proof.
  unfold fits, volume. rewrite cc0. cbn [alpha beta gamma]. rewrite deg60, cos_PI3.
  destruct (Rle_dec _ _) as [_|h]; [|lra].
  eexists. split; [reflexivity|]. unfold volume_cc. cbn [a_ b_ c_ alpha beta gamma].
  rewrite deg60, cos_PI3. unfold vol_range. rewrite vol_mean0, <- ell_cube. cbn [fst snd vol_range_scale defaults].
  replace (1 + 2 * (1 / 2) * (1 / 2) * (1 / 2) - (1 / 2) ^ 2 - (1 / 2) ^ 2 - (1 / 2) ^ 2) with (1 / 2) by lra.
  pose proof ell_bounds as B.
  assert (Q : 7 / 10 <= sqrt (1 / 2) <= 1).
  { split.
    - rewrite <- (sqrt_square (7 / 10)) by lra. apply sqrt_le_1_alt. lra.
    - apply Rle_trans with (sqrt 1); [apply sqrt_le_1_alt; lra | rewrite sqrt_1; lra]. }
  assert (X : 0 < ell ^ 3) by (apply pow_lt; lra).
  replace (ell * ell * ell) with (ell ^ 3) by ring.
  set (x := ell ^ 3) in *. set (q := sqrt (1 / 2)) in *. clearbody x q. clear - X Q.
  split; nra.
Qed.

Definition cell0 : mat := cc2cell (CC ell ell ell 60 60 60).

Lemma cell0_a : ra cell0 = Vec ell 0 0.
Proof. reflexivity. Qed.
Lemma cell0_b : rb cell0 = Vec (ell * (1 / 2)) (ell * (sqrt 3 / 2)) 0.
Proof. unfold cell0, cc2cell. cbn. rewrite deg60, cos_PI3, sin_PI3. reflexivity. Qed.

Lemma norm_0 x y : norm (vecmat (Vec x y 0) cell0) = sqrt (x * x + x * y + y * y) * ell.
Proof.
  pose proof ell_bounds as B.
  assert (E : dot (vecmat (Vec x y 0) cell0) (vecmat (Vec x y 0) cell0) = (x * x + x * y + y * y) * (ell * ell)).
  { unfold vecmat. rewrite cell0_a, cell0_b. unfold dot, vadd, scale. cbn [vx vy vz].
    assert (S3 : sqrt 3 * sqrt 3 = 3) by (apply sqrt_sqrt; lra).
    set (q := sqrt 3) in *. clearbody q.
    transitivity ((x + y / 2) ^ 2 * ell ^ 2 + (q * q) * (y ^ 2 / 4 * ell ^ 2)); [field | rewrite S3; field]. }
  unfold norm. rewrite E. rewrite sqrt_mult_alt by nra. rewrite sqrt_square by lra. reflexivity.
Qed.

Definition at0 : vec := Vec 0 0 0.
Definition at1 : vec := Vec (1 / 2) (1 / 2) 0.

Lemma centred0 : centred3 (vsub at0 at1) (Vec (- (1 / 2)) (- (1 / 2)) 0).
Proof.
  unfold centred3, centred, vsub, at0, at1. cbn.
  split; [|split]; (split; [exists 0%Z; lra | lra]).
Qed.

Lemma run0 : get_random_struct (defaults [1; 1]) u0 0 = Done (cell0, [at0; at1]) 12.
Proof.
  unfold get_random_struct.
  rewrite (cell_first (defaults [1; 1]) u0 0) by (exact fits0 || cbn; lia).
  rewrite cc0. fold cell0. unfold natoms. cbn [cov_radii defaults length place_atoms Nat.add].
  change (@defaults) with defaults.
  rewrite (place_first (defaults [1; 1]) u0 cell0 6) by (cbn; lia).
  assert (E0 : rand3 u0 6 = at0) by reflexivity.
  rewrite E0. cbn [Nat.add].
  rewrite (place_now (defaults [1; 1]) u0 u0_range cell0 [at0] 9).
  - cbn [app Nat.add]. unfold rand3. cbn. reflexivity.
  - constructor; [unfold in_unit, at0; cbn; lra | constructor].
  - discriminate.
  - cbn. lia.
  - unfold roomy. change (rand3 u0 9) with at1. cbn [app].
    intros i j a b d L Ei Ej (w & C & ->).
    assert (i = 0%nat /\ j = 1%nat) as [-> ->].
    { assert (j < length [at0; at1])%nat by (apply nth_error_Some; rewrite Ej; discriminate). cbn in H. lia. }
    cbn in Ei, Ej. injection Ei as <-. injection Ej as <-.
    rewrite (centred3_unique _ _ _ C centred0), norm_0. unfold dij_min. cbn [cov_radii defaults nth close_scale].
    pose proof ell_bounds as B.
    assert (4 / 5 <= sqrt (- (1 / 2) * - (1 / 2) + - (1 / 2) * - (1 / 2) + - (1 / 2) * - (1 / 2))).
    { rewrite <- (sqrt_square (4 / 5)) by lra. apply sqrt_le_1_alt. lra. }
    nra.
Qed.
