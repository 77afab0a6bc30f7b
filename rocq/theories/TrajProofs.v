From Coq Require Import List String ZArith Lia Bool.
From Verif Require Import StructGetters Traj TrajSpec.
Import ListNotations.
Open Scope string_scope.
Ltac Tauto.intuition_solver ::= auto with zarith.

(** ** Slices of lists *)
Lemma nth_error_ext {B} : forall (l l' : list B), (forall i, nth_error l i = nth_error l' i) -> l = l'.
Proof.
  induction l as [|x l IH]; intros [|y l'] H.
  - reflexivity.
  - specialize (H 0). discriminate.
  - specialize (H 0). discriminate.
  - pose proof (H 0) as E. injection E as ->. f_equal. apply IH. intros i. apply (H (S i)).
Qed.
Lemma pick_nth {B} (l : list B) d : forall cnt a,
  (forall i, i < cnt -> (0 <= a + Z.of_nat i * d < Z.of_nat (List.length l))%Z) ->
  forall i, nth_error (pick l a d cnt) i =
            if Nat.ltb i cnt then nth_error l (Z.to_nat (a + Z.of_nat i * d)) else None.
Proof.
  induction cnt as [|cnt IH]; intros a H i; [destruct i; reflexivity|].
  cbn [pick]. pose proof (H 0 (Nat.lt_0_succ _)) as H0.
  destruct (nth_error l (Z.to_nat a)) as [x|] eqn:E.
  2:{ apply nth_error_None in E. lia. }
  destruct i as [|i].
  - cbn. rewrite <- E. f_equal. lia.
  - cbn [nth_error]. rewrite IH.
    + change (Nat.ltb (S i) (S cnt)) with (Nat.ltb i cnt). destruct (Nat.ltb i cnt); [|reflexivity].
      f_equal. lia.
    + intros j Hj. specialize (H (S j) (proj1 (Nat.succ_lt_mono _ _) Hj)). lia.
Qed.
Lemma range_len_before a b d : d <> 0%Z -> forall i, i < range_len a b d <-> before d (a + Z.of_nat i * d) b.
Proof.
  intros Hd i. unfold range_len, before. destruct (Z.ltb_spec d 0) as [N|P].
  - destruct (Z.ltb_spec b a).
    + pose proof (Z.div_mod (a - b - 1) (- d) ltac:(lia)) as E. pose proof (Z.mod_pos_bound (a - b - 1) (- d) ltac:(lia)).
      pose proof (Z.div_pos (a - b - 1) (- d) ltac:(lia) ltac:(lia)). set (q := ((a - b - 1) / (- d))%Z) in *. nia.
    + split; [lia|]. intros. nia.
  - destruct (Z.ltb_spec a b).
    + pose proof (Z.div_mod (b - a - 1) d ltac:(lia)) as E. pose proof (Z.mod_pos_bound (b - a - 1) d ltac:(lia)).
      pose proof (Z.div_pos (b - a - 1) d ltac:(lia) ltac:(lia)). set (q := ((b - a - 1) / d)%Z) in *. nia.
    + split; [lia|]. intros. nia.
Qed.
Lemma slice_indices_range s n a b d : (0 <= n)%Z -> slice_indices s n = Some (a, b, d) ->
  d = by_ s /\ d <> 0%Z /\
  (if (d <? 0)%Z then (-1 <= a <= n - 1)%Z /\ (-1 <= b <= n - 1)%Z else (0 <= a <= n)%Z /\ (0 <= b <= n)%Z).
Proof.
  intros Hn. unfold slice_indices. change (match step s with Some d => d | None => 1%Z end) with (by_ s).
  destruct (Z.eqb_spec (by_ s) 0) as [|Hd]; [discriminate|]. intros [= <- <- <-]. split; [reflexivity|split; [assumption|]].
  destruct (Z.ltb_spec (by_ s) 0); unfold clip; destruct (start s) as [x|], (stop s) as [y|];
    repeat match goal with |- context [Z.ltb ?u ?v] => destruct (Z.ltb_spec u v) end; lia.
Qed.
Lemma slice_list_spec {B} s (l : list B) a b d : slice_indices s (Z.of_nat (List.length l)) = Some (a, b, d) ->
  exists r, slice_list s l = Some r /\ is_slice l a b d r.
Proof.
  intros E. unfold slice_list. rewrite E. eexists. split; [reflexivity|].
  destruct (slice_indices_range s _ a b d (Zle_0_nat _) E) as (_ & Hd & R).
  assert (IN : forall i, before d (a + Z.of_nat i * d) b -> (0 <= a + Z.of_nat i * d < Z.of_nat (List.length l))%Z).
  { intros i H. unfold before in H. destruct (Z.ltb_spec d 0); nia. }
  intros i. rewrite pick_nth.
  - pose proof (range_len_before a b d Hd i) as W. split; intros H.
    + apply W in H as H'. rewrite (proj2 (Nat.ltb_lt _ _) H'). auto.
    + destruct (Nat.ltb_spec i (range_len a b d)); [|reflexivity]. exfalso. tauto.
  - intros j Hj. apply IN, range_len_before; assumption.
Qed.
Lemma is_slice_unique {B} (l : list B) a b d r r' : is_slice l a b d r -> is_slice l a b d r' -> r = r'.
Proof.
  intros H H'. apply nth_error_ext. intros i. destruct (H i) as [H1 H2], (H' i) as [H1' H2'].
  assert (D : before d (a + Z.of_nat i * d) b \/ ~ before d (a + Z.of_nat i * d) b).
  { unfold before. destruct (d <? 0)%Z; lia. }
  destruct D as [D|D]; [rewrite (proj1 (H1 D)), (proj1 (H1' D)) | rewrite (H2 D), (H2' D)]; reflexivity.
Qed.
Lemma slice_indices_pos s n : (0 <= n)%Z -> (0 < by_ s)%Z ->
  slice_indices s n = Some (first s n, last s n, by_ s).
Proof.
  intros Hn P. unfold slice_indices, first, last. change (match step s with Some d => d | None => 1%Z end) with (by_ s).
  destruct (Z.eqb_spec (by_ s) 0); [lia|]. destruct (Z.ltb_spec (by_ s) 0); [lia|]. unfold clip, pos.
  repeat f_equal; [destruct (start s) as [x|] | destruct (stop s) as [x|]]; try reflexivity;
    destruct (Z.ltb_spec x 0); lia.
Qed.
Lemma first_last_range s n : (0 <= n)%Z -> (0 <= first s n <= n)%Z /\ (0 <= last s n <= n)%Z.
Proof.
  intros Hn. unfold first, last, pos. destruct (start s) as [x|], (stop s) as [y|];
    repeat match goal with |- context [Z.ltb ?u ?v] => destruct (Z.ltb_spec u v) end; lia.
Qed.
Lemma slice_list_pos {B} s (l : list B) : (0 < by_ s)%Z ->
  exists r, slice_list s l = Some r /\
    is_slice l (first s (Z.of_nat (List.length l))) (last s (Z.of_nat (List.length l))) (by_ s) r.
Proof. intros P. apply slice_list_spec, slice_indices_pos; lia. Qed.
Lemma count_lt s n i : (0 < by_ s)%Z -> (0 <= i)%Z -> (i < count s n <-> first s n + i * by_ s < last s n)%Z.
Proof.
  intros P Hi. unfold count. set (u := (last s n - first s n)%Z).
  pose proof (Z.div_mod (u + by_ s - 1) (by_ s) ltac:(lia)) as E.
  pose proof (Z.mod_pos_bound (u + by_ s - 1) (by_ s) ltac:(lia)).
  replace (last s n - first s n + by_ s - 1)%Z with (u + by_ s - 1)%Z by (subst u; lia).
  set (q := ((u + by_ s - 1) / by_ s)%Z) in *. split; intros; subst u; nia.
Qed.
Lemma slice_length {B} s (l r : list B) : (0 < by_ s)%Z -> slice_list s l = Some r ->
  Z.of_nat (List.length r) = count s (Z.of_nat (List.length l)).
Proof.
  intros P E. destruct (slice_list_pos s l P) as (r' & E' & H). rewrite E in E'. injection E' as <-.
  assert (C : (0 <= count s (Z.of_nat (List.length l)))%Z) by (unfold count; lia).
  set (n := Z.of_nat (List.length l)) in *.
  assert (W : forall i, i < List.length r <-> (Z.of_nat i < count s n)%Z).
  { intros i. rewrite count_lt by lia. rewrite <- nth_error_Some. destruct (H i) as [H1 H2].
    unfold before in *. destruct (Z.ltb_spec (by_ s) 0); [lia|]. split.
    - intros N. destruct (Z.lt_ge_cases (first s n + Z.of_nat i * by_ s) (last s n)) as [|G]; [assumption|].
      exfalso. apply N, H2. lia.
    - intros Lt. destruct (H1 Lt) as [-> R]. apply nth_error_Some. lia. }
  pose proof (W (List.length r)) as W1. pose proof (W (Z.to_nat (count s n))) as W2. lia.
Qed.
Lemma slice_composed {B} s s' (l r r' : list B) : (0 < by_ s)%Z -> (0 < by_ s')%Z ->
  slice_list s l = Some r -> slice_list s' r = Some r' ->
  slice_list (composed (Z.of_nat (List.length l)) s s') l = Some r'.
Proof.
  intros P P' E E'. set (n := Z.of_nat (List.length l)) in *.
  pose proof (slice_length s l r P E) as L. fold n in L.
  destruct (slice_list_pos s l P) as (x & Ex & H). rewrite E in Ex. injection Ex as <-. fold n in H.
  destruct (slice_list_pos s' r P') as (x & Ex & H'). rewrite E' in Ex. injection Ex as <-. rewrite L in H'.
  set (m := count s n) in *. set (c := composed n s s').
  assert (Pc : by_ c = (by_ s * by_ s')%Z) by reflexivity.
  destruct (slice_list_pos c l ltac:(rewrite Pc; nia)) as (x & Ex & Hc). rewrite Ex. f_equal.
  fold n in Hc. rewrite Pc in Hc.
  assert (Hm : (0 <= m)%Z) by lia. assert (Hn : (0 <= n)%Z) by lia.
  pose proof (first_last_range s n Hn) as R. pose proof (first_last_range s' m Hm) as R'.
  assert (Fc : first c n = Z.min (first s n + first s' m * by_ s) n).
  { unfold first at 1, c, composed, start, pos. fold m. destruct (Z.ltb_spec (first s n + first s' m * by_ s) 0); [nia|reflexivity]. }
  assert (Lc : last c n = Z.min (first s n + last s' m * by_ s) n).
  { unfold last at 1, c, composed, stop, pos. fold m. destruct (Z.ltb_spec (first s n + last s' m * by_ s) 0); [nia|reflexivity]. }
  rewrite Fc, Lc in Hc. clear Fc Lc Ex.
  apply nth_error_ext. intros i. destruct (Hc i) as [C1 C2], (H' i) as [B1 B2].
  unfold before in *.
  destruct (Z.ltb_spec (by_ s * by_ s') 0); [nia|]. destruct (Z.ltb_spec (by_ s') 0); [lia|].
  destruct (Z.lt_ge_cases (first s' m + Z.of_nat i * by_ s') (last s' m)) as [Lt|Ge].
  - destruct (B1 Lt) as [-> Rng]. set (k := Z.to_nat (first s' m + Z.of_nat i * by_ s')) in *.
    assert (Hk : Z.of_nat k = (first s' m + Z.of_nat i * by_ s')%Z) by lia.
    assert (Km : (Z.of_nat k < m)%Z) by lia.
    apply count_lt in Km; [|lia|lia].
    destruct (H k) as [A1 _]. unfold before in A1. destruct (Z.ltb_spec (by_ s) 0); [lia|].
    destruct (A1 Km) as [-> RngA]. fold n in RngA.
    assert (LtF : (first s' m < m)%Z) by nia. apply count_lt in LtF; [|lia|lia].
    rewrite Z.min_l in C1 by lia.
    assert (Eq : (first s n + first s' m * by_ s + Z.of_nat i * (by_ s * by_ s') = first s n + Z.of_nat k * by_ s)%Z)
      by (rewrite Hk; ring).
    rewrite Eq in C1. apply C1. apply Z.min_glb_lt; [|lia]. rewrite Hk. nia.
  - rewrite B2 by lia. apply C2. intros Lt. apply Z.min_glb_lt_iff in Lt as [L1 L2].
    destruct (Z.le_gt_cases n (first s n + first s' m * by_ s)); [rewrite Z.min_r in L2 by lia; nia|].
    rewrite Z.min_l in L1 by lia. assert ((first s' m + Z.of_nat i * by_ s') * by_ s < last s' m * by_ s)%Z by lia. nia.
Qed.
Lemma item_list_spec {B} i (l : list B) : let n := Z.of_nat (List.length l) in
  ((- n <= i < n)%Z -> exists x, item_list i l = Some x /\ nth_error l (Z.to_nat (i mod n)) = Some x) /\
  (~ (- n <= i < n)%Z -> item_list i l = None).
Proof.
  intros n. unfold item_list. fold n. destruct (Z.leb_spec (- n) i), (Z.ltb_spec i n); cbn [andb].
  2,3,4: split; [lia|reflexivity].
  split; [intros _|lia].
  assert (M : (i mod n)%Z = if (i <? 0)%Z then (i + n)%Z else i).
  { destruct (Z.ltb_spec i 0); [rewrite <- (Z_mod_plus_full i 1 n), Z.mul_1_l|]; apply Z.mod_small; lia. }
  rewrite <- M. destruct (nth_error l (Z.to_nat (i mod n))) eqn:E; [eauto|].
  apply nth_error_None in E. pose proof (Z.mod_pos_bound i n ltac:(lia)). lia.
Qed.
Lemma slice_rev {B} (l : list B) : slice_list (Slice None None (Some (-1)%Z)) l = Some (rev l).
Proof.
  destruct (slice_list_spec (Slice None None (Some (-1)%Z)) l (Z.of_nat (List.length l) - 1) (-1) (-1) eq_refl)
    as (r & E & H). rewrite E. f_equal. apply nth_error_ext. intros i. destruct (H i) as [H1 H2].
  unfold before in *. change (-1 <? 0)%Z with true in *. cbv iota in *.
  destruct (Nat.lt_ge_cases i (List.length l)) as [Lt|Ge].
  - destruct H1 as [-> _]; [lia|].
    assert (Lr : i < List.length (rev l)) by (rewrite rev_length; lia).
    destruct l as [|x0 l0] eqn:El; [cbn in Lt; lia|]. rewrite <- El in *.
    rewrite (nth_error_nth' l x0) by lia. rewrite (nth_error_nth' (rev l) x0) by assumption.
    f_equal. rewrite rev_nth by assumption. f_equal. lia.
  - rewrite H2 by lia. symmetry. apply nth_error_None. rewrite rev_length. lia.
Qed.

(** ** __getitem__ *)
Section Objects.
Context {A X T : Type}.
Variable mul : T -> Z -> T.
Notation obj := (obj A X T).
Notation val := (val A X T).

Lemma mem_In a l : mem a l = true <-> In a l.
Proof.
  unfold mem. rewrite existsb_exists. split.
  - intros (b & Hb & E). apply String.eqb_eq in E. now subst.
  - intros H. exists a. rewrite String.eqb_refl. auto.
Qed.
Lemma mem_false a l : mem a l = false <-> ~ In a l.
Proof. rewrite <- mem_In. destruct (mem a l); split; congruence. Qed.

Definition item (self : obj) (wt : bool) (cut : list A -> option val) (a : string) : option val :=
  if negb wt && mem a attrs_only_traj then None else
  match self a with
  | None => None
  | Some v => if mem a attrs_nstep
              then match v with Arr l => if nstep_is self l then cut l else None | _ => None end
              else Some v
  end.
Lemma fold_none (self : obj) wt cut : forall l, fold_left (getitem_step self wt cut) l None = None.
Proof. induction l; [reflexivity|assumption]. Qed.
Lemma loop_spec (self : obj) wt cut : forall l o0 o,
  fold_left (getitem_step self wt cut) l (Some o0) = Some o ->
  forall a, (mem a l = false -> o a = o0 a) /\
            (mem a l = true -> o a = item self wt cut a \/ (o a = o0 a /\ item self wt cut a = None)).
Proof.
  induction l as [|b l IH]; intros o0 o E a.
  - injection E as <-. split; [reflexivity|discriminate].
  - cbn [fold_left] in E. destruct (getitem_step self wt cut (Some o0) b) as [o1|] eqn:S; [|rewrite fold_none in E; discriminate].
    specialize (IH o1 o E a) as [I1 I2].
    assert (W : o1 a = if b =? a then (if mem a l then o1 a else o1 a) else o0 a).
    { destruct (String.eqb_spec b a) as [->|N]; [destruct (mem a l); reflexivity|].
      unfold getitem_step in S. destruct (negb wt && mem b attrs_only_traj); [injection S as <-; reflexivity|].
      assert (F : forall v, setattr o0 b v a = o0 a) by (intros; unfold setattr; destruct (String.eqb_spec b a); congruence).
      destruct (self b) as [v|]; [|injection S as <-; apply F].
      destruct (mem b attrs_nstep); [|injection S as <-; apply F].
      destruct v; try (injection S as <-; reflexivity).
      destruct (nstep_is self l0); [|injection S as <-; reflexivity].
      destruct (cut l0); [injection S as <-; apply F|discriminate]. }
    assert (W2 : b = a -> o1 a = item self wt cut a \/ (o1 a = o0 a /\ item self wt cut a = None)).
    { intros ->. unfold getitem_step in S. unfold item. destruct (negb wt && mem a attrs_only_traj); [injection S as <-; auto|].
      assert (F : forall v, setattr o0 a v a = v) by (intros; unfold setattr; rewrite String.eqb_refl; reflexivity).
      destruct (self a) as [v|]; [|injection S as <-; left; apply F].
      destruct (mem a attrs_nstep); [|injection S as <-; left; apply F].
      destruct v; try (injection S as <-; auto).
      destruct (nstep_is self l0); [|injection S as <-; auto].
      destruct (cut l0); [injection S as <-; left; apply F|discriminate]. }
    unfold mem in *. cbn [existsb]. rewrite String.eqb_sym in W.
    destruct (String.eqb_spec a b) as [E2|N]; cbn [orb].
    + split; [discriminate|]. intros _. destruct (existsb (String.eqb a) l) eqn:M.
      * destruct (I2 eq_refl) as [H|[H H']]; [auto|]. rewrite H, H'. destruct (W2 (eq_sym E2)) as [H2|[H2 _]]; [left; congruence|auto].
      * rewrite (I1 eq_refl). apply W2. now symmetry.
    + split; intros M.
      * rewrite (I1 M). exact W.
      * rewrite <- W. apply I2. exact M.
Qed.
Lemma loop_done (self : obj) wt cut : forall l,
  (forall a x, In a l -> negb wt && mem a attrs_only_traj = false -> In a attrs_nstep -> self a = Some (Arr x) ->
     nstep_is self x = true -> cut x <> None) ->
  forall o0, exists o, fold_left (getitem_step self wt cut) l (Some o0) = Some o.
Proof.
  induction l as [|b l IH]; intros H o0; [eexists; reflexivity|].
  cbn [fold_left]. assert (S : exists o1, getitem_step self wt cut (Some o0) b = Some o1).
  { unfold getitem_step. destruct (negb wt && mem b attrs_only_traj) eqn:E; [eauto|]. destruct (self b) as [v|] eqn:Ev; [|eauto].
    destruct (mem b attrs_nstep) eqn:M; [|eauto]. destruct v; eauto. destruct (nstep_is self l0) eqn:N; [|eauto].
    destruct (cut l0) eqn:C; [eauto|]. exfalso. apply (H b l0); auto; [left; reflexivity|]. apply mem_In, M. }
  destruct S as (o1 & ->). apply IH. intros a x Ha. apply H. right. exact Ha.
Qed.
Lemma getitem_loop_spec (self : obj) wt cut :
  (forall a x, negb wt && mem a attrs_only_traj = false -> In a attrs_nstep -> self a = Some (Arr x) ->
     nstep_is self x = true -> cut x <> None) ->
  exists o, getitem_loop self wt cut = Some o /\
    forall a, o a = if mem a (attr_lst true) then item self wt cut a else None.
Proof.
  intros H. unfold getitem_loop. destruct (loop_done self wt cut (attr_lst true) (fun a x _ => H a x) none) as (o & E).
  exists o. split; [exact E|]. intros a. destruct (loop_spec self wt cut _ _ _ E a) as [L1 L2].
  destruct (mem a (attr_lst true)); [|apply L1; reflexivity].
  destruct (L2 eq_refl) as [R|[R R']]; [exact R|]. rewrite R, R'. reflexivity.
Qed.
Lemma step_raises (self : obj) wt cut : forall l a x,
  In a l -> negb wt && mem a attrs_only_traj = false -> In a attrs_nstep -> self a = Some (Arr x) ->
  nstep_is self x = true -> cut x = None -> forall o, fold_left (getitem_step self wt cut) l (Some o) = None.
Proof.
  induction l as [|b l IH]; intros a x Ha H1 H2 H3 H4 H5 o; [destruct Ha|]. cbn [fold_left].
  destruct (getitem_step self wt cut (Some o) b) as [o1|] eqn:S; [|apply fold_none].
  destruct Ha as [->|Ha]; [|exact (IH a x Ha H1 H2 H3 H4 H5 o1)].
  exfalso. unfold getitem_step in S. rewrite H1, H3 in S. apply mem_In in H2. rewrite H2, H4, H5 in S. discriminate.
Qed.

Lemma nstep_whole n (tr : obj) : whole n tr -> forall l, nstep_is tr l = true <-> List.length l = n.
Proof. intros (E & _) l. unfold nstep_is. rewrite E, Z.eqb_eq. lia. Qed.
Lemma nstep_attrs : forall a, In a attrs_nstep -> In a (attr_lst true).
Proof. intros a H. apply mem_In. revert a H. apply Forall_forall. repeat constructor. Qed.

(** tr[i] *)
Lemma getitem_int_spec n (tr : obj) i : whole n tr -> (- Z.of_nat n <= i < Z.of_nat n)%Z ->
  exists st, getitem_int tr i = Some st /\
    (forall a, In a attrs_nstep -> ~ In a attrs_only_traj ->
       st a = match row tr a (Z.to_nat (i mod Z.of_nat n)) with Some r => Some (Row r) | None => None end /\
       (tr a <> None -> st a <> None)) /\
    (forall a, In a attrs_only_traj -> st a = None) /\
    (forall a, In a (attr_lst true) -> ~ In a attrs_nstep -> ~ In a attrs_only_traj -> st a = tr a).
Proof.
  intros W Hi. unfold getitem_int.
  destruct (getitem_loop_spec tr false (fun l => option_map Row (item_list i l))) as (st & E & H).
  { intros a x _ Ha Ex N. apply (nstep_whole n tr W) in N.
    destruct (item_list_spec i x) as [I _]. rewrite N in I. destruct (I Hi) as (y & -> & _). discriminate. }
  exists st. split; [exact E|]. split; [|split].
  - intros a Ha Hn. rewrite H. rewrite (proj2 (mem_In _ _) (nstep_attrs a Ha)). unfold item.
    rewrite (proj2 (mem_false _ _) Hn), (proj2 (mem_In _ _) Ha). cbn [negb andb].
    destruct W as (W1 & W2 & W3). destruct (W2 a Ha) as [Ea|(l & Ea & El)]; unfold row; rewrite Ea; [split; [reflexivity|congruence]|].
    rewrite (proj2 (nstep_whole n tr (conj W1 (conj W2 W3)) l) El).
    destruct (item_list_spec i l) as [I _]. rewrite El in I. destruct (I Hi) as (y & -> & Ey).
    rewrite Ey. split; [reflexivity|discriminate].
  - intros a Ha. rewrite H. unfold item. rewrite (proj2 (mem_In _ _) Ha). destruct (mem a (attr_lst true)); reflexivity.
  - intros a Ha Hn Ho. rewrite H. rewrite (proj2 (mem_In _ _) Ha). unfold item.
    rewrite (proj2 (mem_false _ _) Hn), (proj2 (mem_false _ _) Ho). cbn [negb andb]. destruct (tr a); reflexivity.
Qed.
Lemma getitem_int_outside n (tr : obj) i : whole n tr -> ~ (- Z.of_nat n <= i < Z.of_nat n)%Z -> getitem_int tr i = None.
Proof.
  intros W Hi. unfold getitem_int, getitem_loop.
  assert (P : exists a l, In a ["coords"; "coords_frac"] /\ tr a = Some (Arr l) /\ List.length l = n).
  { destruct W as (_ & W2 & [W3|W3] & _).
    - destruct (W2 "coords") as [|(l & E & L)]; [left; reflexivity|contradiction|]. exists "coords", l. repeat split; auto. left. reflexivity.
    - destruct (W2 "coords_frac") as [|(l & E & L)]; [right; left; reflexivity|contradiction|]. exists "coords_frac", l. repeat split; auto. right. left. reflexivity. }
  destruct P as (a & l & Ha & Ea & El).
  assert (Hn : In a attrs_nstep) by (destruct Ha as [<-|[<-|[]]]; [left|right; left]; reflexivity).
  refine (step_raises tr false _ (attr_lst true) a l (nstep_attrs a Hn) _ Hn Ea _ _ none).
  - destruct Ha as [<-|[<-|[]]]; reflexivity.
  - apply (nstep_whole n tr W), El.
  - destruct (item_list_spec i l) as [_ I]. rewrite El in I. rewrite (I Hi). reflexivity.
Qed.

(** tr[a:b:s] *)
Lemma getitem_slice_gen n (tr : obj) s : whole n tr -> (forall B (l : list B), List.length l = n -> slice_list s l <> None) ->
  exists tr', getitem_slice mul tr s = Some tr' /\
    (forall a, In a attrs_nstep -> tr' a = match tr a with Some (Arr l) => option_map Arr (slice_list s l) | _ => None end) /\
    (forall a, In a (attr_lst true) -> ~ In a attrs_nstep -> a <> "nstep" -> a <> "timestep" -> tr' a = tr a) /\
    tr' "nstep" = get_nstep tr' /\
    tr' "timestep" = match tr "timestep" with Some (Num t) => Some (Num (mul t (by_ s))) | v => v end.
Proof.
  intros W NZ. destruct (getitem_loop_spec tr true (fun l => option_map Arr (slice_list s l))) as (o & E & H).
  { intros a x _ _ _ N. apply (nstep_whole n tr W) in N. specialize (NZ A x N). destruct (slice_list s x); [discriminate|congruence]. }
  unfold getitem_slice. rewrite E. cbv zeta.
  set (o1 := setattr o "nstep" (get_nstep o)).
  assert (T1 : o1 "timestep" = tr "timestep").
  { unfold o1, setattr. cbn [String.eqb Ascii.eqb Bool.eqb]. rewrite H. cbn. unfold item. cbn. destruct (tr "timestep"); reflexivity. }
  assert (KEEP : forall t' , let o2 := setattr o1 "timestep" t' in
    (forall a, In a attrs_nstep -> o2 a = match tr a with Some (Arr l) => option_map Arr (slice_list s l) | _ => None end) /\
    (forall a, In a (attr_lst true) -> ~ In a attrs_nstep -> a <> "nstep" -> a <> "timestep" -> o2 a = tr a) /\
    o2 "nstep" = get_nstep o2 /\ o2 "timestep" = t').
  { intros t' o2. assert (Same : forall a, a <> "nstep" -> a <> "timestep" -> o2 a = o a).
    { intros a Ha1 Ha2. unfold o2, o1, setattr. destruct (String.eqb_spec "timestep" a); [congruence|].
      destruct (String.eqb_spec "nstep" a); [congruence|]. reflexivity. }
    split; [|split; [|split]].
    - intros a Ha. rewrite Same.
      + rewrite H, (proj2 (mem_In _ _) (nstep_attrs a Ha)). unfold item. rewrite (proj2 (mem_In _ _) Ha). cbn [negb andb].
        destruct W as (W1 & W2 & W3). destruct (W2 a Ha) as [Ea|(l & Ea & El)]; rewrite Ea; [reflexivity|].
        rewrite (proj2 (nstep_whole n tr (conj W1 (conj W2 W3)) l) El). reflexivity.
      + intros ->. revert Ha. apply mem_false. reflexivity.
      + intros ->. revert Ha. apply mem_false. reflexivity.
    - intros a Ha Hn H1 H2. rewrite (Same a H1 H2), H, (proj2 (mem_In _ _) Ha). unfold item.
      rewrite (proj2 (mem_false _ _) Hn). cbn. destruct (tr a); reflexivity.
    - reflexivity.
    - reflexivity. }
  rewrite T1. destruct W as (W1 & W2 & W3 & [Et|(t & Et)]); rewrite Et.
  - destruct (KEEP None) as (K1 & K2 & K3 & K4). exists o1.
    assert (Same : forall a, o1 a = setattr o1 "timestep" None a).
    { intros a. unfold setattr at 1. destruct (String.eqb_spec "timestep" a) as [<-|]; [rewrite T1, Et|]; reflexivity. }
    split; [reflexivity|]. split; [intros a Ha; rewrite Same; auto|]. split; [intros; rewrite Same; auto|]. split; [reflexivity|].
    rewrite T1. exact Et.
  - destruct (KEEP (Some (Num (mul t (by_ s))))) as (K1 & K2 & K3 & K4). eexists. split; [reflexivity|]. auto.
Qed.
Lemma get_nstep_of n (tr : obj) : whole n tr -> forall f (tr' : obj) m,
  (forall a, In a attrs_nstep -> tr' a = match tr a with Some (Arr l) => option_map Arr (f l) | _ => None end) ->
  (forall l : list A, List.length l = n -> exists r, f l = Some r /\ Z.of_nat (List.length r) = m) ->
  get_nstep tr' = Some (Int m) /\ (tr' "coords" <> None \/ tr' "coords_frac" <> None).
Proof.
  intros (_ & W2 & W3 & _) f tr' m H F. unfold get_nstep.
  pose proof (H "coords" (or_introl eq_refl)) as H1. pose proof (H "coords_frac" (or_intror (or_introl eq_refl))) as H2.
  destruct (W2 "coords" (or_introl eq_refl)) as [Ea|(l & Ea & El)].
  - rewrite Ea in H1. rewrite H1. destruct W3 as [W3|W3]; [congruence|].
    destruct (W2 "coords_frac" (or_intror (or_introl eq_refl))) as [|(l & Eb & El)]; [congruence|].
    rewrite Eb in H2. destruct (F l El) as (r & -> & L) in H2. rewrite H2. cbn. rewrite L. split; [reflexivity|right; discriminate].
  - rewrite Ea in H1. destruct (F l El) as (r & E & L). rewrite E in H1. rewrite H1. cbn. rewrite L. split; [reflexivity|left; discriminate].
Qed.
Lemma getitem_slice_pos n (tr : obj) s : whole n tr -> (0 < by_ s)%Z ->
  exists tr', getitem_slice mul tr s = Some tr' /\ whole (Z.to_nat (count s (Z.of_nat n))) tr' /\
    (forall a, In a attrs_nstep ->
       (tr a = None -> tr' a = None) /\
       (forall l, tr a = Some (Arr l) -> exists r, tr' a = Some (Arr r) /\
          is_slice l (first s (Z.of_nat n)) (last s (Z.of_nat n)) (by_ s) r)) /\
    (forall a, In a (attr_lst true) -> ~ In a attrs_nstep -> a <> "nstep" -> a <> "timestep" -> tr' a = tr a) /\
    tr' "timestep" = match tr "timestep" with Some (Num t) => Some (Num (mul t (by_ s))) | v => v end.
Proof.
  intros W P. assert (C : (0 <= count s (Z.of_nat n))%Z) by (unfold count; lia).
  destruct (getitem_slice_gen n tr s W) as (tr' & E & H1 & H2 & H3 & H4).
  { intros B l L. destruct (slice_list_pos s l P) as (r & -> & _). discriminate. }
  exists tr'. split; [exact E|]. split; [|split; [|split]]; auto.
  - destruct (get_nstep_of n tr W (slice_list s) tr' (count s (Z.of_nat n)) H1) as [N1 N2].
    { intros l L. destruct (slice_list_pos s l P) as (r & Er & _). exists r. split; [exact Er|].
      rewrite <- L. now apply slice_length. }
    split; [rewrite H3, N1, Z2Nat.id by exact C; reflexivity|]. split; [|split; [exact N2|]].
    + intros a Ha. rewrite (H1 a Ha). destruct W as (_ & W2 & _). destruct (W2 a Ha) as [->|(l & -> & L)]; [auto|]. right.
      destruct (slice_list_pos s l P) as (r & Er & _). rewrite Er. exists r. split; [reflexivity|].
      apply slice_length in Er; [|exact P]. rewrite L in Er. lia.
    + rewrite H4. destruct W as (_ & _ & _ & [->|(t & ->)]); [auto|right; eauto].
  - intros a Ha. rewrite (H1 a Ha). split; [intros ->; reflexivity|]. intros l El.
    assert (L : List.length l = n).
    { destruct W as (_ & W2 & _). destruct (W2 a Ha) as [N|(l' & E' & L')]; [congruence|].
      rewrite El in E'. injection E' as <-. exact L'. }
    rewrite El. destruct (slice_list_pos s l P) as (r & -> & R). rewrite L in R. exists r. split; [reflexivity|exact R].
Qed.
Lemma getitem_slice_twice n (tr : obj) s s' tr1 tr2 :
  (forall t d d', mul (mul t d) d' = mul t (d * d')%Z) ->
  whole n tr -> (0 < by_ s)%Z -> (0 < by_ s')%Z ->
  getitem_slice mul tr s = Some tr1 -> getitem_slice mul tr1 s' = Some tr2 ->
  exists tr3, getitem_slice mul tr (composed (Z.of_nat n) s s') = Some tr3 /\
    forall a, In a (attr_lst true) -> tr3 a = tr2 a.
Proof.
  intros M W P P' E1 E2.
  assert (NZ : forall s n, (0 < by_ s)%Z -> forall B (l : list B), List.length l = n -> slice_list s l <> None).
  { intros u m Pu B l L. destruct (slice_list_pos u l Pu) as (r & -> & _). discriminate. }
  destruct (getitem_slice_pos n tr s W P) as (x & Ex & W1 & _). rewrite E1 in Ex. injection Ex as <-.
  destruct (getitem_slice_gen n tr s W (NZ s n P)) as (x & Ex & A1 & A2 & A3 & A4). rewrite E1 in Ex. injection Ex as <-.
  destruct (getitem_slice_gen _ tr1 s' W1 (NZ s' _ P')) as (x & Ex & B1 & B2 & B3 & B4). rewrite E2 in Ex. injection Ex as <-.
  set (c := composed (Z.of_nat n) s s').
  assert (Pc : by_ c = (by_ s * by_ s')%Z) by reflexivity.
  assert (Pc' : (0 < by_ c)%Z) by (rewrite Pc; nia).
  destruct (getitem_slice_gen n tr c W (NZ c n Pc')) as (tr3 & E3 & C1 & C2 & C3 & C4).
  exists tr3. split; [exact E3|].
  assert (Same : forall a, In a attrs_nstep -> tr3 a = tr2 a).
  { intros a Ha. rewrite (C1 a Ha), (B1 a Ha), (A1 a Ha). destruct W as (_ & W2 & _).
    destruct (W2 a Ha) as [->|(l & -> & L)]; [reflexivity|].
    destruct (slice_list_pos s l P) as (r & Er & _). rewrite Er. cbn [option_map].
    destruct (slice_list_pos s' r P') as (r' & Er' & _). rewrite Er'.
    pose proof (slice_composed s s' l r r' P P' Er Er') as S. rewrite L in S. fold c in S. rewrite S. reflexivity. }
  intros a Ha. destruct (in_dec string_dec a attrs_nstep) as [I|I]; [auto|].
  destruct (string_dec a "nstep") as [->|N1].
  { rewrite C3, B3. unfold get_nstep. rewrite !Same by (apply mem_In; reflexivity). reflexivity. }
  destruct (string_dec a "timestep") as [->|N2].
  { rewrite C4, B4, A4. destruct W as (_ & _ & _ & [->|(t & ->)]); [reflexivity|]. rewrite M, Pc. reflexivity. }
  rewrite (C2 a Ha I N1 N2), (B2 a Ha I N1 N2), (A2 a Ha I N1 N2). reflexivity.
Qed.
Lemma getitem_reversed n (tr : obj) : whole n tr ->
  exists tr', getitem_slice mul tr (Slice None None (Some (-1)%Z)) = Some tr' /\ whole n tr' /\
    (forall a l, In a attrs_nstep -> tr a = Some (Arr l) -> tr' a = Some (Arr (rev l))) /\
    (forall t, tr "timestep" = Some (Num t) -> tr' "timestep" = Some (Num (mul t (-1)%Z))).
Proof.
  intros W. set (s := Slice None None (Some (-1)%Z)).
  destruct (getitem_slice_gen n tr s W) as (tr' & E & H1 & H2 & H3 & H4).
  { intros B l _. unfold s. rewrite slice_rev. discriminate. }
  assert (H1' : forall a, In a attrs_nstep -> tr' a = match tr a with Some (Arr l) => Some (Arr (rev l)) | _ => None end).
  { intros a Ha. rewrite (H1 a Ha). destruct (tr a) as [[l| | | |]|]; try reflexivity. unfold s. rewrite slice_rev. reflexivity. }
  exists tr'. split; [exact E|]. split; [|split].
  - destruct (get_nstep_of n tr W (slice_list s) tr' (Z.of_nat n) H1) as [N1 N2].
    { intros l L. exists (rev l). unfold s. rewrite slice_rev, rev_length, L. auto. }
    split; [rewrite H3; exact N1|]. destruct W as (W1 & W2 & W3 & W4). split; [|split; [exact N2|]].
    + intros a Ha. rewrite (H1' a Ha). destruct (W2 a Ha) as [->|(l & -> & L)]; [auto|]. right. exists (rev l).
      rewrite rev_length. auto.
    + rewrite H4. destruct W4 as [->|(t & ->)]; [auto|right; eauto].
  - intros a l Ha El. rewrite (H1' a Ha), El. reflexivity.
  - intros t Et. rewrite H4, Et. reflexivity.
Qed.
(** Arrays of another length are lost *)
Lemma getitem_lost n (tr : obj) s a l : tr "nstep" = Some (Int n) -> In a attrs_nstep -> tr a = Some (Arr l) ->
  Z.of_nat (List.length l) <> n -> (0 < by_ s)%Z ->
  exists tr', getitem_slice mul tr s = Some tr' /\ tr' a = None.
Proof.
  intros En Ha Ea L P. destruct (getitem_loop_spec tr true (fun l => option_map Arr (slice_list s l))) as (o & E & H).
  { intros b x _ _ _ _. destruct (slice_list_pos s x P) as (r & -> & _). discriminate. }
  assert (N1 : a <> "nstep") by (intros ->; revert Ha; apply mem_false; reflexivity).
  assert (N2 : a <> "timestep") by (intros ->; revert Ha; apply mem_false; reflexivity).
  assert (Oa : o a = None).
  { rewrite H. destruct (mem a (attr_lst true)); [|reflexivity]. unfold item. cbn [negb andb]. rewrite Ea.
    rewrite (proj2 (mem_In _ _) Ha). unfold nstep_is. rewrite En. destruct (Z.eqb_spec (Z.of_nat (List.length l)) n); [lia|reflexivity]. }
  assert (F : forall (o' : obj) b v, b <> a -> setattr o' b v a = o' a).
  { intros o' b v N. unfold setattr. destruct (String.eqb_spec b a); [congruence|reflexivity]. }
  unfold getitem_slice. rewrite E. cbv zeta. set (o1 := setattr o "nstep" (get_nstep o)).
  assert (O1 : o1 a = None) by (unfold o1; rewrite F; auto).
  destruct (o1 "timestep") as [[| | | |]|]; eexists; (split; [reflexivity|]); auto. rewrite F; auto.
Qed.
End Objects.

(** ** Iteration *)
Fixpoint nexts (nstep : Z) (k : nat) (index : Z) : list (option Z) * Z :=
  match k with
  | 0 => ([], index)
  | S k => let (r, index) := next nstep index in let (rs, index) := nexts nstep k index in (r :: rs, index)
  end.
Lemma next_state (n : nat) (j : nat) : j <= n ->
  next (Z.of_nat n) (Z.of_nat j - 1) =
    (if Nat.eqb j n then None else Some (Z.of_nat j), Z.of_nat (S j mod S n) - 1)%Z.
Proof.
  intros H. unfold next. replace (Z.of_nat j - 1 + 1)%Z with (Z.of_nat j) by lia.
  destruct (Z.eqb_spec (Z.of_nat j) (Z.of_nat n)) as [E|N], (Nat.eqb_spec j n) as [E'|N']; try lia.
  - subst. rewrite Nat.mod_same by lia. reflexivity.
  - rewrite Nat.mod_small by lia. f_equal. lia.
Qed.
Lemma nexts_spec (n : nat) : forall k j, j <= n ->
  nexts (Z.of_nat n) k (Z.of_nat j - 1) =
    (map (fun i => if Nat.eqb ((j + i) mod S n) n then None else Some (Z.of_nat ((j + i) mod S n))) (seq 0 k),
     Z.of_nat ((j + k) mod S n) - 1)%Z.
Proof.
  induction k as [|k IH]; intros j Hj; cbn [nexts].
  - rewrite Nat.add_0_r, Nat.mod_small by lia. reflexivity.
  - rewrite (next_state n j Hj).
    assert (B : S j mod S n <= n) by (pose proof (Nat.mod_upper_bound (S j) (S n)); lia).
    rewrite (IH _ B). cbn [seq map]. rewrite Nat.add_0_r, (Nat.mod_small j) by lia. f_equal.
    + f_equal. rewrite <- seq_shift, map_map. apply map_ext. intros i.
      rewrite Nat.add_mod_idemp_l by lia. replace (S j + i) with (j + S i) by lia. reflexivity.
    + rewrite Nat.add_mod_idemp_l by lia. replace (S j + k) with (j + S k) by lia. reflexivity.
Qed.
Lemma for_loop_all {S : Type} (n : nat) (body : Z -> S -> Z -> S * Z * bool) (f : Z -> S -> S) :
  (forall i s ix, body i s ix = (f i s, ix, true)) ->
  forall k j s fuel, j + k = n -> k < fuel ->
  for_loop (Z.of_nat n) body fuel s (Z.of_nat j - 1) =
    Some (fold_left (fun s i => f (Z.of_nat i) s) (seq j k) s, (-1)%Z).
Proof.
  intros B. induction k as [|k IH]; intros j s fuel Hj Hf; (destruct fuel as [|fuel]; [lia|]); cbn [for_loop].
  - rewrite next_state by lia. destruct (Nat.eqb_spec j n); [|lia]. replace (Datatypes.S j) with (Datatypes.S n) by lia.
    rewrite Nat.mod_same by lia. reflexivity.
  - rewrite next_state by lia. destruct (Nat.eqb_spec j n); [lia|]. rewrite B. rewrite Nat.mod_small by lia.
    rewrite IH by lia. reflexivity.
Qed.
(** A loop left in round k, and the next loop *)
Lemma for_loop_break {S : Type} (n k : nat) (body : Z -> S -> Z -> S * Z * bool) (f : Z -> S -> S) :
  (forall i s ix, body i s ix = (f i s, ix, negb (i =? Z.of_nat k)%Z)) -> k < n ->
  forall d j s fuel, j + d = k -> d < fuel ->
  for_loop (Z.of_nat n) body fuel s (Z.of_nat j - 1) =
    Some (fold_left (fun s i => f (Z.of_nat i) s) (seq j (Datatypes.S d)) s, Z.of_nat k).
Proof.
  intros B Hk. induction d as [|d IH]; intros j s fuel Hj Hf; (destruct fuel as [|fuel]; [lia|]); cbn [for_loop];
    rewrite next_state by lia; destruct (Nat.eqb_spec j n); try lia; rewrite B, Nat.mod_small by lia.
  - destruct (Z.eqb_spec (Z.of_nat j) (Z.of_nat k)); [|lia]. cbn [negb seq fold_left]. f_equal. f_equal. lia.
  - destruct (Z.eqb_spec (Z.of_nat j) (Z.of_nat k)); [lia|]. cbn [negb]. rewrite IH by lia. reflexivity.
Qed.
(** for a in tr: for b in tr: ... *)
Definition nested (n : Z) (inner_fuel : nat) (i : Z) (s : list Z * list Z) (ix : Z) : list Z * list Z * Z * bool :=
  match for_loop n (fun j s ix => ((s ++ [j])%list, ix, true)) inner_fuel (snd s) ix with
  | Some (inner, ix) => ((fst s ++ [i])%list, inner, ix, true)
  | None => ((fst s ++ [i])%list, snd s, ix, false)
  end.
Lemma nested_never_ends (n : nat) : 0 < n -> forall fuel s,
  for_loop (Z.of_nat n) (nested (Z.of_nat n) (S n)) fuel s (-1) = None.
Proof.
  intros Hn. induction fuel as [|fuel IH]; intros s; [reflexivity|]. cbn [for_loop].
  change (-1)%Z with (Z.of_nat 0 - 1)%Z. rewrite next_state by lia. destruct (Nat.eqb_spec 0 n); [lia|].
  unfold nested at 1. rewrite Nat.mod_small by lia.
  rewrite (for_loop_all n _ (fun j s => (s ++ [j])%list) (fun _ _ _ => eq_refl) (n - 1)) by lia.
  apply IH.
Qed.
