(** C105 The surroundings of an atom as a structure. *)
From Coq Require Import List Reals Bool Arith String ZArith Lia Lra Sorting.Permutation Sorting.Sorted.
From Verif Require Import Vec3 WrapSpec Dist DistSpec DistProofs DistTraj Neigh NeighSpec NeighProofs P_Neigh Num NumProofs NeighStruct NeighStructSpec.
Import ListNotations.
Local Open Scope R_scope.

(** ** taking atoms with a mask *)
Lemma mask_take {A} (l : list A) (f : nat -> bool) k : 
  map fst (List.filter snd (combine l (map f (seq k (List.length l))))) =
  flat_map (fun j => match nth_error l (j - k) with Some x => [x] | None => [] end) (List.filter f (seq k (List.length l))).
Proof.
  revert k. induction l as [|a l IH]; intros k; [reflexivity|]. cbn [List.length seq map combine List.filter snd]. 
  assert (X : flat_map (fun j => match nth_error (a :: l) (j - k) with Some x => [x] | None => [] end) (List.filter f (seq (S k) (List.length l))) =
    map fst (List.filter snd (combine l (map f (seq (S k) (List.length l)))))).
  { rewrite IH, !flat_map_concat_map. f_equal. apply map_ext_in. intros j Hj. apply filter_In in Hj as [Hj _]. apply in_seq in Hj.
    replace (j - k)%nat with (S (j - S k)) by lia. reflexivity. }
  destruct (f k); cbn [map fst flat_map].
  - rewrite Nat.sub_diag. cbn [nth_error app]. now rewrite X.
  - now rewrite X.
Qed.
Lemma take_rel {A} (l : list A) (js : list nat) : (forall j, In j js -> (j < List.length l)%nat) ->
  Forall2 (fun j x => nth_error l j = Some x) js (flat_map (fun j => match nth_error l (j - 0) with Some x => [x] | None => [] end) js).
Proof.
  induction js as [|j js IH]; intros B; [constructor|]. cbn [flat_map]. rewrite Nat.sub_0_r.
  destruct (nth_error l j) eqn:E; [|apply nth_error_None in E; specialize (B j (or_introl eq_refl)); lia].
  cbn. constructor; [exact E|]. apply IH. intros; apply B; right; assumption.
Qed.
Lemma mask_fun (n : nat) (vals : list Z) :
  fst (match_mask (fun a v => (Z.of_nat a =? v)%Z) (seq 0 n) vals) = map (fun j => existsb (Z.eqb (Z.of_nat j)) vals) (seq 0 n).
Proof.
  pose proof (match_mask_spec (fun a v => (Z.of_nat a =? v)%Z) (seq 0 n) vals) as H.
  destruct (match_mask _ _ _) as [ret idx]. destruct H as (L & H & _). cbn [fst]. rewrite seq_length in L.
  apply (nth_ext _ _ false false); [now rewrite map_length, seq_length|]. intros i Hi. rewrite L in Hi.
  rewrite (nth_indep (map _ _) false (existsb (Z.eqb (Z.of_nat 0)) vals)) by (rewrite map_length, seq_length; lia).
  rewrite (map_nth (fun j => existsb (Z.eqb (Z.of_nat j)) vals) (seq 0 n) 0%nat), seq_nth by lia. cbn [Nat.add].
  apply eq_iff_eq_true. rewrite H, existsb_exists. split.
  - intros (a & v & E & I & M). exists v. split; [exact I|]. pose proof (nth_error_nth _ _ 0%nat E) as Q. rewrite seq_nth in Q by lia. cbn in Q. now subst a.
  - intros (v & I & M). exists i, v. repeat split; auto. rewrite (nth_error_nth' (seq 0 n) 0%nat) by (rewrite seq_length; lia).
    now rewrite seq_nth by lia.
Qed.
Lemma filter_seq_sorted (f : nat -> bool) n k : StronglySorted Nat.lt (List.filter f (seq k n)).
Proof.
  revert k. induction n as [|n IH]; intros k; [constructor|]. cbn. destruct (f k); [|apply IH]. constructor; [apply IH|].
  apply List.Forall_forall. intros x Hx. apply filter_In in Hx as [Hx _]. apply in_seq in Hx. unfold Nat.lt. lia.
Qed.
Definition picked (n : nat) (vals : list Z) : list nat := List.filter (fun j => existsb (Z.eqb (Z.of_nat j)) vals) (seq 0 n).
Lemma picked_in n vals j : In j (picked n vals) <-> (j < n)%nat /\ In (Z.of_nat j) vals.
Proof.
  unfold picked. rewrite filter_In, in_seq, existsb_exists. split.
  - intros [Hj (v & I & M)]. apply Z.eqb_eq in M. subst v. split; [lia|exact I].
  - intros [Hj I]. split; [lia|]. exists (Z.of_nat j). split; [exact I|apply Z.eqb_refl].
Qed.
Lemma part_of st vals : consistent st -> 
  let msk := fst (match_mask (fun a v => (Z.of_nat a =? v)%Z) (seq 0 (List.length (st_syms st))) vals) in
  is_part st (picked (List.length (st_syms st)) vals) (Struct (st_cell st) (take_mask (st_frac st) msk) (take_mask (st_syms st) msk)).
Proof.
  intros C. cbv zeta. rewrite mask_fun. unfold is_part, take_mask. cbn [st_cell st_frac st_syms]. split; [reflexivity|]. split.
  - rewrite <- C. rewrite mask_take. apply take_rel. intros j Hj. apply picked_in in Hj. lia.
  - rewrite mask_take. apply take_rel. intros j Hj. apply picked_in in Hj. lia.
Qed.

(** ** distances of the model and of the specification *)
Lemma apart_fun pbc st i j d d' : apart pbc st i j d -> apart pbc st i j d' -> d = d'.
Proof.
  intros (u & v & w & U & V & W & ->) (u' & v' & w' & U' & V' & W' & ->). rewrite U in U'. rewrite V in V'. injection U' as <-. injection V' as <-.
  now rewrite (between_unique _ _ _ _ _ _ W W').
Qed.
Lemma dist1d_apart s0 st pbc i j : consistent st -> (i < List.length (st_syms st))%nat -> (j < List.length (st_syms st))%nat ->
  apart pbc st j i (dist1d s0 st pbc i j).
Proof.
  intros C Hi Hj. unfold dist1d. rewrite dist_entry by assumption.
  exists (position st j), (position st i), (vecmat (frac_of pbc (position st j) (position st i)) (st_cell st)).
  split; [apply nth_error_nth'; rewrite C; exact Hj|]. split; [apply nth_error_nth'; rewrite C; exact Hi|]. split; [apply between_frac|reflexivity].
Qed.
Lemma apart_lt pbc st i j d : consistent st -> apart pbc st i j d -> (i < List.length (st_syms st))%nat /\ (j < List.length (st_syms st))%nat.
Proof.
  intros C (u & v & _ & U & V & _). rewrite <- C. split; apply nth_error_Some; congruence.
Qed.
Lemma apart_self pbc st i : consistent st -> (i < List.length (st_syms st))%nat -> apart pbc st i i 0.
Proof.
  intros C Hi. exists (position st i), (position st i), (Vec 0 0 0).
  assert (E : nth_error (st_frac st) i = Some (position st i)) by (apply nth_error_nth'; rewrite C; exact Hi).
  split; [exact E|]. split; [exact E|]. split.
  - exists (Vec 0 0 0). split; [|unfold vecmat, vadd, Vec3.scale; cbn; f_equal; ring].
    assert (Z0 : vsub (position st i) (position st i) = Vec 0 0 0) by (destruct (position st i); unfold vsub; cbn; f_equal; ring).
    rewrite Z0. destruct pbc; [|reflexivity]. unfold centred3, centred. cbn. repeat split; try lra; exists 0%Z; cbn; ring.
  - unfold norm, dot. cbn. replace (0 * 0 + 0 * 0 + 0 * 0) with 0 by ring. now rewrite sqrt_0.
Qed.
Lemma wanted_symbol st skip j : (j < List.length (st_syms st))%nat -> (wanted st skip j <-> ~ In (symbol st j) skip).
Proof.
  intros Hj. assert (E : nth_error (st_syms st) j = Some (symbol st j)) by (apply nth_error_nth'; exact Hj). split.
  - intros (s & Es & N). rewrite E in Es. now injection Es as ->.
  - intros N. exists (symbol st j). auto.
Qed.
Lemma at_index_pos n i : (i < n)%nat -> at_index n (Z.of_nat i) = Some i.
Proof.
  intros H. unfold at_index. destruct (Z.leb_spec 0 (Z.of_nat i)); [|lia]. destruct (Z.ltb_spec (Z.of_nat i) (Z.of_nat n)); [|lia]. cbn.
  now rewrite Nat2Z.id.
Qed.
Lemma at_index_neg n i : (i < n)%nat -> at_index n (Z.of_nat i - Z.of_nat n) = Some i.
Proof.
  intros H. unfold at_index. destruct (Z.leb_spec 0 (Z.of_nat i - Z.of_nat n)); [lia|]. cbn [andb].
  destruct (Z.leb_spec (- Z.of_nat n) (Z.of_nat i - Z.of_nat n)); [|lia]. destruct (Z.ltb_spec (Z.of_nat i - Z.of_nat n) 0); [|lia]. cbn [andb]. f_equal. lia.
Qed.
Lemma at_index_some n z k : at_index n z = Some k -> (k < n)%nat.
Proof.
  unfold at_index. destruct ((0 <=? z)%Z && (z <? Z.of_nat n)%Z) eqn:A; [|destruct ((- Z.of_nat n <=? z)%Z && (z <? 0)%Z) eqn:B; [|discriminate]].
  - apply andb_prop in A as [A1 A2]. apply Z.leb_le in A1. apply Z.ltb_lt in A2. intros [= <-]. lia.
  - apply andb_prop in B as [A1 A2]. apply Z.leb_le in A1. apply Z.ltb_lt in A2. intros [= <-]. lia.
Qed.
Lemma in_values ni i j : In (Z.of_nat j) (map Z.of_nat ni ++ [Z.of_nat i]) <-> j = i \/ In j ni.
Proof.
  rewrite in_app_iff, in_map_iff. cbn. split.
  - intros [(x & E & I)|[E|[]]]; [right|left]; [apply Nat2Z.inj in E; now subst|apply Nat2Z.inj in E; auto].
  - intros [->|I]; [right; auto|left; eauto].
Qed.

Section C105.
Variables (argsort : nat -> (nat -> R) -> list nat) (s0 : scratch).
Hypothesis ARG : forall n d, sorts n d (argsort n d).
Notation nns := (nearest_neighbors_struct argsort s0).

(** members do not depend on sort *)
Lemma unsort_in n r j : (forall i, In i r -> (i < n)%nat) -> (In j (unsort n r) <-> In j r).
Proof.
  intros B. unfold unsort. rewrite filter_In, in_seq, existsb_exists. split.
  - intros [_ (x & I & E)]. apply Nat.eqb_eq in E. now subst.
  - intros I. split; [specialize (B _ I); lia|]. exists j. split; [exact I|apply Nat.eqb_refl].
Qed.
Lemma cutoff_in st pbc k skip c sort r : consistent st -> (k < List.length (st_syms st))%nat ->
  nearest (List.length (st_syms st)) (dist1d s0 st pbc k) (symbol st) (argsort (List.length (st_syms st)) (dist1d s0 st pbc k)) None (Some c) skip sort = Some r ->
  forall j, In j r <-> wanted st skip j /\ exists d, apart pbc st j k d /\ 0 < d < c.
Proof.
  intros C Hk E.
  assert (X : forall j, In j (by_cutoff (dist1d s0 st pbc k) (symbol st) (argsort (List.length (st_syms st)) (dist1d s0 st pbc k)) skip c) <->
     wanted st skip j /\ exists d, apart pbc st j k d /\ 0 < d < c).
  { intros j. unfold by_cutoff. rewrite filter_In, (l_in _ _ _ (ARG _ _)), !andb_true_iff, !rlt_true, only_true. split.
    - intros (Hj & (D0 & Dc) & N). split; [now apply wanted_symbol|]. exists (dist1d s0 st pbc k j). split; [now apply dist1d_apart|auto].
    - intros (W & d & A & D0 & Dc). pose proof (apart_lt _ _ _ _ _ C A) as [Hj _].
      pose proof (apart_fun _ _ _ _ _ _ A (dist1d_apart s0 st pbc k j C Hk Hj)) as ->. repeat split; auto. now apply wanted_symbol in W. }
  destruct sort; cbn in E; injection E as <-; [exact X|]. intros j. rewrite unsort_in; [apply X|].
  intros i Hi. apply X in Hi as (_ & d & A & _). now apply (apart_lt _ _ _ _ _ C) in A.
Qed.

(** cutoff=c: the new structure has the atom idx and all wanted atoms closer than c (but not at
    the same place), in the order of the old one, with their positions and symbols, in the
    same cell *)
Theorem C105_cutoff st i skip c pbc sort : consistent st -> (i < List.length (st_syms st))%nat ->
  exists js st', nns st (Some (Z.of_nat i)) skip (Some c) None pbc sort false = Some st' /\ is_part st js st' /\ StronglySorted Nat.lt js /\
    forall j, In j js <-> j = i \/ (wanted st skip j /\ exists d, apart pbc st j i d /\ 0 < d < c).
Proof.
  intros C Hi. unfold nearest_neighbors_struct, nearest_neighbors. rewrite at_index_pos by exact Hi.
  match goal with |- context[match ?e with Some _ => _ | None => _ end] => destruct e as [ni|] eqn:E end; [|destruct sort; discriminate E].
  eexists _, _. split; [reflexivity|]. split; [apply part_of, C|]. split; [apply filter_seq_sorted|]. intros j.
  rewrite picked_in, in_values, (cutoff_in st pbc i skip c sort ni C Hi E j). split; [tauto|]. intros [->|H]; [auto|].
  split; [|auto]. destruct H as (_ & d & A & _). now apply (apart_lt _ _ _ _ _ C) in A.
Qed.
(** num=k: the atom idx and the k nearest of the wanted others *)
Theorem C105_num st i skip k pbc sort : consistent st -> wanted st skip i -> alone pbc st i ->
  exists js r dist st', nns st (Some (Z.of_nat i)) skip None (Some k) pbc sort false = Some st' /\ is_part st js st' /\ StronglySorted Nat.lt js /\
    (forall j, In j js <-> j = i \/ In j r) /\
    (forall j, (j < List.length (st_syms st))%nat -> apart pbc st j i (dist j)) /\
    k_nearest (List.length (st_syms st)) dist (fun j => j <> i /\ wanted st skip j) k r.
Proof.
  intros C W A. assert (Hi : (i < List.length (st_syms st))%nat) by (destruct W as (s & E & _); apply nth_error_Some; congruence).
  set (n := List.length (st_syms st)) in *. set (dist := dist1d s0 st pbc i).
  assert (CEN : central n dist i).
  { split; [exact Hi|]. split.
    - apply (apart_fun pbc st i i); [now apply dist1d_apart|now apply apart_self].
    - intros j Hj N. apply (A j); [exact N|]. now apply dist1d_apart. }
  assert (NS : ~ In (symbol st i) skip) by (now apply wanted_symbol).
  pose proof (by_num_spec n dist (symbol st) i (argsort n dist) (ARG n dist) skip CEN k NS) as [KN _].
  set (r := by_num (symbol st) (argsort n dist) skip k) in *.
  assert (KN' : k_nearest n dist (fun j => j <> i /\ wanted st skip j) k r).
  { destruct KN as (K1 & K2 & K3 & K4 & K5). split; [exact K1|]. split.
    - intros j Hj. destruct (K2 j Hj) as (L & D & N). split; [exact L|]. split; [exact D|]. now apply wanted_symbol.
    - split; [exact K3|]. split.
      + intros a b Ha Hb [D N]. apply K4; auto. split; [exact D|]. now apply wanted_symbol in N.
      + intros b Hb [D N]. apply K5; auto. split; [exact D|]. now apply wanted_symbol in N. }
  exists (picked n (map Z.of_nat (if sort then r else unsort n r) ++ [Z.of_nat i])), r, dist. eexists.
  unfold nearest_neighbors_struct, nearest_neighbors. fold n. rewrite at_index_pos by exact Hi. cbn [nearest]. fold dist. fold r.
  split; [reflexivity|]. split; [apply part_of, C|]. split; [apply filter_seq_sorted|]. split; [|split; [intros; now apply dist1d_apart|exact KN']].
  assert (B : forall j, In j r -> (j < n)%nat) by (intros j Hj; apply KN in Hj; tauto).
  assert (M : forall j, In j (if sort then r else unsort n r) <-> In j r) by (intros j; destruct sort; [tauto|apply unsort_in, B]).
  intros j. rewrite picked_in, in_values, M. split; [tauto|]. intros [->|H]; [auto|]. split; [now apply B|auto].
Qed.

(** the distances of atoms are not changed *)
Theorem C105_distances pbc st js st' p q i j d : is_part st js st' -> nth_error js p = Some i -> nth_error js q = Some j ->
  (apart pbc st' p q d <-> apart pbc st i j d).
Proof.
  intros (EC & F & _) P Q.
  assert (N : forall a b, nth_error js a = Some b -> nth_error (st_frac st') a = nth_error (st_frac st) b).
  { clear - F. intros a b H. revert a H. induction F as [|x y l l' X F IH]; intros [|a] H; try discriminate; [|now apply IH].
    cbn in *. injection H as <-. now rewrite X. }
  unfold apart. rewrite EC, (N p i P), (N q j Q). tauto.
Qed.
(** taking the surroundings again changes nothing *)
Theorem C105_again st i skip c pbc sort st' : consistent st -> (i < List.length (st_syms st))%nat ->
  nns st (Some (Z.of_nat i)) skip (Some c) None pbc sort false = Some st' ->
  exists p, nth_error (st_frac st') p = nth_error (st_frac st) i /\ nth_error (st_syms st') p = nth_error (st_syms st) i /\
    nns st' (Some (Z.of_nat p)) skip (Some c) None pbc sort false = Some st'.
Proof.
  intros C Hi E. destruct (C105_cutoff st i skip c pbc sort C Hi) as (js & st1 & E1 & PT & SRT & MEM). rewrite E in E1. injection E1 as <-.
  pose proof PT as (EC & FF & FS).
  assert (LEN : forall {A} (l : list A) (l' : list A), Forall2 (fun j v => nth_error l j = Some v) js l' -> List.length l' = List.length js)
    by (clear; intros A l l' F; induction F; cbn; congruence).
  assert (NTH : forall {A} (l : list A) (l' : list A), Forall2 (fun j v => nth_error l j = Some v) js l' ->
    forall a b, nth_error js a = Some b -> nth_error l' a = nth_error l b).
  { clear. intros A l l' F. induction F as [|x y m m' X F IH]; intros [|a] b H; try discriminate; [|now apply IH].
    cbn in *. injection H as <-. now rewrite X. }
  assert (C' : consistent st') by (unfold consistent; now rewrite (LEN _ _ _ FF), (LEN _ _ _ FS)).
  destruct (In_nth_error js i (proj2 (MEM i) (or_introl eq_refl))) as [p P]. exists p.
  split; [exact (NTH _ _ _ FF p i P)|]. split; [exact (NTH _ _ _ FS p i P)|].
  assert (Hp : (p < List.length (st_syms st'))%nat) by (rewrite (LEN _ _ _ FS); apply nth_error_Some; congruence).
  destruct (C105_cutoff st' p skip c pbc sort C' Hp) as (js2 & st2 & E2 & PT2 & SRT2 & MEM2). rewrite E2. f_equal.
  assert (ALL : js2 = seq 0 (List.length js)).
  { assert (IN : forall q, In q js2 <-> In q (seq 0 (List.length js))).
    { intros q. rewrite MEM2, in_seq. split.
      - intros [->|[(s & S1 & _) _]]; (split; [lia|]); cbn; [rewrite <- (LEN _ _ _ FS); exact Hp|].
        rewrite <- (LEN _ _ _ FS). apply nth_error_Some. congruence.
      - intros [_ Hq]. destruct (nth_error js q) as [j|] eqn:Q; [|apply nth_error_None in Q; cbn in Hq; lia].
        pose proof (proj1 (MEM j) (nth_error_In _ _ Q)) as [->|[(s & S1 & S2) (d & A & D)]].
        + left. assert (ND : NoDup js). { clear - SRT. induction SRT as [|a l S IH F]; constructor; [|exact IH]. intros I. rewrite List.Forall_forall in F. specialize (F a I). unfold Nat.lt in F. lia. }
          rewrite NoDup_nth_error in ND. apply ND; [cbn in Hq; lia|]. now rewrite P.
        + right. split; [exists s; split; [now rewrite (NTH _ _ _ FS q j Q)|exact S2]|].
          exists d. split; [|exact D]. apply (C105_distances pbc st js st' q p j i d PT Q P). exact A. }
    assert (ASC : forall n k, StronglySorted Nat.lt (seq k n)).
    { clear. intros n. induction n as [|n IH]; intros k; [constructor|]. cbn. constructor; [apply IH|]. apply List.Forall_forall. intros x Hx. apply in_seq in Hx. unfold Nat.lt. lia. }
    clear - IN SRT2 ASC. specialize (ASC (List.length js) 0%nat). revert IN SRT2 ASC. generalize (seq 0 (List.length js)). revert js2.
    induction js2 as [|a l IH]; intros [|b m] IN S1 S2; [reflexivity|exfalso; exact (proj2 (IN b) (or_introl eq_refl))|exfalso; exact (proj1 (IN a) (or_introl eq_refl))|].
    inversion S1 as [|? ? S1' F1]; inversion S2 as [|? ? S2' F2]; subst. rewrite List.Forall_forall in F1, F2. unfold Nat.lt in *.
    assert (a = b). { pose proof (proj1 (IN a) (or_introl eq_refl)) as [X|X]; [auto|]. pose proof (proj2 (IN b) (or_introl eq_refl)) as [Y|Y]; [auto|]. apply F2 in X. apply F1 in Y. lia. }
    subst b. f_equal. apply IH; auto. intros q. split; intros Hq.
    - pose proof (proj1 (IN q) (or_intror Hq)) as [->|X]; [apply F1 in Hq; lia|exact X].
    - pose proof (proj2 (IN q) (or_intror Hq)) as [->|X]; [apply F2 in Hq; lia|exact X]. }
  subst js2. destruct PT2 as (EC2 & FF2 & FS2).
  assert (SAME : forall {A} (l l' : list A) n, n = List.length l -> Forall2 (fun j v => nth_error l j = Some v) (seq 0 n) l' -> l' = l).
  { clear. intros A l l' n -> F.
    assert (G : forall k, Forall2 (fun j v => nth_error l (j - k) = Some v) (seq k (List.length l)) l' -> l' = l).
    { clear F. revert l'. induction l as [|a l IH]; intros l' k F; cbn in F; inversion F; subst; [reflexivity|].
      rewrite Nat.sub_diag in H1. cbn in H1. injection H1 as <-. f_equal. apply (IH _ (S k)).
      clear - H3. 
      assert (G : forall l0, (forall x, In x l0 -> (S k <= x)%nat) -> forall l2, Forall2 (fun j v => nth_error (a :: l) (j - k) = Some v) l0 l2 -> Forall2 (fun j v => nth_error l (j - S k) = Some v) l0 l2).
      { clear. intros l0 B l2 F. induction F as [|x y l0 l2 X F IH]; constructor.
        - specialize (B x (or_introl eq_refl)). replace (x - k)%nat with (S (x - S k)) in X by lia. exact X.
        - apply IH. intros; apply B; right; assumption. }
      apply G; [|exact H3]. intros x Hx. apply in_seq in Hx. lia. }
    apply (G 0%nat). revert F. generalize (seq 0 (List.length l)). intros s F. clear G. induction F as [|x y m m' X F IH]; [constructor|]. constructor; [now rewrite Nat.sub_0_r|exact IH]. }
  destruct st2 as [c2 f2 s2], st' as [c1 f1 s1]. cbn [st_cell st_frac st_syms] in *.
  rewrite EC2, (SAME _ _ _ _ (eq_sym (LEN _ _ _ FF)) FF2), (SAME _ _ _ _ (eq_sym (LEN _ _ _ FS)) FS2). reflexivity.
Qed.
(** an index from the end is understood by nearest_neighbors, but then the central atom is not in
    the result, although the documentation says so *)
Theorem C105_negative_refuted st i skip c pbc sort : consistent st -> (i < List.length (st_syms st))%nat ->
  exists js st', nns st (Some (Z.of_nat i - Z.of_nat (List.length (st_syms st)))%Z) skip (Some c) None pbc sort false = Some st' /\
    is_part st js st' /\ StronglySorted Nat.lt js /\ ~ In i js /\
    forall j, In j js <-> (wanted st skip j /\ exists d, apart pbc st j i d /\ 0 < d < c).
Proof.
  intros C Hi. unfold nearest_neighbors_struct, nearest_neighbors. rewrite at_index_neg by exact Hi.
  match goal with |- context[match ?e with Some _ => _ | None => _ end] => destruct e as [ni|] eqn:E end; [|destruct sort; discriminate E].
  eexists _, _. split; [reflexivity|]. split; [apply part_of, C|]. split; [apply filter_seq_sorted|].
  assert (M : forall j, In j (picked (List.length (st_syms st)) (map Z.of_nat ni ++ [(Z.of_nat i - Z.of_nat (List.length (st_syms st)))%Z])) <->
     (wanted st skip j /\ exists d, apart pbc st j i d /\ 0 < d < c)).
  { intros j. rewrite <- (cutoff_in st pbc i skip c sort ni C Hi E j), picked_in, in_app_iff, in_map_iff. cbn. split.
    - intros [_ [(x & X & I)|[X|[]]]]; [apply Nat2Z.inj in X; now subst|lia].
    - intros I. split; [|left; eauto]. apply (cutoff_in st pbc i skip c sort ni C Hi E j) in I as (_ & d & A & _). now apply (apart_lt _ _ _ _ _ C) in A. }
  split; [|exact M]. intros I. apply M in I as (_ & d & A & D & _).
  rewrite (apart_fun _ _ _ _ _ _ A (apart_self pbc st i C Hi)) in D. lra.
Qed.
(** when the call fails: no index (as in the documented example), an index which is not in the
    structure, both or none of num and cutoff, or fullout=True *)
Theorem C105_fails st idx skip cutoff num pbc sort fullout :
  nns st idx skip cutoff num pbc sort fullout = None <->
  idx = None \/ (exists z, idx = Some z /\ (z < - Z.of_nat (List.length (st_syms st)) \/ Z.of_nat (List.length (st_syms st)) <= z)%Z) \/
  (num = None <-> cutoff = None) \/ fullout = true.
Proof.
  unfold nearest_neighbors_struct, nearest_neighbors. destruct idx as [z|]; [|tauto]. set (n := List.length (st_syms st)).
  destruct (at_index n z) as [k|] eqn:A.
  - assert (R : ~ (z < - Z.of_nat n \/ Z.of_nat n <= z)%Z).
    { unfold at_index in A. destruct ((0 <=? z)%Z && (z <? Z.of_nat n)%Z) eqn:B; [|destruct ((- Z.of_nat n <=? z)%Z && (z <? 0)%Z) eqn:D; [|discriminate]].
      - apply andb_prop in B as [B1 B2]. apply Z.leb_le in B1. apply Z.ltb_lt in B2. lia.
      - apply andb_prop in D as [B1 B2]. apply Z.leb_le in B1. apply Z.ltb_lt in B2. lia. }
    destruct num as [m|], cutoff as [c|]; cbn [nearest].
    + split; [intros _; right; right; left; split; discriminate|reflexivity].
    + destruct fullout; [split; auto|]. split; [discriminate|]. intros [H|[(z' & [= <-] & H)|[H|H]]]; try discriminate; [tauto|]. exfalso. destruct H as [_ H]. discriminate (H eq_refl).
    + destruct fullout; [split; auto|]. split; [discriminate|]. intros [H|[(z' & [= <-] & H)|[H|H]]]; try discriminate; [tauto|]. exfalso. destruct H as [H _]. discriminate (H eq_refl).
    + split; [intros _; right; right; left; tauto|reflexivity].
  - split; [intros _|reflexivity]. right; left. exists z. split; [reflexivity|]. unfold at_index in A.
    destruct ((0 <=? z)%Z && (z <? Z.of_nat n)%Z) eqn:B; [discriminate|]. destruct ((- Z.of_nat n <=? z)%Z && (z <? 0)%Z) eqn:D; [discriminate|].
    apply andb_false_iff in B. apply andb_false_iff in D. rewrite Z.leb_gt, Z.ltb_ge in B, D. lia.
Qed.
End C105.

(** an argsort *)
Fixpoint ins105 (d : nat -> R) (a : nat) (l : list nat) : list nat :=
  match l with [] => [a] | b :: l' => if Rle_dec (d a) (d b) then a :: l else b :: ins105 d a l' end.
Definition argsort105 (n : nat) (d : nat -> R) : list nat := fold_right (ins105 d) [] (seq 0 n).
Lemma argsort105_ok n d : sorts n d (argsort105 n d).
Proof.
  unfold argsort105, sorts. generalize (seq 0 n). induction l as [|a l [P S]]; [split; constructor|]. cbn [fold_right].
  revert P S. generalize (fold_right (ins105 d) [] l). intros m P S. split.
  - transitivity (a :: m); [|now apply perm_skip]. clear. induction m as [|b m IH]; [reflexivity|]. cbn. destruct (Rle_dec (d a) (d b)); [reflexivity|].
    rewrite IH. apply perm_swap.
  - clear P. induction S as [|b m S IH H]; cbn; [repeat constructor|]. destruct (Rle_dec (d a) (d b)) as [L|L].
    + constructor; [constructor; assumption|constructor; exact L].
    + constructor; [exact IH|]. destruct m as [|x m]; cbn; [constructor; lra|]. destruct (Rle_dec (d a) (d x)); constructor; [lra|]. now inversion H.
Qed.
(** three atoms on a line in a cubic cell of length 10; the last is close to the first through
    the cell boundary *)
Definition line105 : struct := Struct (Mat (Vec 10 0 0) (Vec 0 10 0) (Vec 0 0 10)) [Vec 0 0 0; Vec (1/2) 0 0; Vec (9/10) 0 0] ["Na"; "Cl"; "Cl"]%string.
Example case105 : consistent line105 /\ wanted line105 [] 0 /\ alone true line105 0 /\ apart true line105 2 0 1 /\ apart true line105 1 0 5.
Proof.
  assert (A2 : apart true line105 2 0 1).
  { exists (Vec (9/10) 0 0), (Vec 0 0 0), (Vec (-1) 0 0). split; [reflexivity|]. split; [reflexivity|]. split.
    - exists (Vec (-1/10) 0 0). split; [|unfold vecmat, vadd, Vec3.scale; cbn; f_equal; field].
      unfold centred3, centred, vsub; cbn. repeat split; try lra; [exists (-1)%Z|exists 0%Z|exists 0%Z]; cbn; lra.
    - unfold norm, dot; cbn. replace (_ + _ + _) with 1 by ring. now rewrite sqrt_1. }
  assert (A1 : apart true line105 1 0 5).
  { exists (Vec (1/2) 0 0), (Vec 0 0 0), (Vec (-5) 0 0). split; [reflexivity|]. split; [reflexivity|]. split.
    - exists (Vec (-1/2) 0 0). split; [|unfold vecmat, vadd, Vec3.scale; cbn; f_equal; field].
      unfold centred3, centred, vsub; cbn. repeat split; try lra; [exists (-1)%Z|exists 0%Z|exists 0%Z]; cbn; lra.
    - unfold norm, dot; cbn. replace (_ + _ + _) with (Rsqr 5) by (unfold Rsqr; ring). rewrite sqrt_Rsqr; lra. }
  split; [reflexivity|]. split; [exists "Na"%string; split; [reflexivity|intros []]|]. split; [|auto].
  intros j d N A. destruct j as [|[|[|j]]]; [lia|rewrite (apart_fun _ _ _ _ _ _ A A1); lra|rewrite (apart_fun _ _ _ _ _ _ A A2); lra|].
  destruct A as (u & v & w & U & _). destruct j; discriminate U.
Qed.

Print Assumptions C105_cutoff. Print Assumptions C105_num. Print Assumptions C105_distances. Print Assumptions C105_again.
Print Assumptions C105_negative_refuted. Print Assumptions C105_fails.
