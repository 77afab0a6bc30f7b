From Coq Require Import List ZArith Reals Lra Lia Bool FinFun.
From Verif Require Import Vec3 Traj Scell ScellSpec.
From Verif Require TrajSpec TrajProofs.
Import ListNotations.

(** ** Ranges and the mask *)
Lemma in_range_list a b d k : d <> 0%Z -> In k (range a b d) <-> exists i, k = (a + Z.of_nat i * d)%Z /\ TrajSpec.before d k b.
Proof.
  intros Hd. unfold range. rewrite in_map_iff. split.
  - intros (i & <- & Hi). apply in_seq in Hi. exists i. split; [reflexivity|].
    apply TrajProofs.range_len_before; [exact Hd|lia].
  - intros (i & E & B). exists i. split; [auto|]. apply in_seq. rewrite E in B.
    apply TrajProofs.range_len_before in B; [lia|exact Hd].
Qed.
Lemma nodup_range a b d : d <> 0%Z -> NoDup (range a b d).
Proof. intros Hd. apply Injective_map_NoDup; [intros i j; nia|apply seq_NoDup]. Qed.
Lemma mkrange_in direc n k : In k (mkrange direc n) <-> in_range n k.
Proof.
  unfold mkrange, in_range. destruct direc, (Z.leb_spec 0 n); rewrite in_range_list by lia; unfold TrajSpec.before.
  - change (1 <? 0)%Z with false. split; [intros (i & -> & H1); lia|]. intros H1. exists (Z.to_nat k). lia.
  - change (-1 <? 0)%Z with true. split; [intros (i & -> & H1); lia|]. intros H1. exists (Z.to_nat (- k)). lia.
  - change (-1 <? 0)%Z with true. split; [intros (i & -> & H1); lia|]. intros H1. exists (Z.to_nat (n - 1 - k)). lia.
  - change (1 <? 0)%Z with false. split; [intros (i & -> & H1); lia|]. intros H1. exists (Z.to_nat (k - n - 1)). lia.
Qed.
Lemma mkrange_nodup direc n : NoDup (mkrange direc n).
Proof. unfold mkrange. destruct direc, (0 <=? n)%Z; apply nodup_range; lia. Qed.
Lemma mkrange_length direc n : List.length (mkrange direc n) = Z.abs_nat n.
Proof.
  unfold mkrange, range, range_len. destruct direc, (Z.leb_spec 0 n); rewrite map_length, seq_length;
    repeat match goal with
    | |- context [(1 <? 0)%Z] => change (1 <? 0)%Z with false; cbv iota
    | |- context [(-1 <? 0)%Z] => change (-1 <? 0)%Z with true; cbv iota
    | |- context [(?u <? ?v)%Z] => destruct (Z.ltb_spec u v)
    end; change (- -1)%Z with 1%Z; rewrite ?Z.div_1_r; lia.
Qed.
Lemma mkrange_rev n : mkrange false n = rev (mkrange true n).
Proof.
  apply TrajProofs.nth_error_ext. intros i.
  destruct (Nat.lt_ge_cases i (Z.abs_nat n)) as [L|G].
  2:{ rewrite (proj2 (nth_error_None _ i)), (proj2 (nth_error_None (rev _) i)); [reflexivity|rewrite rev_length|]; rewrite mkrange_length; lia. }
  rewrite (nth_error_nth' _ 0%Z) by (rewrite mkrange_length; lia).
  rewrite (nth_error_nth' _ 0%Z) by (rewrite rev_length, mkrange_length; lia). f_equal.
  rewrite rev_nth by (rewrite mkrange_length; lia). rewrite mkrange_length.
  assert (Q : forall a b d j, (j < List.length (range a b d))%nat -> nth j (range a b d) 0%Z = (a + Z.of_nat j * d)%Z).
  { intros a b d j Hj. unfold range in *. rewrite map_length, seq_length in Hj.
    rewrite (nth_indep _ _ ((fun i => (a + Z.of_nat i * d)%Z) 0%nat)) by (rewrite map_length, seq_length; exact Hj).
    rewrite (map_nth (fun i => (a + Z.of_nat i * d)%Z)), seq_nth by exact Hj. reflexivity. }
  pose proof (mkrange_length true n) as Lt. pose proof (mkrange_length false n) as Lf. unfold mkrange in *.
  destruct (Z.leb_spec 0 n); rewrite !Q by lia; lia.
Qed.
Lemma mask_in direc n1 n2 n3 m : In m (scell_mask direc n1 n2 n3) <-> in_block (n1, n2, n3) m.
Proof.
  destruct m as [[x y] z]. unfold scell_mask, in_block. rewrite in_flat_map. setoid_rewrite in_flat_map. setoid_rewrite in_map_iff. split.
  - intros (x' & Hx & y' & Hy & z' & E & Hz). injection E as -> -> ->. apply mkrange_in in Hx, Hy, Hz. auto.
  - intros (Hx & Hy & Hz). apply mkrange_in with (direc := direc) in Hx, Hy, Hz. eauto 10.
Qed.
Lemma nodup_app {A} (l l' : list A) : NoDup l -> NoDup l' -> (forall x, In x l -> ~ In x l') -> NoDup (l ++ l').
Proof.
  induction l as [|a l IH]; intros N N' D; [exact N'|]. inversion N; subst. cbn. constructor.
  - intros I. apply in_app_iff in I as [I|I]; [contradiction|]. apply (D a); [left; reflexivity|exact I].
  - apply IH; auto. intros x Hx. apply D. right. exact Hx.
Qed.
Lemma nodup_flat_map {A B} (f : A -> list B) : forall l, NoDup l -> (forall a, In a l -> NoDup (f a)) ->
  (forall a a' b, In a l -> In a' l -> In b (f a) -> In b (f a') -> a = a') -> NoDup (flat_map f l).
Proof.
  induction l as [|a l IH]; intros N H D; [constructor|]. inversion N; subst. cbn. apply nodup_app.
  - apply H. left. reflexivity.
  - apply IH; auto.
    + intros b Hb. apply H. right. exact Hb.
    + intros b b' c Hb Hb'. apply D; right; assumption.
  - intros x Hx I. apply in_flat_map in I as (b & Hb & Hx'). assert (a = b) by (apply (D a b x); auto; [left; reflexivity|right; exact Hb]).
    subst. contradiction.
Qed.
Lemma mask_nodup direc n1 n2 n3 : NoDup (scell_mask direc n1 n2 n3).
Proof.
  apply nodup_flat_map; [apply mkrange_nodup|..].
  - intros x _. apply nodup_flat_map; [apply mkrange_nodup|..].
    + intros y _. apply Injective_map_NoDup; [intros i j E; injection E; auto|apply mkrange_nodup].
    + intros y y' [[a b] c] _ _ H H'. apply in_map_iff in H as (? & E & _), H' as (? & E' & _). congruence.
  - intros x x' [[a b] c] _ _ H H'. apply in_flat_map in H as (? & _ & H), H' as (? & _ & H').
    apply in_map_iff in H as (? & E & _), H' as (? & E' & _). congruence.
Qed.
Lemma flat_map_length {A B} (f : A -> list B) n : (forall a, List.length (f a) = n) -> forall l, List.length (flat_map f l) = (List.length l * n)%nat.
Proof. intros H. induction l as [|a l IH]; [reflexivity|]. cbn. rewrite app_length, H, IH. lia. Qed.
Lemma mask_length direc n1 n2 n3 : List.length (scell_mask direc n1 n2 n3) = copies (n1, n2, n3).
Proof.
  unfold scell_mask, copies. rewrite (flat_map_length _ (Z.abs_nat n2 * Z.abs_nat n3)).
  - rewrite mkrange_length. lia.
  - intros x. rewrite (flat_map_length _ (Z.abs_nat n3)); [rewrite mkrange_length; reflexivity|].
    intros y. rewrite map_length, mkrange_length. reflexivity.
Qed.
Lemma rev_flat_map {A B} (f : A -> list B) : forall l, rev (flat_map f l) = flat_map (fun a => rev (f a)) (rev l).
Proof.
  induction l as [|a l IH]; [reflexivity|]. cbn [flat_map rev]. rewrite rev_app_distr, IH, flat_map_app. cbn. rewrite app_nil_r. reflexivity.
Qed.
Lemma mask_rev n1 n2 n3 : scell_mask false n1 n2 n3 = rev (scell_mask true n1 n2 n3).
Proof.
  unfold scell_mask. rewrite rev_flat_map, <- mkrange_rev. apply flat_map_ext. intros x.
  rewrite rev_flat_map, <- mkrange_rev. apply flat_map_ext. intros y. rewrite <- map_rev, <- mkrange_rev. reflexivity.
Qed.

(** ** Atoms *)
Lemma nth_error_concat {A B} (f : A -> list B) n : (forall a, List.length (f a) = n) -> forall l i j a b,
  nth_error l i = Some a -> nth_error (f a) j = Some b -> nth_error (List.concat (map f l)) (i * n + j) = Some b.
Proof.
  intros H. induction l as [|x l IH]; intros i j a b Ei Ej; [destruct i; discriminate|].
  destruct i as [|i]; cbn [map List.concat].
  - injection Ei as ->. rewrite nth_error_app1; [exact Ej|]. apply nth_error_Some. cbn. congruence.
  - rewrite nth_error_app2 by (rewrite H; lia). rewrite H. replace (S i * n + j - n)%nat with (i * n + j)%nat by lia. eauto.
Qed.
Lemma length_concat {A B} (f : A -> list B) n : (forall a, List.length (f a) = n) -> forall l, List.length (List.concat (map f l)) = (List.length l * n)%nat.
Proof. intros H l. rewrite <- flat_map_concat_map. apply flat_map_length, H. Qed.

Local Open Scope R_scope.
Lemma position_kept n1 n2 n3 v m c : nonzero (n1, n2, n3) ->
  vecmat (divide (n1, n2, n3) (shift v m)) (scale_cell (n1, n2, n3) c) = translated (vecmat v c) c m.
Proof.
  intros (H1 & H2 & H3). destruct m as [[x y] z]. apply not_0_IZR in H1, H2, H3.
  unfold vecmat, divide, shift, scale_cell, translated, vadd, scale. cbn. f_equal; field; auto.
Qed.

Section Cell.
Context {S : Type}.
Lemma inner_loop (v : vec) (s : S) : forall mask acc,
  fold_left (fun acc m => ((fst acc ++ [shift v m])%list, (snd acc ++ [s])%list)) mask acc =
    ((fst acc ++ map (shift v) mask)%list, (snd acc ++ repeat s (List.length mask))%list).
Proof.
  induction mask as [|m mask IH]; intros acc; cbn; [rewrite !app_nil_r; destruct acc; reflexivity|].
  rewrite IH. cbn. rewrite <- !app_assoc. reflexivity.
Qed.
Lemma sc_loop2_spec mask : forall (cs : list vec) (ss : list S) acc, List.length cs = List.length ss ->
  sc_loop2 (combine cs ss) mask acc =
    ((fst acc ++ sc_coords1 cs mask)%list, (snd acc ++ flat_map (fun s => repeat s (List.length mask)) ss)%list).
Proof.
  induction cs as [|v cs IH]; intros [|s ss] acc L; try discriminate.
  - cbn. rewrite !app_nil_r. destruct acc; reflexivity.
  - cbn [combine sc_loop2]. rewrite IH by (injection L; auto). rewrite inner_loop. cbn [fst snd].
    unfold sc_coords1. cbn. rewrite <- !app_assoc. reflexivity.
Qed.
Lemma methods_agree (st : struct S) dims direc : List.length (coords_frac st) = List.length (symbols st) ->
  scell st dims direc true = scell st dims direc false.
Proof. intros L. unfold scell. rewrite sc_loop2_spec by exact L. reflexivity. Qed.
Lemma scell_spec (st : struct S) n1 n2 n3 direc : nonzero (n1, n2, n3) ->
  List.length (coords_frac st) = List.length (symbols st) ->
  let dims := (n1, n2, n3) in let sc := scell st dims direc false in
  let mask := scell_mask direc n1 n2 n3 in
  List.length (coords_frac sc) = (List.length (coords_frac st) * copies dims)%nat /\
  List.length (symbols sc) = (List.length (coords_frac st) * copies dims)%nat /\
  List.length mask = copies dims /\
  forall i j v s m, nth_error (coords_frac st) i = Some v -> nth_error (symbols st) i = Some s -> nth_error mask j = Some m ->
    exists w, nth_error (coords_frac sc) (i * copies dims + j) = Some w /\
      nth_error (symbols sc) (i * copies dims + j) = Some s /\
      vecmat w (cell sc) = translated (vecmat v (cell st)) (cell st) m.
Proof.
  intros NZ L dims sc mask. pose proof (mask_length direc n1 n2 n3) as Lm. fold mask in Lm. fold dims in Lm.
  unfold sc, scell. fold dims mask. cbn [coords_frac symbols cell]. rewrite map_length. unfold sc_coords1.
  assert (LF : forall v, List.length (map (shift v) mask) = copies dims) by (intros; rewrite map_length; exact Lm).
  assert (LS : forall s : S, List.length (repeat s (List.length mask)) = copies dims) by (intros; rewrite repeat_length; exact Lm).
  rewrite (length_concat _ (copies dims)) by exact LF. rewrite (flat_map_length _ (copies dims)) by exact LS. rewrite <- L.
  repeat split; auto. intros i j v s m Ev Es Em. exists (divide dims (shift v m)). split; [|split].
  - apply map_nth_error. apply (nth_error_concat _ (copies dims) LF _ i j v); [exact Ev|]. apply map_nth_error, Em.
  - rewrite flat_map_concat_map. apply (nth_error_concat _ (copies dims) LS _ i j s); [exact Es|].
    assert (Lj : (j < List.length mask)%nat) by (apply nth_error_Some; congruence).
    rewrite (nth_error_nth' _ s) by (rewrite repeat_length; exact Lj). f_equal. apply nth_repeat.
  - apply position_kept, NZ.
Qed.
End Cell.

(** ** Voigt *)
Lemma voigt_round {A} (e : nat -> A) e' (v : nat -> A) i : (i < 6)%nat -> tensor2voigt A e (voigt2tensor A e' v) i = v i.
Proof. intros H. do 6 (destruct i as [|i]; [reflexivity|]). lia. Qed.
Lemma tensor_sym {A} (e : nat -> nat -> A) (v : nat -> A) : symmetric (voigt2tensor A e v).
Proof. intros i j Hi Hj. do 3 (destruct i as [|i]; [do 3 (destruct j as [|j]; [reflexivity|]); lia|]). lia. Qed.
Lemma tensor_round {A} (e : nat -> A) e' (t : nat -> nat -> A) :
  (forall i j, (i < 3)%nat -> (j < 3)%nat -> voigt2tensor A e' (tensor2voigt A e t) i j = t i j) <-> symmetric t.
Proof.
  split.
  - intros H i j Hi Hj. rewrite <- (H i j Hi Hj), <- (H j i Hj Hi). apply tensor_sym; assumption.
  - intros H i j Hi Hj. do 3 (destruct i as [|i]; [do 3 (destruct j as [|j]; [try reflexivity; apply H; lia|]); lia|]). lia.
Qed.
Lemma combine_nth_error {A B} : forall (l : list A) (l' : list B) k a b, nth_error l k = Some a -> nth_error l' k = Some b ->
  nth_error (combine l l') k = Some (a, b).
Proof.
  induction l as [|x l IH]; intros [|y l'] k a b; destruct k; cbn; try discriminate; [congruence|]. apply IH.
Qed.
Lemma voigt3d_round {A} (e : list (nat -> A)) e' (v : list (nat -> A)) :
  List.length e = List.length v -> List.length e' = List.length v ->
  let r := tensor2voigt3d A e (voigt2tensor3d A e' v) in
  List.length r = List.length v /\
  forall k x y i, nth_error v k = Some x -> nth_error r k = Some y -> (i < 6)%nat -> y i = x i.
Proof.
  intros L L' r. unfold r, tensor2voigt3d, voigt2tensor3d.
  split; [rewrite map_length, combine_length, map_length, combine_length; lia|].
  intros k x y i Ex Ey Hi.
  assert (Lk : (k < List.length v)%nat) by (apply nth_error_Some; congruence).
  destruct (nth_error e k) as [ek|] eqn:Ee; [|apply nth_error_None in Ee; lia].
  destruct (nth_error e' k) as [ek'|] eqn:Ee'; [|apply nth_error_None in Ee'; lia].
  pose proof (map_nth_error (fun ev => voigt2tensor A (fst ev) (snd ev)) _ _ (combine_nth_error _ _ k _ _ Ee' Ex)) as M.
  pose proof (map_nth_error (fun et => tensor2voigt A (fst et) (snd et)) _ _ (combine_nth_error _ _ k _ _ Ee M)) as M2.
  rewrite M2 in Ey. injection Ey as <-. cbn [fst snd]. apply voigt_round, Hi.
Qed.
