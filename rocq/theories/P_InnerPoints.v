(** C109: the mask of inner points. *)
From Coq Require Import List Bool Arith Reals Lia Lra.
From Verif Require Import InnerPoints InnerPointsSpec.
Import ListNotations.
Local Open Scope list_scope.

Lemma put_is msk i m : put msk i = Some m -> i < length msk /\ length m = length msk /\ forall k, nth k m false = if k =? i then false else nth k msk false.
Proof.
  revert i m. induction msk as [|b msk IH]; intros [|i] m; cbn; intros H; try discriminate.
  - injection H as <-. split; [lia|]. split; [reflexivity|]. intros [|k]; reflexivity.
  - destruct (put msk i) as [m'|] eqn:E; [|discriminate]. injection H as <-. destruct (IH i m' E) as (A & B & C). split; [lia|]. split; [cbn; lia|]. intros [|k]; [reflexivity|]. apply C.
Qed.
Lemma put_some msk i : i < length msk -> exists m, put msk i = Some m.
Proof. revert i. induction msk as [|b msk IH]; intros [|i] L; cbn in *; try lia; [eexists; reflexivity|]. destruct (IH i) as (m & ->); [lia|]. eexists. reflexivity. Qed.
Lemma put_all_is idx : forall msk m, put_all msk idx = Some m -> Forall (fun i => i < length msk) idx /\ length m = length msk /\ forall k, nth k m false = true <-> nth k msk false = true /\ ~ In k idx.
Proof.
  induction idx as [|i idx IH]; intros msk m H; cbn in H.
  - injection H as <-. split; [constructor|]. split; [reflexivity|]. intros k. cbn. tauto.
  - destruct (put msk i) as [m'|] eqn:E; [|discriminate]. apply put_is in E as (A & B & C). apply IH in H as (D & F & G). rewrite B in D, F. split; [now constructor|]. split; [exact F|].
    intros k. rewrite G, C. cbn [In]. destruct (Nat.eqb_spec k i) as [-> |N]; [split; [intros [X _]; discriminate|intros [_ X]; exfalso; apply X; now left]|].
    split; intros [X Y]; (split; [exact X|]); [intros [Z|Z]; [congruence|tauto]|tauto].
Qed.
Lemma put_all_some idx : forall msk, Forall (fun i => i < length msk) idx -> exists m, put_all msk idx = Some m.
Proof.
  induction idx as [|i idx IH]; intros msk H; [eexists; reflexivity|]. inversion H as [|? ? L F]; subst. cbn. destruct (put_some msk i L) as (m & E). rewrite E. apply put_is in E as (_ & B & _). apply IH. now rewrite B.
Qed.
Lemma nth_true k n : nth k (repeat true n) false = true <-> k < n.
Proof. revert k. induction n as [|n IH]; intros [|k]; cbn; split; intros H; try lia; try discriminate; try reflexivity; [apply IH in H; lia|apply IH; lia]. Qed.
Lemma monotonic_is points : monotonic (map (hd 0%R) points) = true <-> ascending points.
Proof.
  unfold monotonic, ascending. induction points as [|p points IH]; [split; [intros _ i j L; cbn in L; lia|reflexivity]|].
  destruct points as [|q points]; [split; [intros _ i j L; cbn in L; replace i with 0 by lia; replace j with 0 by lia; apply Rle_refl|reflexivity]|].
  cbn [map diffs forallb] in *. rewrite andb_true_iff. rewrite IH. clear IH. split.
  - intros [D H] i j L. destruct (Rle_dec 0 (hd 0%R q - hd 0%R p)) as [LE|]; [|discriminate]. destruct j as [|j]; [replace i with 0 by lia; apply Rle_refl|].
    destruct i as [|i]; [|apply (H i j); cbn in L |- *; lia]. specialize (H 0 j ltac:(cbn in L |- *; lia)). unfold at_x in *. cbn [nth] in *. lra.
  - intros H. split.
    + specialize (H 0 1 ltac:(cbn; lia)). unfold at_x in H. cbn [nth] in H. destruct (Rle_dec 0 (hd 0%R q - hd 0%R p)); [reflexivity|lra].
    + intros i j L. apply (H (S i) (S j)). cbn in L |- *. lia.
Qed.

(** ** C109 *)
(** One dimension: the call returns exactly for at least one point, in ascending order, and the mask
    leaves out the first and the last. *)
Theorem C109_line hull points : (exists msk, inner_points_mask hull 1 points = Some msk) <-> points <> [] /\ ascending points.
Proof.
  unfold inner_points_mask. cbn [Nat.eqb]. rewrite <- monotonic_is. destruct (monotonic _).
  - split.
    + intros (m & H). apply put_all_is in H as (F & _). split; [|reflexivity]. intros ->. inversion F. cbn in *. lia.
    + intros [NE _]. apply put_all_some. assert (0 < length points) by (destruct points; [congruence|cbn; lia]). repeat constructor; rewrite repeat_length; lia.
  - split; [intros (m & H); discriminate|intros [_ H]; discriminate].
Qed.
Theorem C109_inner hull points msk : inner_points_mask hull 1 points = Some msk -> selects msk points (fun i => 0 < i < length points - 1).
Proof.
  unfold inner_points_mask. cbn [Nat.eqb]. destruct (monotonic _); [|discriminate]. intros H. apply put_all_is in H as (_ & L & N). rewrite repeat_length in L. split; [exact L|].
  intros i Hi. rewrite N, nth_true. cbn [In]. split; [intros [_ X]; lia|intros X; split; [lia|intros [Y|[Y|[]]]; lia]].
Qed.
(** Without ties what is left lies strictly between the ends. *)
Theorem C109_between hull points msk : strictly_ascending points -> inner_points_mask hull 1 points = Some msk ->
  selects msk points (fun i => (at_x points 0 < at_x points i < at_x points (length points - 1))%R).
Proof.
  intros S H. apply C109_inner in H as (L & N). split; [exact L|]. intros i Hi. rewrite (N i Hi). split.
  - intros X. split; apply S; lia.
  - intros [X Y]. destruct (Nat.eq_dec i 0) as [-> |]; [lra|]. destruct (Nat.eq_dec i (length points - 1)) as [-> |]; [lra|]. lia.
Qed.
(** With ties a point of the edge is left. *)
Theorem C109_ties_refuted hull : exists points msk, inner_points_mask hull 1 points = Some msk /\ ascending points /\
  exists i, nth i msk false = true /\ at_x points i = at_x points 0 /\ (at_x points 0 < at_x points (length points - 1))%R.
Proof.
  assert (A : ascending [[0%R]; [0%R]; [1%R]]). { intros i j [L M]. cbn in M. unfold at_x. destruct i as [|[|[|i]]], j as [|[|[|j]]]; cbn; try lra; lia. }
  destruct (proj2 (C109_line hull [[0%R]; [0%R]; [1%R]])) as (m & H); [split; [discriminate|exact A]|].
  exists [[0%R]; [0%R]; [1%R]], m. split; [exact H|]. split; [exact A|]. exists 1. apply C109_inner in H as (_ & N). split; [apply N; cbn; lia|]. unfold at_x. cbn. split; [reflexivity|lra].
Qed.
(** Other dimensions: the points in no simplex of the convex hull. *)
Theorem C109_hull hull ndim points : ndim <> 1 -> Forall (Forall (fun i => i < length points)) (hull points) ->
  exists msk, inner_points_mask hull ndim points = Some msk /\ selects msk points (fun i => forall simplex, In simplex (hull points) -> ~ In i simplex).
Proof.
  intros D F. unfold inner_points_mask. destruct (Nat.eqb_spec ndim 1) as [|_]; [contradiction|].
  destruct (put_all_some (nodup Nat.eq_dec (concat (hull points))) (repeat true (length points))) as (m & H).
  { rewrite repeat_length. apply Forall_forall. intros i I. apply nodup_In, in_concat in I as (s & Hs & I). rewrite Forall_forall in F. specialize (F s Hs). rewrite Forall_forall in F. now apply F. }
  exists m. split; [exact H|]. apply put_all_is in H as (_ & L & N). rewrite repeat_length in L. split; [exact L|]. intros i Hi. rewrite N, nth_true, nodup_In, in_concat. split.
  - intros [_ X] s Hs I. apply X. now exists s.
  - intros X. split; [exact Hi|]. intros (s & Hs & I). exact (X s Hs I).
Qed.
(** The hypotheses can be met: four points on a line; a triangle around a point. *)
Example case109 : strictly_ascending [[0%R]; [1%R]; [3%R]; [4%R]] /\ (exists msk, inner_points_mask (fun _ => []) 1 [[0%R]; [1%R]; [3%R]; [4%R]] = Some msk) /\
  inner_points_mask (fun _ => [[0; 1]; [1; 3]; [3; 0]]) 2 [[0%R; 0%R]; [4%R; 0%R]; [1%R; 1%R]; [0%R; 4%R]] = Some [false; false; true; false].
Proof.
  assert (S : strictly_ascending [[0%R]; [1%R]; [3%R]; [4%R]]). { intros i j [L M]. cbn in M. unfold at_x. destruct i as [|[|[|[|i]]]], j as [|[|[|[|j]]]]; cbn; try lra; lia. }
  split; [exact S|]. split; [|reflexivity]. apply C109_line. split; [discriminate|]. intros i j [L M]. destruct (Nat.eq_dec i j) as [-> |]; [apply Rle_refl|]. apply Rlt_le, S. lia.
Qed.
Print Assumptions C109_line.
Print Assumptions C109_inner.
Print Assumptions C109_between.
Print Assumptions C109_ties_refuted.
Print Assumptions C109_hull.
