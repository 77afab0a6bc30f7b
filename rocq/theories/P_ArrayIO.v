(** C48: arrays in text files. *)
From Coq Require Import Ascii String List ZArith Bool Arith Lia.
From Verif Require Import Comb Traj Nd NdSpec NdProofs ArrayIO ArrayIOSpec ArrayIOProofs.
Import ListNotations.
Local Open Scope list_scope.
Local Open Scope nat_scope.
Local Notation length := List.length.

Lemma two_left (sh : list nat) k : length sh = 3 -> k < 3 -> exists c0 c1, remove k sh = [c0; c1].
Proof. intros L H. destruct sh as [|n0 [|n1 [|n2 [|]]]]; try discriminate. destruct k as [|[|[|k]]]; cbn; eauto. lia. Qed.

(** A three-dimensional array written along any axis is read back unchanged if its text has
    at least two rows and two columns, with the header or with shape and axis given. *)
Theorem C48_round_trip : forall (A : Type) (fmt : A -> pstr) parse junk (a : arr A) axis k header ax s,
  readable fmt parse -> length (shape a) = 3 -> axis_is 3 axis k ->
  source_info (shape a) axis header ax s ->
  2 <= text_rows (shape a) k -> 2 <= text_cols (shape a) k ->
  exists lines r, writetxt fmt a axis header = Some lines /\ readtxt parse junk lines ax s = Some r /\ same a r.
Proof.
  intros A fmt parse junk a axis k header ax s R L3 AX SI HR HC. pose proof AX as [Hk _].
  destruct (two_left _ _ L3 Hk) as (c0 & c1 & RM). unfold text_rows, text_cols in HR, HC. rewrite RM in HR, HC. cbn [nth] in HR, HC.
  set (n := nth k (shape a) 0) in *. eexists. 
  assert (NE : shape a <> []) by (intros E; rewrite E in L3; discriminate).
  destruct (readtxt_info fmt parse junk R (shape a) axis header ax s (all_rows a k c0 c1 n) NE ltac:(lia) SI) as [RD _].
  pose proof (all_rows_len a k c0 c1 n) as LR. pose proof (all_rows_width a k c0 c1 n) as W.
  assert (NR : all_rows a k c0 c1 n <> []) by (intros E; rewrite E in LR; cbn in LR; lia).
  specialize (RD NR). specialize (RD ltac:(eapply Forall_impl; [|exact W]; intros r Hr ->; cbn in Hr; lia)).
  destruct (loadtxt_rows fmt parse junk R (if header then header_lines (shape a) axis else []) (all_rows a k c0 c1 n) c1) as (x & EL); [destruct header; reflexivity|exact NR|lia|exact W|].
  rewrite EL, L3 in RD. cbn [Nat.leb] in RD. rewrite LR, squeeze_big in RD by lia.
  set (z := if (axis =? -1)%Z then (Z.of_nat 3 - 1)%Z else axis) in *.
  assert (AZ : axis_is 3 z k /\ z <> (-1)%Z).
  { unfold z. destruct (Z.eqb_spec axis (-1)) as [->|]; [|auto]. destruct AX as [_ AX]. split; [split; lia|lia]. }
  destruct AZ as [AZ NZ].
  destruct (arr3_back junk (Array [c0 * n; c1] (fun i => nth (nth 1 i 0) (nth (nth 0 i 0) (all_rows a k c0 c1 n) []) x)) (shape a) z k c0 c1
    (fun ind p => at_ a (insert k ind p)) L3 AZ NZ RM eq_refl) as (r & E3 & S & V).
  { intros ind p q H1 H2 H3. cbn [at_ nth]. unfold all_rows. rewrite (concat_nth _ c0) by (try assumption; intros; apply rows_len).
    cbn [Nat.add]. apply (rows_nth c0 c1 (fun i j => at_ a (insert k ind [i; j]))); assumption. }
  exists r. split; [apply writetxt_3d; eassumption|]. split; [fold n; rewrite RD; exact E3|]. split; [symmetry; exact S|].
  intros i Hi. rewrite V by exact Hi. rewrite insert_remove; [reflexivity|]. rewrite (index_len _ _ Hi). lia.
Qed.
Print Assumptions C48_round_trip.

(** One- and two-dimensional arrays come back without their axes of length one (so unchanged
    if there are none). *)
Theorem C48_flat : forall (A : Type) (fmt : A -> pstr) parse junk (a : arr A) axis header ax s,
  readable fmt parse -> length (shape a) = 1 \/ length (shape a) = 2 -> Forall (fun n => 0 < n) (shape a) ->
  source_info (shape a) axis header ax s ->
  exists lines r, writetxt fmt a axis header = Some lines /\ readtxt parse junk lines ax s = Some r /\ same_squeezed a r.
Proof.
  intros A fmt parse junk a axis header ax s R L P SI.
  assert (NE : shape a <> []) by (intros E; rewrite E in L; destruct L; discriminate).
  assert (K : exists r c f, savetxt fmt a = Some (lines_of fmt (rows_of r c f)) /\ 0 < r /\ 0 < c /\
    forall x, same_squeezed a (squeeze2 r c (fun i j => nth j (nth i (rows_of r c f) []) x))).
  { destruct (shape a) as [|n [|m [|]]] eqn:SH; cbn in L; try lia.
    - inversion P; subst. exists n, 1, (fun i _ => at_ a [i]). split; [apply savetxt_1d; exact SH|]. split; [assumption|]. split; [lia|]. intros x.
      unfold same_squeezed. rewrite SH. destruct n as [|[|n]]; [lia| |].
      + split; [reflexivity|]. intros i Hi. inversion Hi as [|i0 ? ? ? K1 K2]; subst. inversion K2; subst. cbn. replace i0 with 0 by lia. reflexivity.
      + split; [reflexivity|]. intros i Hi. inversion Hi as [|i0 ? ? ? K1 K2]; subst. inversion K2; subst.
        change (squeezed_index [S (S n)] [i0]) with [i0]. cbn [squeeze2 at_ nth]. rewrite rows_nth by lia. reflexivity.
    - inversion P as [|? ? P1 P2]; subst. inversion P2; subst. exists n, m, (fun i j => at_ a [i; j]). split; [apply savetxt_2d; exact SH|]. split; [assumption|]. split; [assumption|]. intros x.
      unfold same_squeezed. rewrite SH. destruct n as [|[|n]]; [lia| |]; (destruct m as [|[|m]]; [lia| |]); (split; [reflexivity|]);
        intros i Hi; inversion Hi as [|i0 ? ? ? K1 K2]; subst; inversion K2 as [|j0 ? ? ? K3 K4]; subst; inversion K4; subst.
      + replace i0 with 0 by lia. replace j0 with 0 by lia. reflexivity.
      + replace i0 with 0 by lia. change (squeezed_index [1; S (S m)] [0; j0]) with [j0]. cbn [squeeze2 at_ nth]. rewrite rows_nth by lia; reflexivity.
      + replace j0 with 0 by lia. change (squeezed_index [S (S n); 1] [i0; 0]) with [i0]. cbn [squeeze2 at_ nth]. rewrite rows_nth by lia; reflexivity.
      + change (squeezed_index [S (S n); S (S m)] [i0; j0]) with [i0; j0]. cbn [squeeze2 at_ nth]. rewrite rows_nth by lia; reflexivity. }
  destruct K as (r & c & f & E & Hr & Hc & SQ).
  assert (NR : rows_of r c f <> []) by (pose proof (rows_len r c f) as X; intros Y; rewrite Y in X; cbn in X; lia).
  destruct (readtxt_info fmt parse junk R (shape a) axis header ax s (rows_of r c f) NE ltac:(lia) SI) as [RD _].
  specialize (RD NR). specialize (RD ltac:(eapply Forall_impl; [|apply (rows_width r c f)]; intros q Hq ->; cbn in Hq; lia)).
  destruct (loadtxt_rows fmt parse junk R (if header then header_lines (shape a) axis else []) (rows_of r c f) c) as (x & EL);
    [destruct header; reflexivity|exact NR|assumption|apply rows_width|].
  rewrite EL, rows_len in RD. replace (length (shape a) <=? 2) with true in RD by (symmetry; apply Nat.leb_le; lia).
  eexists _, _. split; [unfold writetxt; rewrite E; destruct L as [-> | ->]; reflexivity|]. split; [exact RD|apply SQ].
Qed.
Print Assumptions C48_flat.

(** Three-dimensional arrays whose text has a single row or a single column cannot be read. *)
Theorem C48_single_line_fails : forall (A : Type) (fmt : A -> pstr) parse junk (a : arr A) axis k header ax s,
  readable fmt parse -> length (shape a) = 3 -> axis_is 3 axis k -> source_info (shape a) axis header ax s ->
  1 <= text_rows (shape a) k -> 1 <= text_cols (shape a) k -> text_rows (shape a) k = 1 \/ text_cols (shape a) k = 1 ->
  exists lines, writetxt fmt a axis header = Some lines /\ readtxt parse junk lines ax s = None.
Proof.
  intros A fmt parse junk a axis k header ax s R L3 AX SI HR HC H1. pose proof AX as [Hk _].
  destruct (two_left _ _ L3 Hk) as (c0 & c1 & RM). unfold text_rows, text_cols in *. rewrite RM in *. cbn [nth] in *.
  set (n := nth k (shape a) 0) in *. eexists. split; [apply writetxt_3d; eassumption|]. fold n.
  assert (NE : shape a <> []) by (intros E; rewrite E in L3; discriminate).
  destruct (readtxt_info fmt parse junk R (shape a) axis header ax s (all_rows a k c0 c1 n) NE ltac:(lia) SI) as [RD _].
  pose proof (all_rows_len a k c0 c1 n) as LR. pose proof (all_rows_width a k c0 c1 n) as W.
  assert (NR : all_rows a k c0 c1 n <> []) by (intros E; rewrite E in LR; cbn in LR; lia).
  specialize (RD NR). specialize (RD ltac:(eapply Forall_impl; [|exact W]; intros r Hr ->; cbn in Hr; lia)).
  destruct (loadtxt_rows fmt parse junk R (if header then header_lines (shape a) axis else []) (all_rows a k c0 c1 n) c1) as (x & EL); [destruct header; reflexivity|exact NR|lia|exact W|].
  rewrite EL, L3 in RD. cbn [Nat.leb] in RD. rewrite RD, LR. unfold arr2d_to_3d.
  pose proof (squeeze_small (c0 * n) c1 (fun i j => nth j (nth i (all_rows a k c0 c1 n) []) x) HR HC H1) as SM.
  destruct (shape (squeeze2 (c0 * n) c1 _)) as [|p [|q l]]; cbn in SM; try reflexivity; lia.
Qed.
Print Assumptions C48_single_line_fails.

(** Arrays without elements come back as array([]), whatever their shape. *)
Theorem C48_empty : forall (A : Type) (fmt : A -> pstr) parse junk (a : arr A) axis k header ax s,
  readable fmt parse -> length (shape a) = 3 /\ axis_is 3 axis k \/ length (shape a) = 1 \/ length (shape a) = 2 ->
  source_info (shape a) axis header ax s -> In 0 (shape a) ->
  exists lines r, writetxt fmt a axis header = Some lines /\ readtxt parse junk lines ax s = Some r /\ shape r = [0].
Proof.
  intros A fmt parse junk a axis k header ax s R L SI Z0.
  assert (NE : shape a <> []) by (intros E; rewrite E in Z0; destruct Z0).
  assert (K : exists rows, writetxt fmt a axis header = Some ((if header then header_lines (shape a) axis else []) ++ lines_of fmt rows) /\ Forall (fun r => r = []) rows).
  { assert (N0 : forall r c (f : nat -> nat -> A), r = 0 \/ c = 0 -> Forall (fun x => x = []) (rows_of r c f)).
    { intros r c f [-> | ->]; [constructor|]. apply Forall_forall. intros x H. apply in_map_iff in H. destruct H as (i & <- & _). reflexivity. }
    destruct L as [[L3 AX]|L].
    - pose proof AX as [Hk _]. destruct (two_left _ _ L3 Hk) as (c0 & c1 & RM). eexists. split; [apply writetxt_3d; eassumption|].
      set (n := nth k (shape a) 0) in *. assert (Z : c0 = 0 \/ c1 = 0 \/ n = 0).
      { unfold n. clear - Z0 RM L3 Hk. destruct (shape a) as [|n0 [|n1 [|n2 [|]]]]; try discriminate. destruct k as [|[|[|k]]]; [| | |lia]; cbn in *; injection RM as <- <-; lia. }
      unfold all_rows. apply Forall_forall. intros r H. apply in_concat in H. destruct H as (l & Hl & Hr). apply in_map_iff in Hl. destruct Hl as (ind & <- & Hi). apply in_seq in Hi.
      assert (F : Forall (fun x => x = []) (rows_of c0 c1 (fun i j => at_ a (insert k ind [i; j])))) by (apply N0; lia).
      rewrite Forall_forall in F. apply F. exact Hr.
    - unfold writetxt. destruct (shape a) as [|n [|m [|]]] eqn:S; cbn in L; try lia.
      + rewrite (savetxt_1d fmt a n S). eexists. split; [reflexivity|]. apply N0. cbn in Z0. lia.
      + rewrite (savetxt_2d fmt a n m S). eexists. split; [reflexivity|]. apply N0. cbn in Z0. lia. }
  destruct K as (rows & E & F). destruct (readtxt_info fmt parse junk R (shape a) axis header ax s rows NE ltac:(lia) SI) as [_ RD].
  eexists _, _. split; [exact E|]. split; [exact (RD F)|reflexivity].
Qed.
Print Assumptions C48_empty.

(** Anything else is refused by writetxt. *)
Theorem C48_refused : forall (A : Type) (fmt : A -> pstr) (a : arr A) axis header,
  length (shape a) = 0 \/ 3 < length (shape a) \/ (length (shape a) = 3 /\ bad_axis 3 axis) -> writetxt fmt a axis header = None.
Proof.
  intros A fmt a axis header H. unfold writetxt. destruct H as [H|[H|[H B]]].
  - rewrite H. unfold savetxt. destruct (shape a); [reflexivity|discriminate].
  - destruct (length (shape a)) as [|[|[|[|n]]]]; try lia. reflexivity.
  - rewrite H. apply norm_axis_none in B. rewrite B. reflexivity.
Qed.
Print Assumptions C48_refused.

(** A shape of more than three dimensions is refused by readtxt as well. *)
Theorem C48_refused_read : forall (A : Type) (parse : pstr -> option A) junk lines axis s, 3 < length s -> readtxt parse junk lines axis (Some s) = None.
Proof.
  intros A parse junk lines axis s H. unfold readtxt. assert (E : (3 <? length s) = true) by now apply Nat.ltb_lt.
  destruct axis as [z|]; [now rewrite E|]. destruct (read_header lines) as [cfg|]; [|reflexivity].
  destruct (match config_get cfg (text "array") (text "axis") with Some v => read_int (strip v) | None => None end); [now rewrite E|reflexivity].
Qed.
Print Assumptions C48_refused_read.

(** Integers written in decimal are a readable kind of number. *)
Example C48_readable : readable show_int read_int.
Proof.
  intros z. split; [apply read_show|]. split; [apply show_nonempty|]. intros c H. pose proof (show_chars z) as F. rewrite Forall_forall in F. apply F. exact H.
Qed.
(** A 2x3x2 array, written along the middle axis. *)
Definition demo : arr Z := Array [2; 3; 2] (fun i => Z.sub (Z.of_nat (100 * nth 0 i 0 + 10 * nth 1 i 0 + nth 2 i 0)) 50).
Example C48_case : axis_is 3 (-2) 1 /\ 2 <= text_rows (shape demo) 1 /\ 2 <= text_cols (shape demo) 1 /\ source_info (shape demo) (-2) true None None /\
  writetxt show_int demo (-2) true = Some (map text ["# [array]"; "# shape = 2 3 2"; "# axis = -2"; "# "; "-50 -49"; "50 51"; "-40 -39"; "60 61"; "-30 -29"; "70 71"])%string.
Proof. split; [split; [lia|right; reflexivity]|]. split; [cbn; lia|]. split; [cbn; lia|]. split; [left; auto|reflexivity]. Qed.
