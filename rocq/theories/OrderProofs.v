From Coq Require Import List Reals Lra Lia Bool Arith.
From Verif Require Import Num NumSpec.
Import ListNotations.
Local Open Scope R_scope.

Lemma argmin_from_spec : forall l pre best bi, (bi < List.length pre)%nat -> nth bi pre 0 = best ->
  (forall k, (k < List.length pre)%nat -> best <= nth k pre 0) ->
  let r := argmin_from best bi (List.length pre) l in let full := (pre ++ l)%list in
  (r < List.length full)%nat /\ forall k, (k < List.length full)%nat -> nth r full 0 <= nth k full 0.
Proof.
  induction l as [|x l IH]; intros pre best bi Hb E M; cbn [argmin_from].
  - rewrite app_nil_r. split; [exact Hb|]. intros k Hk. rewrite E. apply M, Hk.
  - assert (L : List.length (pre ++ [x]) = S (List.length pre)) by (rewrite app_length; cbn; lia).
    replace (pre ++ x :: l)%list with ((pre ++ [x]) ++ l)%list by (rewrite <- app_assoc; reflexivity). rewrite <- L.
    assert (X : nth (List.length pre) (pre ++ [x]) 0 = x) by (rewrite app_nth2, Nat.sub_diag by lia; reflexivity).
    assert (K : forall k, (k < List.length (pre ++ [x]))%nat -> (k < List.length pre)%nat /\ nth k (pre ++ [x]) 0 = nth k pre 0 \/ k = List.length pre).
    { intros k Hk. rewrite L in Hk. destruct (Nat.eq_dec k (List.length pre)) as [->|N]; [right; reflexivity|]. left. split; [lia|]. apply app_nth1. lia. }
    destruct (Rlt_dec x best) as [Lt|Ge]; apply IH.
    + rewrite L. lia.
    + exact X.
    + intros k Hk. destruct (K k Hk) as [[Lk ->]| ->]; [specialize (M k Lk); lra|rewrite X; lra].
    + rewrite L. lia.
    + rewrite app_nth1 by exact Hb. exact E.
    + intros k Hk. destruct (K k Hk) as [[Lk ->]| ->]; [apply M, Lk|rewrite X; lra].
Qed.
Lemma argmin_spec l : l <> [] -> (argmin l < List.length l)%nat /\ forall k, (k < List.length l)%nat -> nth (argmin l) l 0 <= nth k l 0.
Proof.
  intros N. destruct l as [|x l]; [contradiction|]. apply (argmin_from_spec l [x] x 0); cbn; auto.
  intros [|k] Hk; [cbn; lra|lia].
Qed.
Definition pick (next : list R) (ref : R) : R := nth (argmin (map (fun x => Rabs (x - ref)) next)) next 0.
Lemma pick_spec next ref : next <> [] -> In (pick next ref) next /\ forall x, In x next -> Rabs (pick next ref - ref) <= Rabs (x - ref).
Proof.
  intros N. unfold pick. set (d := map (fun x => Rabs (x - ref)) next).
  assert (Nd_ : d <> []) by (unfold d; destruct next; [contradiction|discriminate]). destruct (argmin_spec d Nd_) as [L M].
  assert (Ld : List.length d = List.length next) by (unfold d; apply map_length).
  assert (Q : forall k, (k < List.length next)%nat -> nth k d 0 = Rabs (nth k next 0 - ref)).
  { intros k Hk. unfold d. rewrite (nth_indep _ 0 ((fun x => Rabs (x - ref)) 0)) by (rewrite map_length; exact Hk). apply (map_nth (fun x => Rabs (x - ref))). }
  split; [apply nth_In; lia|]. intros x Hx. apply (In_nth _ _ 0) in Hx as (k & Hk & <-).
  specialize (M k ltac:(lia)). rewrite !Q in M by lia. exact M.
Qed.
(** a branch of the if applies in row ii *)
Definition applies (order ii : nat) : bool := Nat.eqb ii 0 || (Nat.eqb ii 1 && (1 <=? order)%nat) || ((2 <=? ii)%nat && Nat.eqb order 2).
Lemma new_ref_applies order ii done jj ref : applies order ii = true -> new_ref order ii done jj ref = new_ref order ii done jj 0.
Proof. unfold applies, new_ref. destruct (Nat.eqb ii 0), (Nat.eqb ii 1 && (1 <=? order)%nat), ((2 <=? ii)%nat && Nat.eqb order 2); intros; try discriminate; reflexivity. Qed.
Lemma new_ref_stale order ii done jj ref : applies order ii = false -> new_ref order ii done jj ref = ref.
Proof. unfold applies, new_ref. destruct (Nat.eqb ii 0), (Nat.eqb ii 1 && (1 <=? order)%nat), ((2 <=? ii)%nat && Nat.eqb order 2); intros; try discriminate; reflexivity. Qed.
Lemma row_loop_applies order ii done next : applies order ii = true -> forall jjs ref acc,
  fst (row_loop order ii done next jjs ref acc) = (acc ++ map (fun jj => pick next (new_ref order ii done jj 0)) jjs)%list.
Proof.
  intros A. induction jjs as [|jj jjs IH]; intros ref acc; cbn [row_loop map]; [rewrite app_nil_r; reflexivity|].
  rewrite IH. rewrite (new_ref_applies order ii done jj ref A), <- app_assoc. reflexivity.
Qed.
Lemma row_loop_stale order ii done next : applies order ii = false -> forall jjs ref acc,
  row_loop order ii done next jjs ref acc = ((acc ++ map (fun _ => pick next ref) jjs)%list, ref).
Proof.
  intros A. induction jjs as [|jj jjs IH]; intros ref acc; cbn [row_loop map]; [rewrite app_nil_r; reflexivity|].
  rewrite IH. rewrite (new_ref_stale order ii done jj ref A), <- app_assoc. reflexivity.
Qed.
(** rows_loop returns the rows done so far, then one row for every row of the rest *)
Lemma rows_loop_app order nj : forall rest ii done ref, exists rows, rows_loop order nj ii done rest ref = (rev done ++ rows)%list /\
  List.length rows = List.length rest /\
  (forall k next, nth_error rest k = Some next -> next <> [] -> exists row, nth_error rows k = Some row /\ List.length row = nj /\ forall x, In x row -> In x next).
Proof.
  induction rest as [|next rest IH]; intros ii done ref; cbn [rows_loop].
  - exists []. rewrite app_nil_r. repeat split; auto. intros [|k]; discriminate.
  - destruct (row_loop order ii done next (seq 0 nj) ref []) as [row ref'] eqn:E.
    destruct (IH (S ii) (row :: done) ref') as (rows & R & L & H). exists (row :: rows). cbn [rev] in R. rewrite <- app_assoc in R. cbn in R.
    split; [exact R|]. split; [cbn; lia|]. intros [|k] n' E' N; [|apply (H k n' E' N)]. injection E' as <-. exists row. split; [reflexivity|].
    destruct (applies order ii) eqn:A.
    + pose proof (row_loop_applies order ii done next A (seq 0 nj) ref []) as F. rewrite E in F. cbn in F. subst row.
      split; [rewrite map_length, seq_length; reflexivity|]. intros x Hx. apply in_map_iff in Hx as (jj & <- & _). apply pick_spec, N.
    + rewrite (row_loop_stale order ii done next A) in E. injection E as <- _.
      cbn. split; [rewrite map_length, seq_length; reflexivity|]. intros x Hx. apply in_map_iff in Hx as (jj & <- & _). apply pick_spec, N.
Qed.
Lemma order_values arr order r0 rest : arr = r0 :: rest -> r0 <> [] -> (order <= 2)%nat -> Forall (fun r => List.length r = List.length r0) arr ->
  exists arr2, order_similar arr 1 order = Some arr2 /\ List.length arr2 = List.length arr /\ nth_error arr2 0 = Some r0 /\
    forall k row, nth_error arr k = Some row -> exists row2, nth_error arr2 k = Some row2 /\ List.length row2 = List.length row /\ forall x, In x row2 -> In x row.
Proof.
  intros -> N O F. cbn [order_similar]. destruct (Nat.ltb_spec 2 order); [lia|].
  destruct (rows_loop_app order (List.length r0) rest 0 [r0] 0) as (rows & R & L & H1). eexists. split; [reflexivity|]. rewrite R. cbn [rev app].
  split; [cbn; lia|]. split; [reflexivity|]. intros [|k] row E.
  - injection E as <-. exists r0. auto.
  - cbn in E. apply Forall_inv_tail in F. rewrite Forall_forall in F. pose proof (F row (nth_error_In _ _ E)) as Lr.
    destruct (H1 k row E) as (row2 & E2 & L2 & I2); [intros ->; destruct r0; [contradiction|discriminate]|]. exists row2. rewrite Lr. auto.
Qed.
Lemma order_repeat : forall n arr order, (order <= 2)%nat -> order_similar arr (S (S n)) order = order_similar arr 1 2.
Proof.
  induction n as [|n IH]; intros arr order O.
  - cbn [order_similar]. destruct (Nat.ltb_spec 2 order); [lia|]. reflexivity.
  - change (order_similar arr (S (S (S n))) order) with (if (2 <? order)%nat then None else order_similar arr (S (S n)) 2).
    destruct (Nat.ltb_spec 2 order); [lia|]. apply IH. lia.
Qed.
Lemma rows_loop_stale order nj : forall rest ii done ref, (forall i, (ii <= i)%nat -> applies order i = false) ->
  rows_loop order nj ii done rest ref = (rev done ++ map (fun next => repeat (pick next ref) nj) rest)%list.
Proof.
  induction rest as [|next rest IH]; intros ii done ref A; cbn [rows_loop map]; [rewrite app_nil_r; reflexivity|].
  rewrite (row_loop_stale order ii done next (A ii (Nat.le_refl _))). rewrite IH by (intros; apply A; lia). cbn [rev app]. rewrite <- app_assoc. cbn.
  f_equal. f_equal. clear. generalize 0%nat as s. induction nj as [|nj IH]; intros s; cbn; [reflexivity|]. f_equal. apply IH.
Qed.
Lemma order_stale arr order arr2 : (order < 2)%nat -> order_similar arr 1 order = Some arr2 ->
  exists ref, forall k, (2 + order <= k)%nat -> forall row row2, nth_error arr k = Some row -> nth_error arr2 k = Some row2 ->
    row2 = repeat (pick row ref) (List.length (nth 0 arr [])).
Proof.
  intros O E. cbn [order_similar] in E. destruct (Nat.ltb_spec 2 order); [lia|]. destruct arr as [|r0 rest]; [discriminate|]. injection E as <-.
  cbn [nth]. set (nj := List.length r0).
  assert (ST : forall i, (S order <= i)%nat -> applies order i = false).
  { intros i Hi. unfold applies. destruct (Nat.eqb_spec i 0); [lia|]. destruct (Nat.eqb_spec order 2); [lia|].
    destruct (Nat.eqb_spec i 1), (Nat.leb_spec 1 order), (Nat.leb_spec 2 i); cbn; try reflexivity; lia. }
  destruct rest as [|r1 rest].
  { exists 0. intros [|[|k]] Hk row row2 E1 E2; [lia|lia|]. destruct k; discriminate. }
  assert (M : forall (f : list R -> list R) (l : list (list R)) k row row2, nth_error l k = Some row -> nth_error (map f l) k = Some row2 -> row2 = f row).
  { intros f l k row row2 E1 E2. rewrite (map_nth_error f k l E1) in E2. congruence. }
  cbn [rows_loop]. destruct (row_loop order 0 [r0] r1 (seq 0 nj) 0 []) as [row1 ref1]. destruct order as [|[|order]]; [| |lia].
  - exists ref1. rewrite rows_loop_stale by exact ST. cbn [rev app]. intros k Hk row row2 E1 E2. destruct k as [|[|k]]; [lia|lia|].
    cbn [nth_error] in E1, E2. exact (M (fun row => repeat (pick row ref1) nj) _ _ _ _ E1 E2).
  - destruct rest as [|r2 rest]; [exists 0; intros [|[|k]] Hk row row2 E1 E2; [lia|lia|]; destruct k; discriminate|].
    cbn [rows_loop]. destruct (row_loop 1 1 [row1; r0] r2 (seq 0 nj) ref1 []) as [row2_ ref2]. exists ref2. rewrite rows_loop_stale by exact ST.
    cbn [rev app]. intros k Hk row row2 E1 E2. destruct k as [|[|[|k]]]; [lia|lia|lia|].
    cbn [nth_error] in E1, E2. exact (M (fun row => repeat (pick row ref2) nj) _ _ _ _ E1 E2).
Qed.
(** ** streams that can be followed *)
Definition stream_row (t : nat -> nat -> R) (nj i : nat) : list R := map (t i) (seq 0 nj).
Lemma stream_nth t nj i j : (j < nj)%nat -> nth j (stream_row t nj i) 0 = t i j.
Proof.
  intros H. unfold stream_row. rewrite (nth_indep _ 0 (t i 0%nat)) by (rewrite map_length, seq_length; exact H).
  rewrite map_nth, seq_nth by exact H. reflexivity.
Qed.
Lemma new_ref_stream t nj done i j : (forall k, (k <= i)%nat -> nth k done [] = stream_row t nj (i - k)) -> (j < nj)%nat ->
  new_ref 2 i done j 0 = extrapolated t i j.
Proof.
  intros D L. unfold new_ref, extrapolated. destruct i as [|[|i]]; cbn [Nat.eqb andb Nat.leb].
  - rewrite (D 0%nat) by lia. apply stream_nth, L.
  - rewrite (D 0%nat), (D 1%nat) by lia. cbn [Nat.sub]. rewrite !stream_nth by exact L. reflexivity.
  - rewrite (D 0%nat), (D 1%nat), (D 2%nat) by lia. replace (S (S i) - 0)%nat with (S (S i)) by lia. replace (S (S i) - 1)%nat with (S i) by lia.
    replace (S (S i) - 2)%nat with i by lia. rewrite !stream_nth by exact L. reflexivity.
Qed.
Lemma pick_followed t i j row : followed t i j row -> pick row (extrapolated t i j) = t (S i) j.
Proof.
  intros [I M]. assert (N : row <> []) by (intros ->; destruct I). destruct (pick_spec row (extrapolated t i j) N) as [P1 P2].
  destruct (M _ P1) as [E|Lt]; [exact E|]. specialize (P2 _ I). lra.
Qed.
Lemma rows_loop_stream t nj : forall rest i done ref,
  (forall k, (k <= i)%nat -> nth k done [] = stream_row t nj (i - k)) ->
  (forall k row, nth_error rest k = Some row -> forall j, (j < nj)%nat -> followed t (i + k) j row) ->
  rows_loop 2 nj i done rest ref = (rev done ++ map (stream_row t nj) (seq (S i) (List.length rest)))%list.
Proof.
  induction rest as [|next rest IH]; intros i done ref D F; cbn [rows_loop List.length seq map]; [rewrite app_nil_r; reflexivity|].
  assert (A : applies 2 i = true) by (unfold applies; destruct i as [|[|i]]; reflexivity).
  destruct (row_loop 2 i done next (seq 0 nj) ref []) as [row ref'] eqn:E.
  pose proof (row_loop_applies 2 i done next A (seq 0 nj) ref []) as G. rewrite E in G. cbn [fst app] in G.
  assert (R : row = stream_row t nj (S i)).
  { rewrite G. unfold stream_row. apply map_ext_in. intros j Hj. apply in_seq in Hj. rewrite (new_ref_stream t nj) by (try exact D; lia).
    apply pick_followed. replace i with (i + 0)%nat by lia. apply F; [reflexivity|lia]. }
  subst row. rewrite R. rewrite IH.
  - cbn [rev]. rewrite <- app_assoc. reflexivity.
  - intros [|k] Hk; cbn [nth Nat.sub]; [reflexivity|]. rewrite D by lia. reflexivity.
  - intros k row Ek j Hj. replace (S i + k)%nat with (i + S k)%nat by lia. apply F; [exact Ek|exact Hj].
Qed.
Lemma order_streams t nj arr rest : (0 < nj)%nat -> arr = stream_row t nj 0 :: rest ->
  (forall k row, nth_error rest k = Some row -> forall j, (j < nj)%nat -> followed t k j row) ->
  order_similar arr 1 2 = Some (map (stream_row t nj) (seq 0 (List.length arr))).
Proof.
  intros P -> F. cbn [order_similar]. change (2 <? 2)%nat with false. cbv iota. f_equal.
  assert (L : List.length (stream_row t nj 0) = nj) by (unfold stream_row; rewrite map_length, seq_length; reflexivity). rewrite L.
  rewrite (rows_loop_stream t nj).
  - reflexivity.
  - intros k Hk. assert (k = 0%nat) by lia. subst. reflexivity.
  - exact F.
Qed.
