From Coq Require Import List ZArith Reals Lra Lia Bool Arith Sorting.Sorted FinFun.
From Verif Require Import Vec3 Nd NdSpec NdProofs Num NumSpec.
Close Scope R_scope.
Import ListNotations.

(** ** match_mask *)
Lemma insert_u_in k x l : In x (insert_u k l) <-> x = k \/ In x l.
Proof.
  induction l as [|y l IH]; cbn [insert_u insert_z In]; [split; intros [H|H]; auto|]. destruct (Nat.ltb_spec k y) as [L|L]; cbn.
  - clear. split; intros [H|H]; auto.
  - destruct (Nat.eqb_spec k y) as [->|N]; cbn; [clear; split; intros [H|H]; auto|]. rewrite IH. clear. split; intros [H|[H|H]]; auto.
Qed.
Lemma insert_u_sorted k l : StronglySorted lt l -> StronglySorted lt (insert_u k l).
Proof.
  induction 1 as [|y l H IH F]; cbn [insert_u insert_z]; [repeat constructor|]. destruct (Nat.ltb_spec k y).
  - constructor; [constructor; assumption|]. constructor; [assumption|]. eapply Forall_impl; [|exact F]. intros; lia.
  - destruct (Nat.eqb_spec k y); [constructor; assumption|]. constructor; [assumption|]. apply Forall_forall. intros x Hx.
    apply insert_u_in in Hx as [->|Hx]; [lia|]. rewrite Forall_forall in F. auto.
Qed.
Lemma unique_spec l : StronglySorted lt (unique l) /\ forall x, In x (unique l) <-> In x l.
Proof.
  induction l as [|k l [IH1 IH2]]; cbn; [split; [constructor|tauto]|]. split; [apply insert_u_sorted, IH1|].
  intros x. rewrite insert_u_in. unfold unique in IH2. rewrite IH2. clear. intuition (subst; auto).
Qed.
Lemma put_true_nth : forall l (ret : list bool), (forall k, In k l -> (k < List.length ret)%nat) ->
  let r := fold_left (fun ret k => replace k true ret) l ret in
  List.length r = List.length ret /\ forall i, nth i r false = true <-> In i l \/ nth i ret false = true.
Proof.
  induction l as [|k l IH]; intros ret B; [cbn; tauto|]. cbn [fold_left].
  destruct (IH (replace k true ret)) as [L H]; [intros; rewrite replace_length; apply B; right; assumption|].
  rewrite replace_length in L. split; [exact L|]. intros i. rewrite H.
  assert (G : forall k (ret : list bool) i, (k < List.length ret)%nat -> nth i (replace k true ret) false = if Nat.eqb i k then true else nth i ret false).
  { clear. induction k as [|k IH]; intros [|b ret] i L; cbn in L; try lia; destruct i as [|i]; cbn; auto. apply IH. lia. }
  rewrite G by (apply B; left; reflexivity). cbn [In]. destruct (Nat.eqb_spec i k); intuition (subst; auto).
Qed.
Section Match.
Context {A B : Type}.
Variable m : A -> B -> bool.
Lemma nonzero1_in arr values i : In i (nonzero1 m arr values) <->
  exists a v, nth_error arr i = Some a /\ In v values /\ m a v = true.
Proof.
  unfold nonzero1. rewrite in_flat_map.
  assert (C : forall (l : list A) j i a, In (i, a) (combine (seq j (List.length l)) l) <-> (j <= i)%nat /\ nth_error l (i - j) = Some a).
  { clear. induction l as [|x l IH]; intros j i a; cbn [List.length seq combine In].
    - split; [tauto|]. intros [_ H]. destruct (i - j); discriminate.
    - rewrite IH. split.
      + intros [E|[L E]]; [injection E as <- <-; rewrite Nat.sub_diag; auto|]. split; [lia|]. replace (i - j)%nat with (S (i - S j)) by lia. exact E.
      + intros [L E]. destruct (Nat.eq_dec i j) as [->|N]; [left; rewrite Nat.sub_diag in E; injection E as <-; reflexivity|].
        right. split; [lia|]. replace (i - j)%nat with (S (i - S j)) in E by lia. exact E. }
  split.
  - intros (v & Hv & H). apply in_map_iff in H as ([i' a] & <- & H). apply filter_In in H as [H M]. apply C in H as [_ H].
    rewrite Nat.sub_0_r in H. exists a, v. auto.
  - intros (a & v & H & Hv & M). exists v. split; [exact Hv|]. apply in_map_iff. exists (i, a). split; [reflexivity|].
    apply filter_In. split; [|exact M]. apply C. rewrite Nat.sub_0_r. split; [lia|exact H].
Qed.
Lemma match_mask_spec arr values : let (ret, idx) := match_mask m arr values in
  List.length ret = List.length arr /\
  (forall i, nth i ret false = true <-> exists a v, nth_error arr i = Some a /\ In v values /\ m a v = true) /\
  StronglySorted lt idx /\ (forall i, In i idx <-> nth i ret false = true).
Proof.
  unfold match_mask. destruct (unique_spec (nonzero1 m arr values)) as [S U]. fold (idx_lst m arr values) in S, U.
  assert (Bd : forall k, In k (idx_lst m arr values) -> (k < List.length (repeat false (List.length arr)))%nat).
  { intros k Hk. rewrite repeat_length. apply U, nonzero1_in in Hk as (a & v & H & _). apply nth_error_Some. congruence. }
  destruct (put_true_nth _ _ Bd) as [L H]. fold (put_true (List.length arr) (idx_lst m arr values)) in L, H.
  rewrite repeat_length in L.
  assert (R : forall i, nth i (repeat false (List.length arr)) false = false) by (intros; apply nth_repeat).
  assert (Q : forall i, nth i (put_true (List.length arr) (idx_lst m arr values)) false = true <-> In i (idx_lst m arr values)).
  { intros i. rewrite H, R. intuition discriminate. }
  repeat split; auto.
  - intros X. apply Q, U, nonzero1_in in X. exact X.
  - intros X. apply Q, U, nonzero1_in. exact X.
  - apply Q.
  - apply Q.
Qed.
Lemma take_mask_spec arr values : take_mask arr (fst (match_mask m arr values)) =
  List.filter (fun a => existsb (m a) values) arr.
Proof.
  pose proof (match_mask_spec arr values) as H. destruct (match_mask m arr values) as [ret idx]. destruct H as (L & H & _). cbn [fst].
  assert (G : forall i a, nth_error arr i = Some a -> nth i ret false = existsb (m a) values).
  { intros i a E. apply eq_iff_eq_true. rewrite H, existsb_exists. split.
    - intros (a' & v & E' & Hv & M). rewrite E in E'. injection E' as <-. eauto.
    - intros (v & Hv & M). eauto. }
  clear H. revert ret L G. induction arr as [|a arr IH]; intros [|b ret] L G; try discriminate; [reflexivity|]. unfold take_mask in *. cbn.
  rewrite <- (IH ret); [|injection L; auto|intros i; apply (G (S i))].
  pose proof (G 0 a eq_refl) as G0. cbn in G0. rewrite G0. destruct (existsb (m a) values); reflexivity.
Qed.
End Match.

(** ** round_up_next_multiple *)
Lemma round_up_spec x mult : (0 < mult)%Z -> exists y, round_up_next_multiple x mult = Some y /\ next_multiple x mult y.
Proof.
  intros P. unfold round_up_next_multiple. destruct (Z.eqb_spec mult 0); [lia|]. eexists. split; [reflexivity|].
  pose proof (Z.mod_pos_bound x mult P) as B. pose proof (Z.div_mod x mult ltac:(lia)) as E.
  destruct (Z.ltb_spec 0 (x mod mult)).
  - split; [exists (x / mult + 1)%Z; nia|]. split; [lia|]. intros z [q ->] L. assert (x / mult < q)%Z by nia. nia.
  - split; [exists (x / mult)%Z; nia|]. split; [lia|]. intros z _ L. exact L.
Qed.
Lemma round_up_negative x mult : (mult < 0)%Z -> round_up_next_multiple x mult = Some x.
Proof.
  intros P. unfold round_up_next_multiple. destruct (Z.eqb_spec mult 0); [lia|]. pose proof (Z.mod_neg_bound x mult P).
  destruct (Z.ltb_spec 0 (x mod mult)); [lia|reflexivity].
Qed.

(** ** DataND *)
Lemma insert_z_in k x l : In x (insert_z k l) <-> x = k \/ In x l.
Proof.
  induction l as [|y l IH]; cbn [insert_u insert_z In]; [split; intros [H|H]; auto|]. destruct (Z.ltb_spec k y) as [L|L]; cbn.
  - clear. split; intros [H|H]; auto.
  - destruct (Z.eqb_spec k y) as [->|N]; cbn; [clear; split; intros [H|H]; auto|]. rewrite IH. clear. split; intros [H|[H|H]]; auto.
Qed.
Lemma insert_z_sorted k l : increasing l -> increasing (insert_z k l).
Proof.
  induction 1 as [|y l H IH F]; cbn [insert_u insert_z]; [repeat constructor|]. destruct (Z.ltb_spec k y).
  - constructor; [constructor; assumption|]. constructor; [assumption|]. eapply Forall_impl; [|exact F]. intros; lia.
  - destruct (Z.eqb_spec k y); [constructor; assumption|]. constructor; [assumption|]. apply Forall_forall. intros x Hx.
    apply insert_z_in in Hx as [->|Hx]; [lia|]. rewrite Forall_forall in F. auto.
Qed.
Lemma unique_z_spec l : increasing (unique_z l) /\ forall x, In x (unique_z l) <-> In x l.
Proof.
  induction l as [|k l [IH1 IH2]]; cbn; [split; [constructor|tauto]|]. split; [apply insert_z_sorted, IH1|].
  intros x. rewrite insert_z_in. unfold unique_z in IH2. rewrite IH2. clear. intuition (subst; auto).
Qed.
Lemma increasing_unique l : increasing l -> forall l', increasing l' -> (forall x, In x l <-> In x l') -> l = l'.
Proof.
  induction 1 as [|x l H IH F]; intros l' H' E.
  - destruct l' as [|y l']; [reflexivity|]. exfalso. apply (E y). left. reflexivity.
  - destruct H' as [|y l' H' F']; [exfalso; apply (E x); left; reflexivity|].
    rewrite Forall_forall in F, F'.
    assert (x = y).
    { destruct (proj1 (E x) (or_introl eq_refl)) as [|I]; [congruence|]. destruct (proj2 (E y) (or_introl eq_refl)) as [|I']; [congruence|].
      specialize (F _ I'). specialize (F' _ I). lia. }
    subst y. f_equal. apply IH; [exact H'|]. intros z. split; intros I.
    + destruct (proj1 (E z) (or_intror I)) as [<-|]; [|assumption]. specialize (F _ I). lia.
    + destruct (proj2 (E z) (or_intror I)) as [<-|]; [|assumption]. specialize (F' _ I). lia.
Qed.
Lemma indices_length sh : List.length (indices sh) = fold_right Nat.mul 1 sh.
Proof.
  induction sh as [|n sh IH]; [reflexivity|]. cbn [indices fold_right]. rewrite <- IH. generalize 0 as s.
  induction n as [|n IHn]; intros s; [reflexivity|]. cbn [seq flat_map]. rewrite app_length, map_length, IHn. reflexivity.
Qed.
Lemma indices_nodup sh : NoDup (indices sh).
Proof.
  induction sh as [|n sh IH]; [repeat constructor; intros []|]. cbn [indices]. generalize 0 as s.
  induction n as [|n IHn]; intros s; cbn [seq flat_map]; [constructor|].
  assert (NM : NoDup (map (cons s) (indices sh))) by (apply FinFun.Injective_map_NoDup; [intros u v E; injection E; auto|exact IH]).
  assert (D : forall p, In p (map (cons s) (indices sh)) -> ~ In p (flat_map (fun i => map (cons i) (indices sh)) (seq (S s) n))).
  { intros p Hp I. apply in_map_iff in Hp as (u & <- & _). apply in_flat_map in I as (x & Hx & I). apply in_map_iff in I as (w & E & _).
    apply in_seq in Hx. injection E as E _. lia. }
  revert NM D. generalize (map (cons s) (indices sh)). intros l NM D. specialize (IHn (S s)).
  induction NM as [|p l Hp NM IHl]; [exact IHn|]. cbn. constructor.
  - rewrite in_app_iff. intros [I|I]; [contradiction|]. apply (D p); [left; reflexivity|exact I].
  - apply IHl. intros q Hq. apply D. right. exact Hq.
Qed.
Lemma fold_assign {A} : forall (ps : list (list nat * A)) (e : list nat -> A), NoDup (map fst ps) ->
  forall i a, In (i, a) ps -> fold_left (fun an p => fun i => if idx_eqb (fst p) i then snd p else an i) ps e i = a.
Proof.
  assert (K : forall (ps : list (list nat * A)) e i, ~ In i (map fst ps) -> fold_left (fun an p => fun i => if idx_eqb (fst p) i then snd p else an i) ps e i = e i).
  { induction ps as [|p ps IH]; intros e i N; [reflexivity|]. cbn [fold_left map] in *. rewrite IH by (intros I; apply N; right; exact I).
    destruct (idx_eqb (fst p) i) eqn:E; [|reflexivity]. apply idx_eqb_true in E. exfalso. apply N. left. exact E. }
  induction ps as [|p ps IH]; intros e N i a I; [destruct I|]. cbn [fold_left map] in *. inversion N as [|? ? NI N']; subst. destruct I as [->|I].
  - rewrite K by exact NI. cbn. rewrite (proj2 (idx_eqb_true i i) eq_refl). reflexivity.
  - apply IH; assumption.
Qed.
Lemma coords_nth : forall axes i j, index_of (map (@List.length Z) axes) i -> (j < List.length axes)%nat ->
  nth j (coords axes i) 0%Z = nth (nth j i 0) (nth j axes []) 0%Z.
Proof.
  induction axes as [|a axes IH]; intros i j H L; cbn in L; [lia|]. inversion H; subst. destruct j as [|j]; cbn; [reflexivity|]. apply IH; [assumption|lia].
Qed.
Lemma some_index : forall axes : list (list Z), Forall (fun a => a <> []) axes -> forall j k, (j < List.length axes)%nat -> (k < List.length (nth j axes []))%nat ->
  exists i, index_of (map (@List.length Z) axes) i /\ nth j i 0 = k.
Proof.
  induction 1 as [|a axes Na F IH]; intros j k Lj Lk; cbn in Lj; [lia|].
  assert (Z0 : exists i, index_of (map (@List.length Z) axes) i).
  { clear - F. induction F as [|a axes Na _ (i & IH)]; [exists []; constructor|]. exists (0 :: i). constructor; [|exact IH]. destruct a; [contradiction|cbn; lia]. }
  destruct j as [|j]; cbn in Lk.
  - destruct Z0 as (i & Hi). exists (k :: i). split; [constructor; assumption|reflexivity].
  - destruct (IH j k ltac:(lia) Lk) as (i & Hi & E). exists (0 :: i). split; [constructor; [destruct a; [contradiction|cbn; lia]|exact Hi]|exact E].
Qed.
Lemma datand_spec {A} (axes : list (list Z)) (v : list nat -> A) e :
  Forall increasing axes -> Forall (fun a => a <> []) axes ->
  exists an, a2_to_an (List.length axes) e (grid axes v) = Some (an, axes) /\ shape an = map (@List.length Z) axes /\
    forall i, index_of (shape an) i -> at_ an i = v i.
Proof.
  intros S N. set (dims := map (@List.length Z) axes).
  assert (AX : map (fun j => unique_z (col (grid axes v) j)) (seq 0 (List.length axes)) = axes).
  { apply (nth_ext _ _ (unique_z (col (grid axes v) 0)) []); [rewrite map_length, seq_length; reflexivity|].
    intros j Hj. rewrite map_length, seq_length in Hj. rewrite (map_nth (fun j => unique_z (col (grid axes v) j)) _ 0 j), seq_nth by exact Hj. cbn [plus].
    destruct (unique_z_spec (col (grid axes v) j)) as [U1 U2]. apply increasing_unique; [exact U1| |].
    - rewrite Forall_forall in S. apply S, nth_In, Hj.
    - intros x. rewrite U2. unfold col, grid. rewrite map_map. cbn [fst]. rewrite in_map_iff. split.
      + intros (i & <- & Hi). apply indices_in in Hi. rewrite coords_nth by assumption. apply nth_In.
        clear - Hi Hj. revert i j Hi Hj. induction axes as [|a axes IH]; intros i j Hi Hj; cbn in Hj; [lia|]. inversion Hi; subst.
        destruct j as [|j]; cbn; [assumption|]. apply IH; [assumption|lia].
      + intros Hx. apply (In_nth _ _ 0%Z) in Hx as (k & Hk & <-). destruct (some_index axes N j k Hj Hk) as (i & Hi & E).
        exists i. split; [rewrite coords_nth by assumption; rewrite E; reflexivity|]. apply indices_in, Hi. }
  unfold a2_to_an. rewrite AX. fold dims.
  assert (L : List.length (grid axes v) = fold_right Nat.mul 1 dims) by (unfold grid; rewrite map_length; apply indices_length).
  rewrite L, Nat.eqb_refl. eexists. split; [reflexivity|]. cbn [shape at_]. split; [reflexivity|]. intros i Hi.
  assert (E : combine (indices dims) (map snd (grid axes v)) = map (fun i => (i, v i)) (indices dims)).
  { unfold grid. rewrite map_map. cbn [snd]. fold dims. generalize (indices dims). induction l as [|p l IH]; [reflexivity|]. cbn. f_equal. exact IH. }
  rewrite E. apply fold_assign.
  - rewrite map_map. cbn [fst]. rewrite map_id. apply indices_nodup.
  - apply in_map_iff. exists i. split; [reflexivity|]. apply indices_in, Hi.
Qed.

Local Open Scope R_scope.
(** ** vlinspace *)
Lemma map2_length {A B C} (f : A -> B -> C) l l' : List.length l = List.length l' -> List.length (map2 f l l') = List.length l.
Proof. intros L. unfold map2. rewrite map_length, combine_length. lia. Qed.
Lemma map2_nth {A B C} (f : A -> B -> C) da db : forall l l' j dc, List.length l = List.length l' -> (j < List.length l)%nat ->
  nth j (map2 f l l') dc = f (nth j l da) (nth j l' db).
Proof.
  unfold map2. induction l as [|x l IH]; intros [|y l'] j dc L Lj; cbn in *; try lia. destruct j as [|j]; [reflexivity|]. apply IH; lia.
Qed.
Lemma cumsum_nth d : forall n acc j k, List.length acc = List.length d -> (j < List.length acc)%nat -> (k < n)%nat ->
  nth j (nth k (cumsum acc (repeat d n)) []) 0 = nth j acc 0 + INR (S k) * nth j d 0.
Proof.
  induction n as [|n IH]; intros acc j k L Lj Lk; [lia|]. cbn [repeat cumsum]. destruct k as [|k]; cbn [nth].
  - rewrite (map2_nth Rplus 0 0) by assumption. cbn. ring.
  - rewrite IH; [|rewrite map2_length by exact L; exact L|rewrite map2_length by exact L; exact Lj|lia].
    rewrite (map2_nth Rplus 0 0) by assumption. rewrite (S_INR (S k)). ring.
Qed.
Lemma cumsum_length : forall rows acc, List.length (cumsum acc rows) = List.length rows.
Proof. induction rows; intros; cbn; auto. Qed.
Lemma vlinspace_spec a b num ep : List.length a = List.length b -> (0 < num)%nat ->
  exists r, vlinspace a b num ep = Some r /\ List.length r = num /\
    forall k j, (k < num)%nat -> (j < List.length a)%nat ->
      nth j (nth k r []) 0 = nth j a 0 + INR k * ((nth j b 0 - nth j a 0) / (if ep then INR (num - 1) else INR num)).
Proof.
  intros L P. unfold vlinspace. rewrite L, Nat.eqb_refl, <- L. cbn [negb]. destruct num as [|n]; [lia|]. eexists. split; [reflexivity|].
  split; [rewrite cumsum_length; cbn; rewrite repeat_length; reflexivity|]. intros k j Hk Hj. cbn [cumsum].
  set (ddv := if ep then _ else _).
  assert (Z0 : nth j (map2 Rplus (map (fun _ => 0) a) a) 0 = nth j a 0).
  { rewrite (map2_nth Rplus 0 0) by (rewrite ?map_length; auto). replace (nth j (map (fun _ : R => 0) a) 0) with 0; [ring|].
    clear. revert j. induction a; intros [|j]; cbn; auto. }
  assert (LD : List.length ddv = List.length a) by (unfold ddv; destruct ep; [destruct (Nat.eqb (S n) 1)|]; rewrite map_length, map2_length; auto).
  destruct k as [|k]; cbn [nth].
  - rewrite Z0. cbn. ring.
  - assert (Nn : (0 < n)%nat) by lia.
    rewrite cumsum_nth; [|rewrite map2_length by (rewrite map_length; auto); rewrite map_length; auto|rewrite map2_length by (rewrite map_length; auto); rewrite map_length; auto|lia].
    rewrite Z0. f_equal. f_equal. unfold ddv. replace (S n - 1)%nat with n by lia.
    assert (M : forall f, nth j (map f (map2 Rminus b a)) 0 = f (nth j b 0 - nth j a 0)).
    { intros f. rewrite (nth_indep _ 0 (f 0)) by (rewrite map_length, map2_length; lia). rewrite map_nth. f_equal. apply map2_nth; lia. }
    destruct ep; [destruct (Nat.eqb_spec (S n) 1); [lia|]|]; apply M.
Qed.

(** ** norm_int *)
Lemma maxabs_zero l : maxabs l = 0 -> Forall (fun x => x = 0) l.
Proof.
  assert (P : forall l, 0 <= maxabs l). { clear. induction l as [|x l IH]; cbn; [lra|]. eapply Rle_trans; [exact IH|]. apply Rmax_r. }
  induction l as [|x l IH]; intros E; constructor; change (Rmax (Rabs x) (maxabs l) = 0) in E.
  - pose proof (Rmax_l (Rabs x) (maxabs l)). pose proof (Rabs_pos x). destruct (Req_dec x 0); [assumption|]. pose proof (Rabs_pos_lt x H1). lra.
  - apply IH. pose proof (Rmax_r (Rabs x) (maxabs l)). specialize (P l). lra.
Qed.
Lemma zeros l : Forall (fun x => x = 0) l -> l = map (Rmult 0) l.
Proof. induction 1 as [|x l E _ IH]; [reflexivity|]. cbn. rewrite <- IH. f_equal. lra. Qed.
Lemma norm_int_spec func y x area sc : homogeneous func -> func y x <> 0 ->
  norm_int func y x area sc = map (fun v => v * area / func y x) y /\ func (norm_int func y x area sc) x = area.
Proof.
  intros [Hy Hx] NZ.
  assert (NY : maxabs y <> 0). { intros E. apply maxabs_zero, zeros in E. apply NZ. rewrite E, Hy. ring. }
  assert (NX : maxabs x <> 0). { intros E. apply maxabs_zero, zeros in E. apply NZ. rewrite E, Hx. ring. }
  assert (E : norm_int func y x area sc = map (fun v => v * area / func y x) y).
  { unfold norm_int. apply map_ext. intros v. destruct sc.
    - assert (M : forall c l, map (fun v => v / c) l = map (Rmult (/ c)) l) by (intros; apply map_ext; intros; unfold Rdiv; ring).
      rewrite !M, Hy, Hx. field. repeat split; assumption.
    - field. exact NZ. }
  split; [exact E|]. rewrite E. rewrite (map_ext _ (Rmult (area / func y x))) by (intros; unfold Rdiv; ring). rewrite Hy. field. exact NZ.
Qed.
Lemma trapz_homogeneous : homogeneous trapz.
Proof.
  split; intros c y.
  - induction y as [|y0 y IH]; intros x; [cbn; ring|]. destruct y as [|y1 y]; [cbn; ring|]. destruct x as [|x0 [|x1 x]]; [cbn; ring|cbn; ring|].
    change (trapz (map (Rmult c) (y0 :: y1 :: y)) (x0 :: x1 :: x)) with ((x1 - x0) * (c * y0 + c * y1) / 2 + trapz (map (Rmult c) (y1 :: y)) (x1 :: x)).
    rewrite IH. change (trapz (y0 :: y1 :: y) (x0 :: x1 :: x)) with ((x1 - x0) * (y0 + y1) / 2 + trapz (y1 :: y) (x1 :: x)). field.
  - induction y as [|y0 y IH]; intros x; [cbn; ring|]. destruct y as [|y1 y]; [cbn; ring|]. destruct x as [|x0 [|x1 x]]; [cbn; ring|cbn; ring|].
    change (trapz (y0 :: y1 :: y) (map (Rmult c) (x0 :: x1 :: x))) with ((c * x1 - c * x0) * (y0 + y1) / 2 + trapz (y1 :: y) (map (Rmult c) (x1 :: x))).
    rewrite IH. change (trapz (y0 :: y1 :: y) (x0 :: x1 :: x)) with ((x1 - x0) * (y0 + y1) / 2 + trapz (y1 :: y) (x1 :: x)). field.
Qed.

(** ** euler_matrix *)
Lemma sc1 t : sin t * sin t + cos t * cos t = 1.
Proof. pose proof (sin2_cos2 t) as H. unfold Rsqr in H. exact H. Qed.
Definition rotz (t : R) : mat := Mat (Vec (cos t) (sin t) 0) (Vec (- sin t) (cos t) 0) (Vec 0 0 1).
Definition rotx (t : R) : mat := Mat (Vec 1 0 0) (Vec 0 (cos t) (sin t)) (Vec 0 (- sin t) (cos t)).
Lemma vecmat_assoc v m n : vecmat (vecmat v m) n = vecmat v (matmul m n).
Proof. unfold vecmat, matmul, vadd, Vec3.scale. cbn. f_equal; ring. Qed.
Lemma matmul_assoc m n p : matmul (matmul m n) p = matmul m (matmul n p).
Proof. unfold matmul at 1 2 3. cbn. rewrite !vecmat_assoc. reflexivity. Qed.
Lemma matmul_1 m : matmul unit_mat m = m.
Proof. destruct m as [[] [] []]. unfold matmul, unit_mat, vecmat, vadd, Vec3.scale. cbn. f_equal; f_equal; ring. Qed.
Lemma matmul_1r m : matmul m unit_mat = m.
Proof. destruct m as [[] [] []]. unfold matmul, unit_mat, vecmat, vadd, Vec3.scale. cbn. f_equal; f_equal; ring. Qed.
Lemma rotz_inv t : matmul (rotz t) (rotz (- t)) = unit_mat.
Proof.
  pose proof (sc1 t). unfold matmul, unit_mat, vecmat, vadd, Vec3.scale, rotz. cbn. rewrite cos_neg, sin_neg. f_equal; f_equal; lra.
Qed.
Lemma rotx_inv t : matmul (rotx t) (rotx (- t)) = unit_mat.
Proof.
  pose proof (sc1 t). unfold matmul, unit_mat, vecmat, vadd, Vec3.scale, rotx. cbn. rewrite cos_neg, sin_neg. f_equal; f_equal; lra.
Qed.
Lemma det_mul m n : det (matmul m n) = det m * det n.
Proof. unfold det, matmul, vecmat, dot, cross, vadd, Vec3.scale. cbn. ring. Qed.
Definition orth (m : mat) : Prop := forall u v, dot (vecmat u m) (vecmat v m) = dot u v.
Lemma orth_mul m n : orth m -> orth n -> orth (matmul m n).
Proof. intros H1 H2 u v. rewrite <- !vecmat_assoc, H2, H1. reflexivity. Qed.
Lemma dot_expand c s u v : c * c + s * s = 1 ->
  (u * c - v * s) * (u * c - v * s) + (u * s + v * c) * (u * s + v * c) = u * u + v * v.
Proof. intros H. replace (u * u + v * v) with ((u * u + v * v) * (c * c + s * s)) by (rewrite H; ring). ring. Qed.
Lemma orth_rotz t : orth (rotz t).
Proof.
  intros [u1 u2 u3] [v1 v2 v3]. pose proof (sc1 t) as H. unfold vecmat, dot, vadd, Vec3.scale, rotz. cbn.
  transitivity ((u1 * v1 + u2 * v2) * (sin t * sin t + cos t * cos t) + u3 * v3); [ring|]. rewrite H. ring.
Qed.
Lemma orth_rotx t : orth (rotx t).
Proof.
  intros [u1 u2 u3] [v1 v2 v3]. pose proof (sc1 t) as H. unfold vecmat, dot, vadd, Vec3.scale, rotx. cbn.
  transitivity (u1 * v1 + (u2 * v2 + u3 * v3) * (sin t * sin t + cos t * cos t)); [ring|]. rewrite H. ring.
Qed.
Lemma det_rotz t : det (rotz t) = 1.
Proof. pose proof (sc1 t). unfold det, dot, cross, rotz. cbn. lra. Qed.
Lemma det_rotx t : det (rotx t) = 1.
Proof. pose proof (sc1 t). unfold det, dot, cross, rotx. cbn. lra. Qed.
Lemma orth_rotation m : orth m -> det m = 1 -> rotation m.
Proof.
  intros O D. assert (R1 : ra m = vecmat (Vec 1 0 0) m) by (destruct m as [[] [] []]; unfold vecmat, vadd, Vec3.scale; cbn; f_equal; ring).
  assert (R2 : rb m = vecmat (Vec 0 1 0) m) by (destruct m as [[] [] []]; unfold vecmat, vadd, Vec3.scale; cbn; f_equal; ring).
  assert (R3 : rc m = vecmat (Vec 0 0 1) m) by (destruct m as [[] [] []]; unfold vecmat, vadd, Vec3.scale; cbn; f_equal; ring).
  unfold rotation. rewrite R1, R2, R3, !O, D. unfold dot. cbn. repeat split; ring.
Qed.
Lemma euler_eq phi theta psi : Rabs phi <= 2 * PI -> Rabs theta <= PI -> Rabs psi <= 2 * PI ->
  euler_matrix phi theta psi false = Some (matmul (rotz psi) (matmul (rotx theta) (rotz phi))).
Proof.
  intros H1 H2 H3. unfold euler_matrix. destruct (Rle_dec (Rabs phi) (2 * PI)); [|contradiction].
  destruct (Rle_dec (Rabs theta) PI); [|contradiction]. destruct (Rle_dec (Rabs psi) (2 * PI)); [|contradiction]. reflexivity.
Qed.
Lemma euler_spec phi theta psi : Rabs phi <= 2 * PI -> Rabs theta <= PI -> Rabs psi <= 2 * PI ->
  exists m m', euler_matrix phi theta psi false = Some m /\ euler_matrix (- psi) (- theta) (- phi) false = Some m' /\
    rotation m /\ matmul m m' = unit_mat /\ (forall u v, dot (vecmat u m) (vecmat v m) = dot u v).
Proof.
  intros H1 H2 H3. eexists _, _. rewrite (euler_eq phi theta psi) by assumption. split; [reflexivity|].
  rewrite (euler_eq (- psi) (- theta) (- phi)) by (rewrite Rabs_Ropp; assumption). split; [reflexivity|].
  assert (O : orth (matmul (rotz psi) (matmul (rotx theta) (rotz phi)))) by (repeat apply orth_mul; auto using orth_rotz, orth_rotx).
  split; [|split; [|exact O]].
  - apply orth_rotation; [exact O|]. rewrite !det_mul, !det_rotz, det_rotx. ring.
  - rewrite !matmul_assoc. rewrite <- (matmul_assoc (rotz phi) (rotz (- phi))), rotz_inv, matmul_1.
    rewrite <- (matmul_assoc (rotx theta)), rotx_inv, matmul_1. apply rotz_inv.
Qed.
Lemma euler_bad phi theta psi : euler_matrix phi theta psi false = None <-> Rabs phi > 2 * PI \/ Rabs theta > PI \/ Rabs psi > 2 * PI.
Proof.
  unfold euler_matrix. destruct (Rle_dec (Rabs phi) (2 * PI)), (Rle_dec (Rabs theta) PI), (Rle_dec (Rabs psi) (2 * PI));
    split; intros; try discriminate; try reflexivity; lra.
Qed.
