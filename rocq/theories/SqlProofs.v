From Coq Require Import Ascii String Lia.
From stdpp Require Import base gmap strings list.
From Verif Require Import Sql SqlSpec.
Local Open Scope list_scope.

Lemma has_column_spec t c : has_column t c = true <-> c ∈ colnames t.
Proof.
  unfold has_column, colnames. rewrite existsb_exists, elem_of_list_In, in_map_iff.
  split.
  - intros [x [Hx E]]. apply String.eqb_eq in E. eauto.
  - intros [x [E Hx]]. exists x. split; [assumption|]. now apply String.eqb_eq.
Qed.

Lemma ci_has_spec names c : ci_has names c = true <-> exists n, n ∈ names /\ lower n = lower c.
Proof.
  unfold ci_has. rewrite existsb_exists. split; intros [x [H E]]; exists x;
    rewrite elem_of_list_In in *; (split; [assumption|]); now apply String.eqb_eq.
Qed.

(** ** add_column *)
Lemma add_column_present t c ty : c ∈ colnames t -> add_column t c ty = Some t.
Proof. intros H. unfold add_column. apply has_column_spec in H. now rewrite H. Qed.

Lemma add_column_missing t c ty :
  c ∉ colnames t ->
  (forall n, n ∈ colnames t -> lower n <> lower c) ->
  add_column t c ty = Some (Tab (t_cols t ++ [(c, fix_sqltype ty)]) (t_rows t)).
Proof.
  intros H1 H2. unfold add_column.
  destruct (has_column t c) eqn:E; [apply has_column_spec in E; contradiction|].
  destruct (ci_has (colnames t) c) eqn:E2; [|reflexivity].
  apply ci_has_spec in E2. destruct E2 as [n [Hn En]]. exfalso. eapply H2; eauto.
Qed.

Lemma add_column_raises t c ty :
  add_column t c ty = None <->
  c ∉ colnames t /\ exists n, n ∈ colnames t /\ lower n = lower c.
Proof.
  unfold add_column. destruct (has_column t c) eqn:E.
  - apply has_column_spec in E. split; [discriminate|]. intros [H _]. contradiction.
  - assert (c ∉ colnames t) by (rewrite <- has_column_spec; congruence).
    destruct (ci_has (colnames t) c) eqn:E2.
    + apply ci_has_spec in E2. split; auto.
    + split; [discriminate|]. intros [_ H2]. apply ci_has_spec in H2. congruence.
Qed.

Lemma add_column_rows t c ty t' : add_column t c ty = Some t' -> t_rows t' = t_rows t.
Proof.
  unfold add_column. destruct (has_column t c); [congruence|].
  destruct (ci_has (colnames t) c); [discriminate|]. intros [= <-]. reflexivity.
Qed.

Lemma add_column_cells t c ty t' i c' :
  add_column t c ty = Some t' -> cell_at t' i c' = cell_at t i c'.
Proof. intros H. unfold cell_at. now rewrite (add_column_rows _ _ _ _ H). Qed.

Lemma add_column_new_null t c ty t' i :
  tab_ok t -> c ∉ colnames t -> add_column t c ty = Some t' -> i < nrows t ->
  cell_at t' i c = Some VNull.
Proof.
  intros Hok Hc H Hi. rewrite (add_column_cells _ _ _ _ _ _ H). unfold cell_at, nrows in *.
  destruct (t_rows t !! i) as [r|] eqn:E; [|apply lookup_ge_None in E; lia].
  simpl. f_equal. unfold cell. destruct (r !! c) eqn:Er; [|reflexivity].
  exfalso. eapply Hc, Hok; eauto.
Qed.

Lemma add_column_has t c ty t' : add_column t c ty = Some t' -> c ∈ colnames t'.
Proof.
  unfold add_column. destruct (has_column t c) eqn:E.
  - intros [= <-]. now apply has_column_spec.
  - destruct (ci_has (colnames t) c); [discriminate|]. intros [= <-].
    unfold colnames. simpl. rewrite map_app. set_solver.
Qed.

Lemma add_column_prefix t c ty t' :
  add_column t c ty = Some t' -> exists l, t_cols t' = t_cols t ++ l.
Proof.
  unfold add_column. destruct (has_column t c).
  - intros [= <-]. exists []. now rewrite app_nil_r.
  - destruct (ci_has (colnames t) c); [discriminate|]. intros [= <-]. eauto.
Qed.

Lemma add_column_ok t c ty t' : tab_ok t -> add_column t c ty = Some t' -> tab_ok t'.
Proof.
  intros Hok H i r c0 v Hr Hv. rewrite (add_column_rows _ _ _ _ H) in Hr.
  destruct (add_column_prefix _ _ _ _ H) as [l El]. unfold colnames. rewrite El, map_app.
  apply elem_of_app. left. eapply Hok; eauto.
Qed.

Lemma add_column_idem t c ty ty' t' :
  add_column t c ty = Some t' -> add_column t' c ty' = Some t'.
Proof. intros H. apply add_column_present. eapply add_column_has; eauto. Qed.

Lemma add_columns_spec t h t' ok :
  add_columns t h = (t', ok) ->
  (forall i c, cell_at t' i c = cell_at t i c) /\ (exists l, t_cols t' = t_cols t ++ l) /\
  (tab_ok t -> tab_ok t') /\
  (ok = true -> forall c ty, In (c, ty) h -> c ∈ colnames t').
Proof.
  revert t. induction h as [|[c ty] h IH]; simpl; intros t H.
  - injection H as <- <-. repeat split; auto; [exists []; now rewrite app_nil_r|tauto].
  - destruct (add_column t c (fix_sqltype ty)) as [t1|] eqn:E.
    + destruct (IH _ H) as (H1 & [l2 H2] & H3 & H4).
      destruct (add_column_prefix _ _ _ _ E) as [l1 El1].
      repeat split.
      * intros i c0. rewrite H1. eapply add_column_cells; eauto.
      * exists (l1 ++ l2). rewrite H2, El1. now rewrite app_assoc.
      * intros Hok. apply H3. eapply add_column_ok; eauto.
      * intros Ho c0 ty0 [Hc|Hc]; [|eauto]. injection Hc as -> ->.
        unfold colnames. rewrite H2, map_app. apply elem_of_app. left.
        eapply add_column_has; eauto.
    + injection H as <- <-. repeat split; auto; [exists []; now rewrite app_nil_r|discriminate].
Qed.

(** ** cells *)
Lemma cell_set_eq r c v : cell (set_cell r c v) c = v.
Proof. unfold cell, set_cell. destruct v; first [rewrite lookup_insert|rewrite lookup_delete]; reflexivity. Qed.
Lemma cell_set_ne r c c' v : c <> c' -> cell (set_cell r c v) c' = cell r c'.
Proof.
  intros H. unfold cell, set_cell. destruct v; first [rewrite lookup_insert_ne by exact H|rewrite lookup_delete_ne by exact H]; reflexivity.
Qed.
Lemma cell_empty c : cell ∅ c = VNull.
Proof. unfold cell. now rewrite lookup_empty. Qed.

(** ** fill_column *)
Section Fill.
Variable aff : string -> val -> val.
Notation aff_col t col v := (aff (default ""%string (coltype t col)) v).

Lemma insert_single t col v :
  col ∈ colnames t ->
  insert_row aff t [(col, v)] =
  Some (Tab (t_cols t) (t_rows t ++ [set_cell ∅ col (aff_col t col v)])).
Proof.
  intros H. apply has_column_spec in H. unfold insert_row. simpl. now rewrite H.
Qed.

Lemma get_update_ne t col i v j c :
  (j <> i \/ c <> col) -> cell_at (update_cell aff t col i v) j c = cell_at t j c.
Proof.
  unfold cell_at, update_cell. simpl. intros H. destruct (decide (j = i)) as [->|Hj].
  - rewrite list_lookup_alter. destruct H as [H|H]; [congruence|].
    destruct (t_rows t !! i); simpl; [|reflexivity]. rewrite cell_set_ne by congruence. reflexivity.
  - rewrite list_lookup_alter_ne by congruence. reflexivity.
Qed.

Lemma get_update_eq t col i v :
  i < nrows t -> cell_at (update_cell aff t col i v) i col = Some (aff_col t col v).
Proof.
  unfold cell_at, update_cell, nrows. simpl. intros H. rewrite list_lookup_alter.
  destruct (t_rows t !! i) eqn:E; [|apply lookup_ge_None in E; lia].
  simpl. now rewrite cell_set_eq.
Qed.

Lemma nrows_update t col i v : nrows (update_cell aff t col i v) = nrows t.
Proof. unfold nrows, update_cell. simpl. apply alter_length. Qed.

Lemma filled_nil n t col start extend : filled aff n t col [] start extend t.
Proof.
  constructor; simpl; auto.
  - unfold beyond. simpl. destruct extend; lia.
  - intros k v H. discriminate.
  - intros _ k v H. discriminate.
Qed.

Lemma filled_update n t col v vs start extend t' :
  n <= nrows t -> (1 <= start <= Z.of_nat n)%Z ->
  filled aff n (update_cell aff t col (Z.to_nat (start - 1)) v) col vs (start + 1) extend t' ->
  filled aff n t col (v :: vs) start extend t'.
Proof.
  intros Hn Hs [F1 F2 F3 F4 F5]. set (i0 := Z.to_nat (start - 1)) in *.
  rewrite nrows_update in *.
  constructor.
  - exact F1.
  - rewrite F2. unfold beyond. simpl length. destruct extend; lia.
  - intros i c Hi Hc. rewrite F3; [|assumption|].
    + apply get_update_ne. simpl length in Hc.
      destruct (decide (c = col)) as [->|]; [|auto]. left. intros ->. apply Hc. split; [reflexivity|]. unfold i0. lia.
    + intros (-> & Hin & Hr). apply Hc. split; [reflexivity|]. simpl length. lia.
  - intros [|k] w Hw Hk.
    + injection Hw as ->. replace (Z.to_nat (start + Z.of_nat 0 - 1)) with i0 by (unfold i0; lia).
      rewrite F3.
      * apply get_update_eq. unfold i0; lia.
      * unfold i0; lia.
      * unfold i0; lia.
    + simpl in Hw. replace (start + Z.of_nat (S k))%Z with (start + 1 + Z.of_nat k)%Z by lia.
      apply (F4 k w Hw). lia.
  - intros He [|k] w Hw Hk c.
    + lia.
    + simpl in Hw. specialize (F5 He k w Hw ltac:(lia) c).
      replace (Z.min (Z.of_nat (S k)) (start + Z.of_nat (S k) - 1 - Z.of_nat n))
        with (Z.min (Z.of_nat k) (start + 1 + Z.of_nat k - 1 - Z.of_nat n)) by lia.
      exact F5.
Qed.

(** no change for a rowid below 1 *)
Lemma filled_skip n t col v vs start extend t' :
  (start < 1)%Z -> filled aff n t col vs (start + 1) extend t' ->
  filled aff n t col (v :: vs) start extend t'.
Proof.
  intros Hs [F1 F2 F3 F4 F5]. constructor.
  - exact F1.
  - rewrite F2. unfold beyond. simpl length. destruct extend; lia.
  - intros i c Hi Hc. apply F3; [assumption|]. intros (-> & Hin & Hr). apply Hc. split; [reflexivity|]. simpl length. lia.
  - intros [|k] w Hw Hk; [lia|]. simpl in Hw.
    replace (start + Z.of_nat (S k))%Z with (start + 1 + Z.of_nat k)%Z by lia. apply (F4 k w Hw). lia.
  - intros He [|k] w Hw Hk c; [lia|]. simpl in Hw.
    specialize (F5 He k w Hw ltac:(lia) c).
    replace (Z.min (Z.of_nat (S k)) (start + Z.of_nat (S k) - 1 - Z.of_nat n))
      with (Z.min (Z.of_nat k) (start + 1 + Z.of_nat k - 1 - Z.of_nat n)) by lia.
    exact F5.
Qed.

Lemma filled_beyond_noext n t col v vs start t' :
  (Z.of_nat n < start)%Z -> filled aff n t col vs (start + 1) false t' ->
  filled aff n t col (v :: vs) start false t'.
Proof.
  intros Hs [F1 F2 F3 F4 F5]. constructor; auto.
  - intros i c Hi Hc. apply F3; [assumption|]. lia.
  - intros [|k] w Hw Hk; lia.
  - discriminate.
Qed.

Lemma get_app_l t rows i c :
  i < nrows t -> cell_at (Tab (t_cols t) (t_rows t ++ rows)) i c = cell_at t i c.
Proof. intros H. unfold cell_at. simpl. now rewrite lookup_app_l. Qed.

Lemma filled_beyond_ext n t col v vs start t' :
  n <= nrows t ->
  (Z.of_nat n < start)%Z ->
  filled aff n (Tab (t_cols t) (t_rows t ++ [set_cell ∅ col (aff_col t col v)])) col vs (start + 1) true t' ->
  filled aff n t col (v :: vs) start true t'.
Proof.
  intros Hn Hs [F1 F2 F3 F4 F5].
  set (t1 := Tab (t_cols t) (t_rows t ++ [set_cell ∅ col (aff_col t col v)])) in *.
  assert (Hn1 : nrows t1 = S (nrows t)) by (unfold nrows; simpl; rewrite app_length; simpl; lia).
  rewrite Hn1 in *. constructor.
  - exact F1.
  - rewrite F2. unfold beyond. simpl length. lia.
  - intros i c Hi Hc. rewrite F3; [now apply get_app_l|lia|lia].
  - intros [|k] w Hw Hk; lia.
  - intros He [|k] w Hw Hk c.
    + injection Hw as ->.
      replace (Z.to_nat (Z.min (Z.of_nat 0) (start + Z.of_nat 0 - 1 - Z.of_nat n))) with 0 by lia.
      rewrite Nat.add_0_r, F3; [|lia|lia].
      unfold cell_at, t1, nrows. simpl. rewrite lookup_app_r by lia. rewrite Nat.sub_diag. simpl.
      f_equal. destruct (decide (c = col)) as [->|Hc]; [apply cell_set_eq|].
      rewrite cell_set_ne by congruence. apply cell_empty.
    + simpl in Hw. specialize (F5 He k w Hw ltac:(lia) c).
      replace (nrows t + Z.to_nat (Z.min (Z.of_nat (S k)) (start + Z.of_nat (S k) - 1 - Z.of_nat n)))
        with (S (nrows t) + Z.to_nat (Z.min (Z.of_nat k) (start + 1 + Z.of_nat k - 1 - Z.of_nat n))) by lia.
      exact F5.
Qed.

(** [k] values are written; then either all are done or value [k] hits a
    non-NULL (or non-existing) cell *)
Lemma fill_loop_spec vs : forall t col start n extend overwrite t' ok,
  col ∈ colnames t -> n <= nrows t -> ((start <= Z.of_nat n)%Z -> n = nrows t) ->
  (forall i, i < nrows t -> n <= i -> True) ->
  fill_loop aff t col vs start (Z.of_nat n) extend overwrite = (t', ok) ->
  exists k, k <= length vs /\ filled aff n t col (take k vs) start extend t' /\
    (ok = true -> k = length vs) /\
    (overwrite = true -> ok = true) /\
    (overwrite = false ->
       (forall j, j < k -> (start + Z.of_nat j <= Z.of_nat n)%Z -> writable t col (start + Z.of_nat j))) /\
    (ok = false -> k < length vs /\ (start + Z.of_nat k <= Z.of_nat n)%Z /\
                   ~ writable t col (start + Z.of_nat k)).
Proof.
  induction vs as [|v vs IH]; intros t col start n extend overwrite t' ok Hc Hn Hns Htr H.
  - simpl in H. injection H as <- <-. exists 0. simpl. split; [lia|]. split; [apply filled_nil|].
    repeat split; auto; try discriminate; lia.
  - cbn [fill_loop] in H. destruct (Z.leb_spec start (Z.of_nat n)) as [Hle|Hgt].
    + specialize (Hns Hle).
      set (i0 := Z.to_nat (start - 1)) in *.
      assert (Hwr : (if (start <? 1)%Z then false
                     else match t_rows t !! i0 with Some r => is_null (cell r col) | None => false end) = true
                    <-> writable t col start).
      { unfold writable, cell_at. fold i0. destruct (Z.ltb_spec start 1) as [H1|H1].
        - split; [discriminate|]. lia.
        - destruct (t_rows t !! i0) as [r|] eqn:E; simpl.
          + split.
            * intros En. split; [lia|]. f_equal. destruct (cell r col); simpl in En; congruence.
            * intros [_ Hv]. injection Hv as Hv. now rewrite Hv.
          + split; [discriminate|]. intros [_ Hv]. discriminate. }
      destruct (if overwrite then true else _) eqn:Eok.
      * (* written *)
        assert (Hsome : exists t1, (t1 = if (start <? 1)%Z then t else update_cell aff t col i0 v) /\
                 fill_loop aff t1 col vs (start + 1) (Z.of_nat n) extend overwrite = (t', ok)) by eauto.
        destruct Hsome as [t1 [Et1 H1]].
        assert (Hcols : t_cols t1 = t_cols t) by (subst t1; destruct (start <? 1)%Z; reflexivity).
        assert (Hnr : nrows t1 = nrows t).
        { subst t1; destruct (start <? 1)%Z; [reflexivity|apply nrows_update]. }
        destruct (IH t1 col (start + 1)%Z n extend overwrite t' ok) as (k & K1 & K2 & K3 & K4 & K5 & K6).
        { unfold colnames. rewrite Hcols. exact Hc. } { lia. } { lia. } { auto. } { exact H1. }
        assert (Hw : forall j, (start + 1 + Z.of_nat j <= Z.of_nat n)%Z ->
                  writable t1 col (start + 1 + Z.of_nat j) <-> writable t col (start + Z.of_nat (S j))).
        { intros j Hj. replace (start + Z.of_nat (S j))%Z with (start + 1 + Z.of_nat j)%Z by lia.
          unfold writable. subst t1. destruct (Z.ltb_spec start 1) as [Hs|Hs]; [tauto|].
          rewrite get_update_ne; [tauto|]. left. unfold i0. lia. }
        exists (S k). simpl length. split; [lia|]. split.
        { cbn [take]. subst t1. destruct (Z.ltb_spec start 1) as [Hs|Hs].
          - now apply filled_skip.
          - apply filled_update; [lia|lia|]. exact K2. }
        split; [intros; rewrite K3; auto|]. split; [exact K4|]. split.
        { intros Ho [|j] Hj Hjn.
          - rewrite Z.add_0_r. subst overwrite. now apply Hwr.
          - apply Hw; [lia|]. apply K5; auto; lia. }
        { intros Ho. destruct (K6 Ho) as (L1 & L2 & L3). split; [lia|]. split; [lia|].
          intros Hx. apply L3. apply Hw; [lia|]. exact Hx. }
      * (* refused *)
        injection H as <- <-. destruct overwrite; [discriminate|].
        exists 0. simpl. split; [lia|]. split; [apply filled_nil|].
        split; [discriminate|]. split; [discriminate|]. split; [lia|].
        intros _. split; [lia|]. split; [lia|]. rewrite Z.add_0_r. intros Hx. apply Hwr in Hx. congruence.
    + destruct extend.
      * rewrite insert_single in H by assumption.
        set (t1 := Tab (t_cols t) (t_rows t ++ [set_cell ∅ col (aff_col t col v)])) in *.
        assert (Hn1 : nrows t1 = S (nrows t)) by (unfold nrows; simpl; rewrite app_length; simpl; lia).
        destruct (IH t1 col (start + 1)%Z n true overwrite t' ok) as (k & K1 & K2 & K3 & K4 & K5 & K6).
        { exact Hc. } { lia. } { lia. } { auto. } { exact H. }
        exists (S k). simpl length. split; [lia|]. split; [apply filled_beyond_ext; auto|].
        split; [intros; rewrite K3; auto|]. split; [exact K4|]. split; [intros Ho j Hj; lia|].
        intros Ho. destruct (K6 Ho). lia.
      * destruct (IH t col (start + 1)%Z n false overwrite t' ok) as (k & K1 & K2 & K3 & K4 & K5 & K6).
        { exact Hc. } { lia. } { lia. } { auto. } { exact H. }
        exists (S k). simpl length. split; [lia|]. split; [apply filled_beyond_noext; auto|].
        split; [intros; rewrite K3; auto|]. split; [exact K4|]. split; [intros Ho j Hj; lia|].
        intros Ho. destruct (K6 Ho). lia.
Qed.

Lemma fill_column_spec t col vs start extend overwrite t' ok :
  col ∈ colnames t -> 0 < nrows t ->
  fill_column aff t col vs start extend overwrite = (t', ok) ->
  (extend = false /\ (Z.of_nat (nrows t) < start)%Z /\ t' = t /\ ok = false)
  \/ exists k, k <= length vs /\ filled aff (nrows t) t col (take k vs) start extend t' /\
    (ok = true -> k = length vs) /\ (overwrite = true -> ok = true) /\
    (overwrite = false -> forall j, j < k -> (start + Z.of_nat j <= Z.of_nat (nrows t))%Z ->
         writable t col (start + Z.of_nat j)) /\
    (ok = false -> k < length vs /\ (start + Z.of_nat k <= Z.of_nat (nrows t))%Z /\
                   ~ writable t col (start + Z.of_nat k)).
Proof.
  intros Hc Hn H. unfold fill_column in H. rewrite (proj2 (has_column_spec t col) Hc) in H.
  simpl in H. unfold nrows in *. destruct (t_rows t) as [|r0 rs] eqn:E; [simpl in Hn; lia|].
  rewrite <- E in *.
  destruct (negb extend && negb (start <=? Z.of_nat (length (t_rows t)))%Z) eqn:Eb.
  - left. injection H as <- <-. apply andb_true_iff in Eb. destruct Eb as [E1 E2].
    apply negb_true_iff in E1, E2. apply Z.leb_gt in E2. auto.
  - right. eapply fill_loop_spec; eauto.
Qed.

Lemma fill_column_empty t col vs start extend overwrite :
  nrows t = 0 ->
  fill_column aff t col vs start extend overwrite
  = (t, has_column t col && (extend && match vs with [] => true | _ => false end)).
Proof.
  unfold nrows. intros H. unfold fill_column. destruct (has_column t col); simpl; [|reflexivity].
  destruct (t_rows t); [reflexivity|discriminate].
Qed.
End Fill.

(** ** get_dict *)
Lemma dict_get_set_eq {A} (d : list (string * A)) k v : dict_get (dict_set d k v) k = Some v.
Proof.
  induction d as [|[k' v'] d IH]; simpl; [now rewrite String.eqb_refl|].
  destruct (String.eqb_spec k' k) as [->|H]; simpl.
  - now rewrite String.eqb_refl.
  - apply String.eqb_neq in H. now rewrite H.
Qed.

Lemma dict_get_set_ne {A} (d : list (string * A)) k k' v :
  k <> k' -> dict_get (dict_set d k v) k' = dict_get d k'.
Proof.
  intros Hne. induction d as [|[k2 v2] d IH]; simpl.
  - apply String.eqb_neq in Hne. now rewrite Hne.
  - destruct (String.eqb_spec k2 k) as [->|H]; simpl.
    + apply String.eqb_neq in Hne. now rewrite Hne.
    + destruct (String.eqb_spec k2 k'); auto.
Qed.

Lemma dict_set_keys {A} (d : list (string * A)) k v :
  map fst (dict_set d k v) = if existsb (String.eqb k) (map fst d) then map fst d else map fst d ++ [k].
Proof.
  induction d as [|[k' v'] d IH]; simpl; [reflexivity|].
  rewrite (String.eqb_sym k k'). destruct (String.eqb_spec k' k) as [->|H]; simpl; [reflexivity|].
  rewrite IH. now destruct (existsb (String.eqb k) (map fst d)).
Qed.

Lemma init_get {A} cols (d : list (string * list A)) c :
  dict_get (fold_left (fun d c => dict_set d c []) cols d) c
  = if existsb (String.eqb c) cols then Some [] else dict_get d c.
Proof.
  revert d; induction cols as [|k cols IH]; intros d; simpl; [reflexivity|].
  rewrite IH. destruct (String.eqb_spec c k) as [->|H]; simpl.
  - rewrite dict_get_set_eq. now destruct (existsb (String.eqb k) cols).
  - rewrite dict_get_set_ne by congruence. reflexivity.
Qed.

Lemma row_get {A} cols row (d : list (string * list A)) c l :
  dict_get d c = Some l ->
  dict_get (fold_left (fun d cv => dict_append d (fst cv) (snd cv)) (combine cols row) d) c
  = Some (l ++ values_named c cols row).
Proof.
  revert row d l; induction cols as [|k cols IH]; intros row d l H; simpl.
  - now rewrite app_nil_r.
  - destruct row as [|v row]; simpl; [now rewrite app_nil_r|].
    destruct (String.eqb_spec k c) as [->|Hne].
    + rewrite app_assoc. apply IH. unfold dict_append. rewrite H. apply dict_get_set_eq.
    + simpl. apply IH. unfold dict_append. destruct (dict_get d k); [|exact H].
      now rewrite dict_get_set_ne.
Qed.

Lemma get_dict_value {A} cols (rows : list (list A)) c :
  c ∈ cols ->
  dict_get (get_dict cols rows) c = Some (concat (map (values_named c cols) rows)).
Proof.
  intros Hc. unfold get_dict.
  assert (H0 : dict_get (fold_left (fun d c => dict_set d c []) cols ([] : list (string * list A))) c = Some []).
  { rewrite init_get. replace (existsb (String.eqb c) cols) with true; [reflexivity|].
    symmetry. apply existsb_exists. exists c. split; [now apply elem_of_list_In|apply String.eqb_refl]. }
  revert H0. generalize (fold_left (fun d c => dict_set d c []) cols ([] : list (string * list A))) as d.
  intros d. change (concat (map (values_named c cols) rows)) with ([] ++ concat (map (values_named c cols) rows)).
  generalize (@nil A) as l. revert d. induction rows as [|row rows IH]; intros d l H; simpl.
  - now rewrite app_nil_r.
  - rewrite app_assoc. apply IH. now apply row_get.
Qed.

Lemma get_dict_missing {A} cols (rows : list (list A)) c :
  c ∉ cols -> dict_get (get_dict cols rows) c = None.
Proof.
  intros Hc. unfold get_dict.
  assert (H0 : dict_get (fold_left (fun d c => dict_set d c []) cols ([] : list (string * list A))) c = None).
  { rewrite init_get. destruct (existsb (String.eqb c) cols) eqn:E; [|reflexivity].
    apply existsb_exists in E. destruct E as [x [Hx E]]. apply String.eqb_eq in E. subst.
    exfalso. apply Hc. now apply elem_of_list_In. }
  assert (Hrow : forall row (d : list (string * list A)), dict_get d c = None ->
     dict_get (fold_left (fun d cv => dict_append d (fst cv) (snd cv)) (combine cols row) d) c = None).
  { clear H0 rows. induction cols as [|k cols IH]; intros row d H; simpl; [exact H|].
    destruct row as [|v row]; simpl; [exact H|].
    apply IH; [set_solver|]. unfold dict_append. destruct (dict_get d k); [|exact H].
    rewrite dict_get_set_ne; [exact H|set_solver]. }
  revert H0. generalize (fold_left (fun d c => dict_set d c []) cols ([] : list (string * list A))) as d.
  induction rows as [|row rows IH]; intros d H; simpl; auto.
Qed.

Lemma values_named_nodup {A} c cols (row : list A) j v :
  NoDup cols -> cols !! j = Some c -> row !! j = Some v -> values_named c cols row = [v].
Proof.
  revert row j. induction cols as [|k cols IH]; intros row j Hn Hj Hv; [discriminate|].
  apply NoDup_cons in Hn. destruct Hn as [Hk Hn].
  destruct row as [|w row]; [destruct j; discriminate|]. simpl.
  assert (Hnil : forall row : list A, c ∉ cols -> values_named c cols row = []).
  { clear. induction cols as [|k cols IH]; intros row H; simpl; [reflexivity|].
    destruct row as [|w row]; [reflexivity|]. destruct (String.eqb_spec k c) as [->|]; [set_solver|].
    simpl. apply IH. set_solver. }
  destruct j as [|j]; simpl in Hj, Hv.
  - injection Hj as ->. injection Hv as ->. rewrite String.eqb_refl. simpl. now rewrite Hnil.
  - destruct (String.eqb_spec k c) as [->|].
    + exfalso. apply Hk. eapply elem_of_list_lookup_2; eauto.
    + simpl. eauto.
Qed.

Lemma get_dict_transposes {A} cols (rows : list (list A)) j c :
  NoDup cols -> Forall (fun r => length r = length cols) rows -> cols !! j = Some c ->
  exists l, dict_get (get_dict cols rows) c = Some l /\ length l = length rows /\
    forall i row, rows !! i = Some row -> l !! i = row !! j.
Proof.
  intros Hn HF Hj. exists (concat (map (values_named c cols) rows)).
  split; [apply get_dict_value; eapply elem_of_list_lookup_2; eauto|].
  assert (Hjl : j < length cols) by (apply lookup_lt_is_Some_1; eauto).
  induction HF as [|row rows Hr HF [IH1 IH2]]; simpl; [split; [reflexivity|discriminate]|].
  destruct (row !! j) as [v|] eqn:Ev; [|apply lookup_ge_None in Ev; lia].
  rewrite (values_named_nodup c cols row j v Hn Hj Ev). simpl. split; [lia|].
  intros [|i] r Hi; simpl in *; [congruence|auto].
Qed.

(** ** sql_column, sql_matrix *)
Lemma all_some_spec {A} (l : list (option A)) r : all_some l = Some r <-> l = map Some r.
Proof.
  revert r; induction l as [|o l IH]; intros r; simpl.
  - split; [intros [= <-]; reflexivity|]. destruct r; [reflexivity|discriminate].
  - destruct o as [x|].
    + destruct (all_some l) as [y|] eqn:E.
      * split.
        -- intros [= <-]. simpl. f_equal. now apply IH.
        -- destruct r as [|z r]; [discriminate|]. simpl. intros [= -> H]. f_equal. f_equal.
           apply IH in H. congruence.
      * split; [discriminate|]. destruct r as [|z r]; [discriminate|]. simpl. intros [= -> H].
        apply IH in H. discriminate.
    + split; [discriminate|]. destruct r; discriminate.
Qed.

Lemma all_some_length {A} (l : list (option A)) r : all_some l = Some r -> length r = length l.
Proof. intros H. apply all_some_spec in H. subst. now rewrite map_length. Qed.

Lemma all_some_lookup {A} (l : list (option A)) r i : all_some l = Some r -> l !! i = Some <$> (r !! i).
Proof. intros H. apply all_some_spec in H. subst. apply list_lookup_fmap. Qed.

Lemma combine_map_same {A B C} (f : A -> B) (g : A -> C) l :
  combine (map f l) (map g l) = map (fun x => (f x, g x)) l.
Proof. induction l; simpl; congruence. Qed.

Lemma sql_column_spec key lst ty sf ff r :
  sql_column key lst ty sf ff = Some r ->
  lst <> [] /\ length r = length lst /\
  (forall i x, lst !! i = Some x -> exists e, r !! i = Some e /\ e_key e = key /\
      e_sqlval e = sf x /\ e_fileval e = (if is_null (ff x) then sf x else ff x)) /\
  (forall e e', e ∈ r -> e' ∈ r -> e_type e = e_type e').
Proof.
  unfold sql_column. destruct (map sf lst) as [|s0 svs] eqn:E; [discriminate|].
  rewrite <- E. destruct (forallb _ _); [|discriminate].
  destruct (match ty with None => _ | Some t => _ end) as [ty'|]; [|discriminate].
  rewrite combine_map_same, map_map. intros H. split; [intros ->; discriminate|].
  split; [rewrite (all_some_length _ _ H); now rewrite map_length|].
  assert (Hi : forall i, option_map (fun x => mk_entry key (Some ty') (sf x) (ff x)) (lst !! i)
                         = Some <$> (r !! i)).
  { intros i. rewrite <- (all_some_lookup _ _ i H). symmetry. apply list_lookup_fmap. }
  split.
  - intros i x Hx. specialize (Hi i). rewrite Hx in Hi. simpl in Hi.
    destruct (r !! i) as [e|]; [|discriminate]. exists e. split; [reflexivity|].
    unfold mk_entry in Hi. injection Hi as <-. auto.
  - assert (Ht : forall e, e ∈ r -> e_type e = fix_sqltype ty').
    { intros e He. apply elem_of_list_lookup in He. destruct He as [i He]. specialize (Hi i).
      rewrite He in Hi. destruct (lst !! i); [|discriminate]. unfold mk_entry in Hi.
      injection Hi as <-. reflexivity. }
    intros e e' He He'. rewrite (Ht _ He), (Ht _ He'). reflexivity.
Qed.

Lemma matrix_row_spec h sf ff row r :
  matrix_row h sf ff row = Some r <->
  length row <= length h /\ length r = length row /\
  (forall j x, row !! j = Some x -> exists k ty, h !! j = Some (k, ty) /\
     r !! j = Some (SE k (fix_sqltype ty) (sf k x) (if is_null (ff k x) then sf k x else ff k x))).
Proof.
  revert h r; induction row as [|x xs IH]; intros h r; simpl.
  - split.
    + intros [= <-]. simpl. split; [lia|]. split; [reflexivity|]. discriminate.
    + intros (_ & H & _). destruct r; [reflexivity|discriminate].
  - destruct h as [|[k ty] h].
    + split; [discriminate|]. simpl. intros (H & _). lia.
    + unfold mk_entry. destruct (matrix_row h sf ff xs) as [es|] eqn:E.
      * apply IH in E. destruct E as (E1 & E2 & E3). split.
        -- intros [= <-]. simpl. split; [lia|]. split; [lia|].
           intros [|j] y Hy; simpl in *; [injection Hy as ->; eauto|auto].
        -- simpl. intros (H1 & H2 & H3). f_equal. destruct r as [|e r]; [discriminate|].
           simpl in H2. destruct (H3 0 x eq_refl) as (k0 & ty0 & Hk & He).
           simpl in Hk, He. injection Hk as <- <-. injection He as ->. f_equal.
           apply list_eq. intros j. destruct (xs !! j) as [y|] eqn:Ey.
           ++ destruct (E3 j y Ey) as (k1 & ty1 & Hk1 & He1).
              destruct (H3 (S j) y Ey) as (k2 & ty2 & Hk2 & He2). simpl in Hk2, He2.
              rewrite Hk1 in Hk2. injection Hk2 as <- <-. congruence.
           ++ apply lookup_ge_None in Ey.
              rewrite (proj2 (lookup_ge_None es j)), (proj2 (lookup_ge_None r j)); auto; lia.
      * split; [discriminate|]. simpl. intros (H1 & H2 & H3). exfalso.
        destruct r as [|e r]; [discriminate|]. simpl in H2.
        assert (None = Some r) as Hc; [|discriminate]. rewrite <- E. apply IH.
        split; [lia|]. split; [lia|]. intros j y Hy. apply (H3 (S j) y Hy).
Qed.

Lemma sql_matrix_spec lists header sf ff m :
  sql_matrix_header lists header sf ff = Some m ->
  length m = length lists /\
  forall i row, lists !! i = Some row ->
    length row <= length header /\
    exists mr, m !! i = Some mr /\ length mr = length row /\
      forall j x, row !! j = Some x -> exists k ty, header !! j = Some (k, ty) /\
        mr !! j = Some (SE k (fix_sqltype ty) (sf k x) (if is_null (ff k x) then sf k x else ff k x)).
Proof.
  unfold sql_matrix_header. destruct lists as [|r0 rest] eqn:El; [discriminate|]. rewrite <- El.
  destruct (Nat.eqb _ _); [|discriminate]. intros H.
  split; [rewrite (all_some_length _ _ H); now rewrite map_length|].
  intros i row Hi. pose proof (all_some_lookup _ _ i H) as Hl.
  assert (Hm : map (matrix_row header sf ff) lists !! i = Some (matrix_row header sf ff row)).
  { change (map (matrix_row header sf ff) lists) with (matrix_row header sf ff <$> lists).
    rewrite list_lookup_fmap, Hi. reflexivity. }
  rewrite Hm in Hl. destruct (m !! i) as [mr|] eqn:Emr; [|discriminate]. simpl in Hl.
  injection Hl as Hl. apply matrix_row_spec in Hl. destruct Hl as (H1 & H2 & H3).
  split; [exact H1|]. exists mr. auto.
Qed.

Lemma sql_matrix_long_row lists header sf ff i row :
  lists !! i = Some row -> length header < length row -> sql_matrix_header lists header sf ff = None.
Proof.
  intros Hi Hl. destruct (sql_matrix_header lists header sf ff) as [m|] eqn:E; [|reflexivity].
  destruct (sql_matrix_spec _ _ _ _ _ E) as [_ H]. destruct (H i row Hi) as [Hle _]. lia.
Qed.

Lemma sql_matrix_total lists header sf ff r0 rest :
  lists = r0 :: rest -> length header = length r0 ->
  Forall (fun row => length row <= length header) lists ->
  exists m, sql_matrix_header lists header sf ff = Some m.
Proof.
  intros El Hl HF.
  assert (Hr : forall row, length row <= length header -> exists r, matrix_row header sf ff row = Some r).
  { clear. induction header as [|[k ty] h IH]; intros row Hl.
    - destruct row; [simpl; eauto|simpl in Hl; lia].
    - destruct row as [|x xs]; [simpl; eauto|]. simpl in *. destruct (IH xs) as [r Hr]; [lia|].
      rewrite Hr. unfold mk_entry. eauto. }
  assert (Ha : exists m, all_some (map (matrix_row header sf ff) lists) = Some m).
  { clear El Hl. induction HF as [|row rows H HF [m IH]]; simpl; [eauto|].
    destruct (Hr row H) as [r Er]. rewrite Er, IH. eauto. }
  subst lists. unfold sql_matrix_header. rewrite Hl, Nat.eqb_refl. exact Ha.
Qed.

Lemma sql_matrix_colnames_spec lists cols sf ff m :
  sql_matrix_colnames lists cols sf ff = Some m ->
  length m = length lists /\ (forall r0, lists !! 0 = Some r0 -> length r0 <= length cols) /\
  forall i row, lists !! i = Some row ->
    exists mr, m !! i = Some mr /\ length mr = length row /\
      forall j x, row !! j = Some x -> exists k ty r0 x0, cols !! j = Some k /\
        lists !! 0 = Some r0 /\ r0 !! j = Some x0 /\ find_sqltype x0 = Some ty /\
        mr !! j = Some (SE k (fix_sqltype ty) (sf k x) (if is_null (ff k x) then sf k x else ff k x)).
Proof.
  unfold sql_matrix_colnames, header_of_colnames. destruct lists as [|r0 rest] eqn:El; [discriminate|].
  destruct (all_some (map find_sqltype r0)) as [tys|] eqn:Et; [|discriminate]. rewrite <- El.
  intros H. pose proof (all_some_length _ _ Et) as Htl. rewrite map_length in Htl.
  assert (Hlen : length (combine cols tys) = length r0).
  { subst lists. unfold sql_matrix_header in H. destruct (Nat.eqb_spec (length (combine cols tys)) (length r0)); [assumption|discriminate]. }
  apply sql_matrix_spec in H. destruct H as [H1 H2]. rewrite combine_length in Hlen.
  split; [assumption|]. split.
  { intros r0' Hr. rewrite El in Hr. injection Hr as <-. lia. }
  intros i row Hi. destruct (H2 i row Hi) as (H3 & mr & H4 & H5 & H6).
  exists mr. split; [assumption|]. split; [assumption|].
  intros j x Hx. destruct (H6 j x Hx) as (k & ty & Hh & Hm).
  pose proof (all_some_lookup _ _ j Et) as Hl.
  change (map find_sqltype r0) with (find_sqltype <$> r0) in Hl. rewrite list_lookup_fmap in Hl.
  assert (Hc : cols !! j = Some k /\ tys !! j = Some ty).
  { revert Hh. clear. revert j tys. induction cols as [|c cols IH]; intros j tys H; [destruct j; discriminate|].
    destruct tys as [|t tys]; [destruct j; discriminate|]. destruct j as [|j]; simpl in *.
    - injection H as -> ->. auto.
    - eauto. }
  destruct Hc as [Hc Hty]. rewrite Hty in Hl. simpl in Hl.
  destruct (r0 !! j) as [x0|] eqn:Ex0; [|discriminate]. simpl in Hl. injection Hl as Hl.
  exists k, ty, r0, x0. repeat split; auto. rewrite El. reflexivity.
Qed.

(** ** attach_column *)
Lemma attach_column_spec aff t col vs ty start extend overwrite t' ok :
  attach_column aff t col vs ty start extend overwrite = (t', ok) ->
  (col ∈ colnames t -> overwrite = false -> t' = t /\ ok = false) /\
  (forall i c, c <> col -> i < nrows t -> cell_at t' i c = cell_at t i c).
Proof.
  unfold attach_column. intros H. split.
  - intros Hc ->. apply has_column_spec in Hc. rewrite Hc in H. simpl in H. injection H as <- <-. auto.
  - intros i c Hne Hi. destruct (negb overwrite && has_column t col); [injection H as <- <-; reflexivity|].
    destruct (match ty with Some ty => Some ty | None => _ end) as [ty'|]; [|injection H as <- <-; reflexivity].
    destruct (add_column t col ty') as [t1|] eqn:E; [|injection H as <- <-; reflexivity].
    rewrite <- (add_column_cells _ _ _ _ i c E).
    assert (Hn : nrows t1 = nrows t) by (unfold nrows; now rewrite (add_column_rows _ _ _ _ E)).
    destruct (decide (nrows t1 = 0)) as [H0|H0]; [lia|].
    destruct (fill_column_spec aff _ _ _ _ _ _ _ _ (add_column_has _ _ _ _ E) ltac:(lia) H)
      as [(_ & _ & -> & _)|(k & _ & F & _)]; [reflexivity|].
    apply (fl_old _ _ _ _ _ _ _ _ F); [lia|]. intros (-> & _). contradiction.
Qed.

(** ** insert_row, makedb *)
Section Ins.
Variable aff : string -> val -> val.

Lemma fold_set_cells (f : string -> val -> val) rec : forall r,
  (forall c, c ∉ map fst rec -> cell (fold_left (fun r kv => set_cell r (fst kv) (f (fst kv) (snd kv))) rec r) c = cell r c) /\
  (NoDup (map fst rec) -> forall c v, (c, v) ∈ rec ->
     cell (fold_left (fun r kv => set_cell r (fst kv) (f (fst kv) (snd kv))) rec r) c = f c v).
Proof.
  induction rec as [|[k v] rec IH]; intros r; simpl.
  - split; [auto|]. intros _ c v H. apply elem_of_nil in H. contradiction.
  - destruct (IH (set_cell r k (f k v))) as [H1 H2]. split.
    + intros c Hc. rewrite H1 by set_solver. apply cell_set_ne. set_solver.
    + intros Hn c w Hw. apply NoDup_cons in Hn. destruct Hn as [Hk Hn].
      apply elem_of_cons in Hw. destruct Hw as [Hw|Hw]; [|auto]. injection Hw as -> ->.
      rewrite H1 by assumption. apply cell_set_eq.
Qed.

Lemma insert_row_spec t rec t' :
  insert_row aff t rec = Some t' ->
  t_cols t' = t_cols t /\ exists r, t_rows t' = t_rows t ++ [r] /\
    (forall c, c ∉ map fst rec -> cell r c = VNull) /\
    (NoDup (map fst rec) -> forall c v, (c, v) ∈ rec ->
        cell r c = aff (default ""%string (coltype t c)) v) /\
    (forall c, c ∈ map fst rec -> c ∈ colnames t).
Proof.
  unfold insert_row. destruct (forallb _ rec) eqn:E; [|discriminate]. intros [= <-]. simpl.
  split; [reflexivity|]. eexists. split; [reflexivity|].
  destruct (fold_set_cells (fun c v => aff (default ""%string (coltype t c)) v) rec ∅) as [H1 H2].
  split; [intros c Hc; rewrite H1 by assumption; apply cell_empty|]. split; [exact H2|].
  intros c Hc. rewrite forallb_forall in E. apply elem_of_list_In, in_map_iff in Hc.
  destruct Hc as [x [<- Hx]]. apply has_column_spec. auto.
Qed.

Definition new_row (t : table) (cols : list string) (row : list entry_t) (r : gmap string val) : Prop :=
  (forall c, c ∉ cols -> cell r c = VNull) /\
  (NoDup cols -> forall j c e, cols !! j = Some c -> row !! j = Some e ->
      cell r c = aff (default ""%string (coltype t c)) (e_sqlval e)).

Lemma insert_named_spec cols rows : forall t t' ok,
  insert_named aff t cols rows = (t', ok) ->
  t_cols t' = t_cols t /\ exists new, t_rows t' = t_rows t ++ new /\ length new <= length rows /\
    (ok = true -> length new = length rows) /\
    (forall i row r, rows !! i = Some row -> new !! i = Some r -> new_row t cols row r).
Proof.
  induction rows as [|row rows IH]; intros t t' ok H; simpl in H.
  - injection H as <- <-. split; [reflexivity|]. exists []. rewrite app_nil_r. repeat split; auto; discriminate.
  - assert (Hstop : (t, false) = (t', ok) -> t_cols t' = t_cols t /\ exists new, t_rows t' = t_rows t ++ new /\
      length new <= length (row :: rows) /\ (ok = true -> length new = length (row :: rows)) /\
      (forall i rw r, (row :: rows) !! i = Some rw -> new !! i = Some r -> new_row t cols rw r)).
    { intros [= <- <-]. split; [reflexivity|]. exists []. rewrite app_nil_r. simpl.
      split; [reflexivity|]. split; [lia|]. split; [discriminate|]. intros i rw r _ Hi. discriminate. }
    unfold named_row in H. destruct (Nat.eqb_spec (length cols) (length row)) as [Hl|Hl]; [|auto].
    destruct (insert_row aff t (combine cols (map e_sqlval row))) as [t1|] eqn:E; [|auto].
    apply insert_row_spec in E. destruct E as (E1 & r & E2 & E3 & E4 & _).
    apply IH in H. destruct H as (H1 & new & H2 & H3 & H4 & H5).
    assert (Hk : map fst (combine cols (map e_sqlval row)) = cols).
    { change (map fst ?l) with (l.*1). apply fst_zip. rewrite map_length. lia. }
    rewrite Hk in E3, E4.
    split; [congruence|]. exists (r :: new). rewrite H2, E2, <- app_assoc. simpl.
    split; [reflexivity|]. split; [lia|]. split; [intros; rewrite H4; auto|].
    intros [|i] rw r' Hi Hr; simpl in Hi, Hr.
    + injection Hi as <-. injection Hr as <-. split; [exact E3|].
      intros Hn j c e Hc He. apply E4; [assumption|].
      apply elem_of_list_lookup. exists j. clear - Hc He. revert row j Hc He.
      induction cols as [|c0 cols IH]; intros row j Hc He; [destruct j; discriminate|].
      destruct row as [|e0 row]; [destruct j; discriminate|].
      destruct j; simpl in *; [congruence|auto].
    + destruct (H5 i rw r' Hi Hr) as [G1 G2]. split; [exact G1|].
      intros Hn j c e Hc He. rewrite (G2 Hn j c e Hc He). unfold coltype. now rewrite E1.
Qed.

Lemma makedb_append_spec t lists cols sf ff t' ok :
  makedb aff (Some t) false lists cols sf ff = (Some t', ok) ->
  t_cols t' = t_cols t /\ exists new, t_rows t' = t_rows t ++ new /\ length new <= length lists /\
    (ok = true -> length new = length lists) /\
    (forall i row r, lists !! i = Some row -> new !! i = Some r ->
       (forall c, c ∉ cols -> cell r c = VNull) /\
       (NoDup cols -> forall j c x, cols !! j = Some c -> row !! j = Some x ->
          cell r c = aff (default ""%string (coltype t c)) (sf c x))).
Proof.
  unfold makedb. intros H.
  assert (Hstop : forall lists0 : list (list val), (Some t, false) = (Some t', ok) ->
    t_cols t' = t_cols t /\ exists new, t_rows t' = t_rows t ++ new /\ length new <= length lists0 /\
    (ok = true -> length new = length lists0) /\
    (forall i row r, lists0 !! i = Some row -> new !! i = Some r ->
       (forall c, c ∉ cols -> cell r c = VNull) /\
       (NoDup cols -> forall j c x, cols !! j = Some c -> row !! j = Some x ->
          cell r c = aff (default ""%string (coltype t c)) (sf c x)))).
  { intros l0 [= <- <-]. split; [reflexivity|]. exists []. rewrite app_nil_r. simpl.
    split; [reflexivity|]. split; [lia|]. split; [discriminate|]. intros i rw r _ Hi. discriminate. }
  destruct lists as [|r0 rest] eqn:El; [auto|]. rewrite <- El in *.
  destruct (Nat.eqb_spec (length cols) (length r0)) as [Hl|Hl]; [|auto]. simpl in H.
  destruct (all_some (map find_sqltype r0)) as [tys|] eqn:Et; [|auto].
  destruct (header_matches t (combine cols tys)); [|auto].
  destruct (sql_matrix_header lists (combine cols tys) sf ff) as [m|] eqn:Em; [|auto].
  destruct (insert_named aff t cols m) as [t1 ok1] eqn:Ei. injection H as <- <-.
  apply insert_named_spec in Ei. destruct Ei as (I1 & new & I2 & I3 & I4 & I5).
  apply sql_matrix_spec in Em. destruct Em as [M1 M2]. rewrite M1 in I3, I4.
  split; [assumption|]. exists new. split; [assumption|]. split; [assumption|]. split; [assumption|].
  intros i row r Hi Hr. destruct (M2 i row Hi) as (L & mr & Hmr & Hml & Hme).
  destruct (I5 i mr r Hmr Hr) as [G1 G2]. split; [exact G1|].
  intros Hn j c x Hc Hx. destruct (Hme j x Hx) as (k & ty & Hh & He).
  assert (k = c) as ->.
  { clear - Hh Hc. revert j tys Hh Hc. induction cols as [|c0 cols IH]; intros j tys H Hc; [destruct j; discriminate|].
    destruct tys as [|t tys]; [destruct j; discriminate|]. destruct j; simpl in *; [congruence|eauto]. }
  rewrite (G2 Hn j c _ Hc He). reflexivity.
Qed.
End Ins.

Lemma add_column_missing_all t c ty t' :
  tab_ok t -> c ∉ colnames t -> add_column t c ty = Some t' ->
  t_cols t' = t_cols t ++ [(c, fix_sqltype ty)] /\ nrows t' = nrows t /\
  (forall i c', cell_at t' i c' = cell_at t i c') /\
  (forall i, i < nrows t -> cell_at t' i c = Some VNull) /\ tab_ok t'.
Proof.
  intros Hok Hc H. split; [|split; [|split; [|split]]].
  - unfold add_column in H. destruct (has_column t c) eqn:E; [apply has_column_spec in E; contradiction|].
    destruct (ci_has (colnames t) c); [discriminate|]. injection H as <-. reflexivity.
  - unfold nrows. now rewrite (add_column_rows _ _ _ _ H).
  - intros i c'. eapply add_column_cells; eauto.
  - intros i Hi. eapply add_column_new_null; eauto.
  - eapply add_column_ok; eauto.
Qed.

Lemma fill_column_keeps aff t col vs start extend t' ok i c v :
  col ∈ colnames t -> 0 < nrows t ->
  fill_column aff t col vs start extend false = (t', ok) ->
  cell_at t i c = Some v -> v <> VNull -> cell_at t' i c = Some v.
Proof.
  intros Hc Hn H Hv Hnull.
  assert (Hi : i < nrows t).
  { unfold cell_at, nrows in *. destruct (t_rows t !! i) eqn:E; [|discriminate].
    apply lookup_lt_is_Some_1. eauto. }
  destruct (fill_column_spec _ _ _ _ _ _ _ _ _ Hc Hn H) as [(_ & _ & -> & _)|(k & K & F & _ & _ & W & _)];
    [exact Hv|].
  rewrite (fl_old _ _ _ _ _ _ _ _ F); [exact Hv|exact Hi|]. intros (-> & _ & Hr).
  rewrite take_length in Hr.
  destruct (W eq_refl (Z.to_nat (Z.of_nat i + 1 - start)) ltac:(lia) ltac:(lia)) as [_ Hw].
  replace (Z.to_nat (start + Z.of_nat (Z.to_nat (Z.of_nat i + 1 - start)) - 1)) with i in Hw by lia.
  congruence.
Qed.

(** ** Types *)
Lemma upper_ascii_spec c : same_letter c (upper_ascii c) /\ capital (upper_ascii c).
Proof.
  unfold upper_ascii. pose proof (nat_ascii_bounded c) as B. pose proof (ascii_nat_embedding c) as EM. set (n := nat_of_ascii c) in *.
  destruct (Nat.leb_spec 97 n) as [H1|H1]; [destruct (Nat.leb_spec n 122) as [H2|H2]|]; simpl.
  - split.
    + right. exists (n - 97)%nat. split; [lia|]. right. rewrite <- EM. split; f_equal; lia.
    + intros k Hk E. apply (f_equal nat_of_ascii) in E. rewrite !nat_ascii_embedding in E by lia. lia.
  - split; [left; reflexivity|]. intros k Hk E. apply (f_equal nat_of_ascii) in E. rewrite nat_ascii_embedding in E by lia. fold n in E. lia.
  - split; [left; reflexivity|]. intros k Hk E. apply (f_equal nat_of_ascii) in E. rewrite nat_ascii_embedding in E by lia. fold n in E. lia.
Qed.
Lemma fix_sqltype_declared t : declared t (fix_sqltype t).
Proof.
  exists (upper t). split; [|split].
  - unfold upper. induction t as [|c t IH]; simpl; constructor; [apply upper_ascii_spec|exact IH].
  - unfold upper. induction t as [|c t IH]; simpl; constructor; [apply upper_ascii_spec|exact IH].
  - unfold fix_sqltype. destruct (String.eqb_spec (upper t) "FLOAT"); auto.
Qed.
Lemma find_sqltype_spec v t : find_sqltype v = Some t <-> sqltype_of v t.
Proof. split; [destruct v; simpl; intros E; try discriminate; injection E as <-; constructor|destruct 1; reflexivity]. Qed.
Lemma upper_upper t : upper (upper t) = upper t.
Proof.
  unfold upper. induction t as [|c t IH]; simpl; [reflexivity|]. f_equal; [|exact IH].
  unfold upper_ascii at 1. destruct (upper_ascii_spec c) as [_ C]. unfold capital in C.
  destruct (Nat.leb_spec 97 (nat_of_ascii (upper_ascii c))); [|reflexivity]. destruct (Nat.leb_spec (nat_of_ascii (upper_ascii c)) 122); [|reflexivity].
  exfalso. apply (C (nat_of_ascii (upper_ascii c) - 97)%nat); [lia|]. replace (97 + (nat_of_ascii (upper_ascii c) - 97))%nat with (nat_of_ascii (upper_ascii c)) by lia.
  symmetry. apply ascii_nat_embedding.
Qed.
Lemma fix_upper t : fix_sqltype (upper t) = fix_sqltype t.
Proof. unfold fix_sqltype. rewrite upper_upper. reflexivity. Qed.
Lemma fix_known v t : sqltype_of v t -> fix_sqltype t = t.
Proof. destruct 1; reflexivity. Qed.
Lemma type_tag_spec v w t : sqltype_of v t -> type_tag w = type_tag v <-> sqltype_of w t.
Proof. destruct 1; destruct w; simpl; split; intros H; try discriminate; try constructor; inversion H; reflexivity. Qed.

Lemma sql_column_types key lst ty sf ff r e :
  sql_column key lst ty sf ff = Some r -> e ∈ r ->
  match ty with Some t => declared t (e_type e) | None => forall x, x ∈ lst -> sqltype_of (sf x) (e_type e) end.
Proof.
  unfold sql_column. destruct (map sf lst) as [|s0 svs] eqn:E; [discriminate|]. rewrite <- E.
  destruct (forallb _ _) eqn:F; [|discriminate].
  destruct (match ty with None => _ | Some t => _ end) as [ty'|] eqn:T; [|discriminate].
  rewrite combine_map_same, map_map. intros H He.
  assert (Ht : e_type e = fix_sqltype ty').
  { apply elem_of_list_lookup in He. destruct He as [i He].
    assert (Hi : option_map (fun x => mk_entry key (Some ty') (sf x) (ff x)) (lst !! i) = Some <$> (r !! i)).
    { rewrite <- (all_some_lookup _ _ i H). symmetry. apply list_lookup_fmap. }
    rewrite He in Hi. destruct (lst !! i); [|discriminate]. unfold mk_entry in Hi. injection Hi as <-. reflexivity. }
  rewrite Ht. destruct ty as [t|].
  - injection T as <-. rewrite fix_upper. apply fix_sqltype_declared.
  - apply find_sqltype_spec in T. rewrite (fix_known _ _ T). intros x Hx. apply elem_of_list_In in Hx.
    rewrite forallb_forall in F. specialize (F (sf x)). rewrite Nat.eqb_eq in F. apply (type_tag_spec _ _ _ T). apply F. apply in_map. exact Hx.
Qed.
Lemma sql_column_defined key lst ty sf ff :
  (exists r, sql_column key lst ty sf ff = Some r) <->
  lst <> [] /\ (forall x y, x ∈ lst -> y ∈ lst -> type_tag (sf x) = type_tag (sf y)) /\ (ty = None -> forall x, x ∈ lst -> exists t, sqltype_of (sf x) t).
Proof.
  unfold sql_column. destruct (map sf lst) as [|s0 svs] eqn:E.
  { split; [intros [r H]; discriminate|]. intros [NE _]. destruct lst; [congruence|discriminate]. }
  rewrite <- E. destruct lst as [|x0 lst]; [discriminate|]. simpl in E. injection E as E1 E2. subst s0.
  assert (AS : forall ty', exists r, all_some (map (fun sf0 : val * val => mk_entry key (Some ty') sf0.1 sf0.2) (combine (map sf (x0 :: lst)) (map ff (x0 :: lst)))) = Some r).
  { intros ty'. rewrite combine_map_same, map_map. generalize (x0 :: lst). clear. induction l as [|x l [r IH]]; [eexists; reflexivity|]. cbn [map all_some fst snd] in *. unfold mk_entry at 1. rewrite IH. eauto. }
  assert (FB : forallb (fun s => Nat.eqb (type_tag s) (type_tag (sf x0))) (map sf (x0 :: lst)) = true <-> forall x y, x ∈ x0 :: lst -> y ∈ x0 :: lst -> type_tag (sf x) = type_tag (sf y)).
  { rewrite forallb_forall. split.
    - intros F. assert (G : forall x, x ∈ x0 :: lst -> type_tag (sf x) = type_tag (sf x0)).
      { intros x Hx. apply Nat.eqb_eq, F, in_map, elem_of_list_In, Hx. }
      intros x y Hx Hy. rewrite (G x Hx), (G y Hy). reflexivity.
    - intros G s Hs. apply in_map_iff in Hs. destruct Hs as (x & <- & Hx). apply Nat.eqb_eq, G; [apply elem_of_list_In, Hx|left]. }
  destruct (forallb _ _).
  - destruct ty as [t|].
    + split; [|intros _; apply AS]. intros _. split; [discriminate|]. split; [apply FB; reflexivity|discriminate].
    + destruct (find_sqltype (sf x0)) as [t|] eqn:T.
      * split; [|intros _; apply AS]. intros _. split; [discriminate|]. split; [apply FB; reflexivity|]. intros _ x Hx. exists t. apply find_sqltype_spec in T.
        apply (type_tag_spec _ _ _ T). apply FB; [reflexivity|exact Hx|left].
      * split; [intros [r H]; discriminate|]. intros (_ & _ & K). destruct (K eq_refl x0) as [t Ht]; [left|]. apply find_sqltype_spec in Ht. congruence.
  - split; [intros [r H]; discriminate|]. intros (_ & K & _). apply FB in K. discriminate.
Qed.
