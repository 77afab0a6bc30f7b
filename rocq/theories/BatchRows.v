(** Proofs about single calls of write_input: appended rows and their values. *)
From Coq Require Import Ascii String ZArith Lia.
From stdpp Require Import base gmap strings pretty list.
From Verif Require Import Comb Template TemplateSpec Sql SqlSpec SqlProofs Fs FsProofs Batch BatchSpec BatchProofs BatchInv.
Local Open Scope string_scope.
Local Open Scope list_scope.

Lemma entries_flat p l : entries p l -> l = flatten_pset p.
Proof.
  revert p l. fix IH 3. intros p l H. destruct H as [e|ps ls H]; [reflexivity|]. simpl.
  induction H as [|p l' ps ls Hp Hps IHl]; [reflexivity|]. simpl. rewrite IHl. f_equal. now apply IH.
Qed.
Lemma entries_flats ps ls : Forall2 entries ps ls -> concat ls = flat_map flatten_pset ps.
Proof. induction 1 as [|p l ps ls Hp Hps IH]; [reflexivity|]. simpl. rewrite IH. f_equal. now apply entries_flat. Qed.

Lemma entries_total ps : exists ls, Forall2 entries ps ls.
Proof.
  induction ps as [|p ps [ls IH]]; [exists []; constructor|]. exists (flatten_pset p :: ls).
  constructor; [apply flatten_pset_entries|assumption].
Qed.

Lemma ctype_coltype t k : ctype (t_cols t) k = default "" (coltype t k).
Proof. reflexivity. Qed.

Section Rows.
Variable aff : string -> val -> val.
Variable root : path.
Variable db_name : string.
Notation db := (dbfn root db_name).
Notation write c := (write_input aff root db_name c).
Notation stored := (stored root db_name).

Lemma stops_prefix c f tb n t s :
  call_ok db_name c -> c_w c = false -> f !! db = Some (EDb tb) -> tb !! n = Some t ->
  s ∈ stops (write c) (St f None) -> forall f', f' = fs s \/ f' = fs (commit db s) ->
  exists t', stored f' n t' /\ (exists ext, t_cols t' = t_cols t ++ ext) /\
    exists new, t_rows t' = t_rows t ++ new /\ length new <= length (c_params c).
Proof.
  intros Hok Hw Hf Hn Hs f' Hf'. apply write_input_stops in Hs; [|assumption|reflexivity].
  destruct Hs as [[Hx [_ H]]|(new & tb0 & rv & mi & recs0 & h & Hnew & Hnum & Hrecs & (tb1 & j & Hd & Hst) & Ht)].
  - assert (E : f' = fs s) by (destruct Hf' as [-> | ->]; [reflexivity|unfold commit; now rewrite Hx]). subst f'.
    simpl in H. rewrite Hf in H. destruct H as [H|[[H _]|[[H|H] _]]]; try congruence.
    exists t. split; [exists tb; auto|]. split; [exists []; now rewrite app_nil_r|]. exists []. rewrite app_nil_r. split; [reflexivity|simpl; lia].
  - simpl in Hnew. rewrite Hf, Hw in Hnew. destruct Hnew as [(_ & _ & [H|H])|(-> & _ & H)]; try discriminate. injection H as <-.
    assert (Hl : length (map (add_hostname h) recs0) <= length (c_params c)).
    { rewrite map_length. destruct Hrecs as [[-> _]|(_ & z & _ & ->)]; [simpl; lia|]. now rewrite recs_from_length. }
    assert (G : forall tb' j', db_state aff c tb false (map (add_hostname h) recs0) tb' j' -> f' !! db = Some (EDb tb') ->
      exists t', stored f' n t' /\ (exists ext, t_cols t' = t_cols t ++ ext) /\
        exists new, t_rows t' = t_rows t ++ new /\ length new <= length (c_params c)).
    { intros tb' j' Hs' Hf2. destruct (db_state_prefix _ _ _ _ _ _ _ _ Hs' Hn) as (t' & A & B & nw & C & D).
      exists t'. split; [exists tb'; auto|]. split; [assumption|]. exists nw. split; [assumption|lia]. }
    destruct Hf' as [-> | ->]; [eauto|]. unfold commit in *. destruct (txn s) as [tb2|] eqn:E; [|eauto].
    destruct (Ht _ eq_refl) as [j' Hj']. eapply G; [exact Hj'|]. apply lookup_insert.
Qed.

(** A call that ends normally. *)
Lemma success c f s' u :
  call_ok db_name c -> exec (write c) (St f None) = (s', Some u) ->
  exists new tb0 tb t rv mi h,
    ((new = true /\ tb0 = ∅ /\ (f !! db = None \/ c_w c = true)) \/
     (new = false /\ c_w c = false /\ f !! db = Some (EDb tb0))) /\
    numbers c new tb0 rv mi /\
    fs s' !! db = Some (EDb tb) /\ tb !! c_table c = Some t /\
    (exists ext, t_cols t = cols_of tb0 (c_table c) ++ ext) /\
    (forall n, n <> c_table c -> tb !! n = tb0 !! n) /\
    ((t_rows t = rows_of tb0 (c_table c) /\ (c_machines c = [] \/ c_params c = [])) \/
     (c_machines c <> [] /\ hostname_val c = Some h /\ exists z, mi = Some z /\
      t_rows t = rows_of tb0 (c_table c) ++
        map (fun r => ins_row aff (t_cols t) (sqlvals r)) (the_recs c h rv z (c_params c)) /\
      fits (t_cols t) (the_recs c h rv z (c_params c)))).
Proof.
  intros Hok H. apply write_input_exec in H; [|assumption|reflexivity].
  destruct H as (_ & new & tb0 & rv & mi & recs0 & h & Hnew & Hnum & Hrecs & tb & t & Hf & Ht & Hs & Hfit).
  exists new, tb0, tb, t, rv, mi, h. split; [exact Hnew|]. split; [assumption|]. split; [assumption|]. split; [assumption|].
  assert (Hn : new = true -> tb0 !! c_table c = None).
  { destruct Hnew as [(_ & -> & _)|(-> & _)]; [intros; apply lookup_empty|discriminate]. }
  destruct (db_state_full _ _ _ _ _ _ _ _ Hs Ht Hn) as (A & B & C). split; [assumption|]. split; [assumption|].
  rewrite firstn_all in B.
  destruct Hrecs as [[-> Hr]|(Hm & Hh & z & -> & ->)].
  - left. simpl in B. rewrite app_nil_r in B. auto.
  - right. split; [assumption|]. split; [assumption|]. exists z. auto.
Qed.

Lemma rows_before f c (new : bool) (tb0 : tables) :
  ((new = true /\ tb0 = ∅ /\ (f !! db = None \/ c_w c = true)) \/
   (new = false /\ c_w c = false /\ f !! db = Some (EDb tb0))) ->
  (forall t, c_w c = false -> stored f (c_table c) t -> new = false /\ tb0 !! c_table c = Some t) /\
  (c_w c = true \/ f !! db = None -> new = true /\ tb0 = ∅).
Proof.
  intros [(-> & -> & H)|(-> & Hw & H)]; split.
  - intros t Hw (tb & Htb & Ht). destruct H; congruence.
  - auto.
  - intros t _ (tb & Htb & Ht). rewrite H in Htb. injection Htb as <-. auto.
  - intros [?|?]; congruence.
Qed.

(** rows appended by a successful call in append mode *)
Lemma append_rows c f s' u t :
  call_ok db_name c -> c_w c = false -> stored f (c_table c) t ->
  exec (write c) (St f None) = (s', Some u) ->
  exists t', stored (fs s') (c_table c) t' /\
    (exists ext, t_cols t' = t_cols t ++ ext) /\
    (exists new, t_rows t' = t_rows t ++ new /\
       length new = match c_machines c with [] => 0 | _ => length (c_params c) end) /\
    (forall n t0, n <> c_table c -> stored f n t0 -> stored (fs s') n t0).
Proof.
  intros Hok Hw Hst H. pose proof H as H'. apply success in H; [|assumption].
  destruct H as (new & tb0 & tb & t' & rv & mi & h & Hnew & _ & Hf & Ht & Hext & Hother & Hrows).
  destruct (proj1 (rows_before _ _ _ _ Hnew) t Hw Hst) as [-> Htb0].
  unfold cols_of, rows_of in *. rewrite Htb0 in *.
  exists t'. split; [exists tb; auto|]. split; [assumption|]. split.
  - destruct Hrows as [[Hr Hr2]|(Hm & _ & z & _ & Hr & _)].
    + exists []. rewrite app_nil_r. split; [assumption|]. destruct Hr2 as [-> | ->]; simpl; [reflexivity|]. now destruct (c_machines c).
    + eexists. split; [exact Hr|]. rewrite map_length, the_recs_length. destruct (c_machines c); [contradiction|reflexivity].
  - intros n t0 Hne (tb1 & A & B). destruct Hnew as [(? & _)|(_ & _ & E)]; [discriminate|]. simpl in E. rewrite A in E. injection E as ->.
    exists tb. split; [assumption|]. now rewrite Hother.
Qed.

(** one new row *)
Lemma new_row_cells c t' rows0 h rv z i ps ls col :
  t_rows t' = rows0 ++ map (fun r => ins_row aff (t_cols t') (sqlvals r)) (the_recs c h rv z (c_params c)) ->
  c_params c !! i = Some ps -> Forall2 entries ps ls ->
  cell_at t' (length rows0 + i) col =
  Some (match (if String.eqb col "hostname" then Some (VText h)
               else if String.eqb col "calc_name" then Some (VText (c_study c ++ "_run" ++ pretty (z + Z.of_nat i + 1)%Z)%string)
               else if String.eqb col "idx" then Some (VInt (z + Z.of_nat i + 1))
               else if String.eqb col "study_name" then Some (VText (c_study c))
               else if String.eqb col "revision" then Some (VInt rv)
               else e_sqlval <$> last_entry (concat ls) col) with
        | Some v => aff (default "" (coltype t' col)) v | None => VNull end).
Proof.
  intros Hr Hps Hls.
  assert (E : cell_at t' (length rows0 + i) col = cell_at (Tab (t_cols t') (map (fun r => ins_row aff (t_cols t') (sqlvals r)) (take (length (c_params c)) (the_recs c h rv z (c_params c))))) i col).
  { unfold cell_at. rewrite Hr, lookup_app_r by lia. replace (length rows0 + i - length rows0) with i by lia.
    simpl. rewrite <- (the_recs_length c h rv z (c_params c)) at 1. now rewrite firstn_all. }
  rewrite E, new_cell. rewrite decide_True by (eapply lookup_lt_Some; eauto). rewrite Hps. simpl. f_equal.
  rewrite add_hostname_get, calc_record_get, <- (entries_flats _ _ Hls).
  destruct (String.eqb_spec col "hostname") as [->|_]; [reflexivity|].
  unfold last_entry at 1. cbn [extra_params rev app List.find e_key auto_entry].
  rewrite !(String.eqb_sym _ col).
  destruct (String.eqb_spec col "calc_name") as [->|_]; [reflexivity|].
  destruct (String.eqb_spec col "idx") as [->|_]; [reflexivity|].
  destruct (String.eqb_spec col "study_name") as [->|_]; [reflexivity|].
  destruct (String.eqb_spec col "revision") as [->|_]; [reflexivity|].
  destruct (last_entry (concat ls) col); reflexivity.
Qed.

Lemma fits_cols c cols h rv z i ps ls col :
  fits cols (the_recs c h rv z (c_params c)) ->
  c_params c !! i = Some ps -> Forall2 entries ps ls ->
  (col ∈ ["hostname"; "calc_name"; "idx"; "study_name"; "revision"] \/ is_Some (last_entry (concat ls) col)) ->
  col ∈ map fst cols.
Proof.
  intros Hfit Hps Hls Hcol. unfold fits in Hfit. rewrite Forall_forall in Hfit.
  apply (Hfit (add_hostname h (calc_record c rv (z + Z.of_nat i + 1) ps))).
  - unfold the_recs. apply elem_of_list_fmap. eexists. split; [reflexivity|]. apply elem_of_list_lookup. exists i.
    rewrite recs_from_lookup, Hps. reflexivity.
  - apply dict_get_keys. rewrite add_hostname_get, calc_record_get, <- (entries_flats _ _ Hls).
    destruct (String.eqb_spec col "hostname") as [->|H0]; [eauto|].
    unfold last_entry at 1. cbn [extra_params rev app List.find e_key auto_entry]. rewrite !(String.eqb_sym _ col).
    destruct (String.eqb_spec col "calc_name") as [->|H1]; [eauto|].
    destruct (String.eqb_spec col "idx") as [->|H2]; [eauto|].
    destruct (String.eqb_spec col "study_name") as [->|H3]; [eauto|].
    destruct (String.eqb_spec col "revision") as [->|H4]; [eauto|].
    destruct Hcol as [Hcol|Hcol]; [|assumption]. set_solver.
Qed.

Section Reach.
Hypothesis aff_int : forall z, aff "INTEGER" (VInt z) = VInt z.

Lemma all_some_hosts c h : hostname_val c = Some h ->
  exists hosts, map m_host (c_machines c) = map Some hosts /\ h = String.concat "," hosts.
Proof.
  unfold hostname_val. destruct (all_some _) as [hs|] eqn:E; [|discriminate]. intros [= <-]. exists hs. split; [|reflexivity].
  revert hs E. induction (c_machines c) as [|m ms IH]; simpl; intros hs E; [injection E as <-; reflexivity|].
  destruct (m_host m); [|discriminate]. destruct (all_some _) as [hs'|]; [|discriminate]. injection E as <-. simpl. f_equal. auto.
Qed.

(** number of rows before and the numbering of a call on a reachable database *)
Lemma reach_values c f s' u :
  reach aff root db_name f -> call_ok db_name c -> c_machines c <> [] -> c_params c <> [] ->
  exec (write c) (St f None) = (s', Some u) ->
  exists n0 rv hosts t', stored (fs s') (c_table c) t' /\
    nrows t' = n0 + length (c_params c) /\
    map m_host (c_machines c) = map Some hosts /\
    (forall t, c_w c = false -> stored f (c_table c) t -> n0 = nrows t /\
       exists m, (exists i, cell_at t i "revision" = Some (VInt m)) /\
         (forall i z, cell_at t i "revision" = Some (VInt z) -> (z <= m)%Z) /\ rv = (m + 1)%Z) /\
    (c_w c = true \/ f !! db = None -> n0 = 0 /\ rv = 0%Z) /\
    forall k ps ls col, c_params c !! k = Some ps -> Forall2 entries ps ls ->
      let want := db_value (c_study c) hosts rv (Z.of_nat (n0 + k)) (concat ls) col in
      cell_at t' (n0 + k) col = Some (match want with Some v => aff (default "" (coltype t' col)) v | None => VNull end) /\
      (is_Some want -> col ∈ colnames t').
Proof.
  intros Hreach Hok Hm Hp H. apply (reach_good _ _ _ aff_int) in Hreach. apply success in H; [|assumption].
  destruct H as (new & tb0 & tb & t' & rv & mi & h & Hnew & Hnum & Hf & Ht & Hext & Hother & Hrows).
  destruct Hrows as [[_ [?|?]]|(_ & Hh & z & -> & Hrows & Hfit)]; [contradiction|contradiction|].
  apply all_some_hosts in Hh. destruct Hh as (hosts & Hhosts & ->).
  set (rows0 := rows_of tb0 (c_table c)) in *.
  assert (Hz : (z + 1 = Z.of_nat (length rows0))%Z /\
    (forall t, c_w c = false -> stored f (c_table c) t -> length rows0 = nrows t /\
       exists m, (exists i, cell_at t i "revision" = Some (VInt m)) /\
         (forall i z, cell_at t i "revision" = Some (VInt z) -> (z <= m)%Z) /\ rv = (m + 1)%Z) /\
    (c_w c = true \/ f !! db = None -> length rows0 = 0 /\ rv = 0%Z)).
  { simpl in Hnew. destruct (rows_before _ _ _ _ Hnew) as [B1 B2].
    destruct Hnew as [(-> & -> & Hn)|(-> & Hw & Hn)].
    - destruct Hnum as [-> Hz]. injection Hz as ->. unfold rows0, rows_of. rewrite lookup_empty. simpl.
      split; [lia|]. split; [|auto]. intros t Hw Hst. destruct (B1 t Hw Hst). discriminate.
    - destruct Hnum as (t & Ht0 & Hmi & _ & Hrv). pose proof (Hreach _ Hn _ _ Ht0) as [Gi Gr Gn Gv _].
      unfold rows0, rows_of. rewrite Ht0. fold (nrows t).
      apply max_int_some in Hmi. destruct Hmi as [M1 M2]. apply column_in in M1. destruct M1 as [i Hi].
      pose proof (cell_at_lt _ _ _ _ Hi) as Hlt. rewrite Gn in Hi by assumption. injection Hi as Hi.
      assert (Hz : (Z.of_nat (nrows t - 1) <= z)%Z).
      { apply M2. apply column_in. exists (nrows t - 1). apply Gn. lia. }
      split; [lia|]. split.
      + intros t2 _ Hst. destruct (B1 t2 Hw Hst) as [_ E]. rewrite Ht0 in E. injection E as <-. split; [reflexivity|].
        rewrite (ctype_has _ _ _ Gr) in Hrv by discriminate. destruct Hrv as (r & Hr & ->).
        apply max_int_some in Hr. destruct Hr as [R1 R2]. apply column_in in R1. exists r. split; [assumption|]. split; [|reflexivity].
        intros i' z' Hi'. apply R2, column_in. eauto.
      + intros [?|?]; congruence. }
  destruct Hz as (Hz & Hold & Hfresh).
  exists (length rows0), rv, hosts, t'. split; [exists tb; auto|].
  split; [unfold nrows; now rewrite Hrows, app_length, map_length, the_recs_length|].
  split; [assumption|]. split; [assumption|]. split; [assumption|].
  intros k ps ls col Hps Hls. simpl. unfold db_value. split.
  - rewrite (new_row_cells _ _ _ _ _ _ _ _ _ col Hrows Hps Hls).
    replace (z + Z.of_nat k + 1)%Z with (Z.of_nat (length rows0 + k)) by lia. reflexivity.
  - intros Hs. apply (fits_cols _ _ _ _ _ _ _ _ _ Hfit Hps Hls).
    destruct (String.eqb_spec col "hostname") as [->|_]; [left; set_solver|].
    destruct (String.eqb_spec col "calc_name") as [->|_]; [left; set_solver|].
    destruct (String.eqb_spec col "idx") as [->|_]; [left; set_solver|].
    destruct (String.eqb_spec col "study_name") as [->|_]; [left; set_solver|].
    destruct (String.eqb_spec col "revision") as [->|_]; [left; set_solver|].
    right. destruct (last_entry _ _); [eauto|]. destruct Hs as [? Hs]. discriminate.
Qed.

Lemma append_revision f c s' t :
  reach aff root db_name f -> call_ok db_name c -> c_machines c <> [] -> c_params c <> [] ->
  c_w c = false -> stored f (c_table c) t ->
  exec (write c) (St f None) = (s', Some tt) ->
  exists m t', stored (fs s') (c_table c) t' /\
    (exists i, cell_at t i "revision" = Some (VInt m)) /\
    (forall i z, cell_at t i "revision" = Some (VInt z) -> (z <= m)%Z) /\
    nrows t' = nrows t + length (c_params c) /\
    forall i, nrows t <= i < nrows t' -> cell_at t' i "revision" = Some (VInt (m + 1)).
Proof.
  intros Hreach Hok Hm Hp Hw Hst H.
  assert (Hreach' : reach aff root db_name (fs s')) by (eapply r_killed; eauto; eapply exec_stop; eauto).
  destruct (reach_values c f s' tt Hreach Hok Hm Hp H) as (n0 & rv & hosts & t' & Hst' & Hn & _ & Hold & _ & Hv).
  destruct (Hold t Hw Hst) as [-> (m & M1 & M2 & ->)].
  exists m, t'. split; [assumption|]. split; [assumption|]. split; [assumption|]. split; [assumption|].
  intros i Hi. destruct (lookup_lt_is_Some_2 (c_params c) (i - nrows t)) as [ps Hps]; [lia|].
  destruct (entries_total ps) as [ls Hls].
  destruct (Hv _ _ _ "revision" Hps Hls) as [V _]. replace (nrows t + (i - nrows t)) with i in V by lia.
  rewrite V. unfold db_value. simpl. destruct Hst' as (tb & Hf & Ht).
  pose proof (g_rev _ (reach_good aff root db_name aff_int _ Hreach' tb Hf _ t' Ht)) as Hty.
  rewrite ctype_coltype in Hty. now rewrite Hty, aff_int.
Qed.

Lemma fresh_revision f c s' :
  reach aff root db_name f -> call_ok db_name c -> c_machines c <> [] -> c_params c <> [] ->
  c_w c = true \/ f !! db = None ->
  exec (write c) (St f None) = (s', Some tt) ->
  exists t', stored (fs s') (c_table c) t' /\ nrows t' = length (c_params c) /\
    forall i, i < nrows t' -> cell_at t' i "revision" = Some (VInt 0).
Proof.
  intros Hreach Hok Hm Hp Hw H.
  assert (Hreach' : reach aff root db_name (fs s')) by (eapply r_killed; eauto; eapply exec_stop; eauto).
  destruct (reach_values c f s' tt Hreach Hok Hm Hp H) as (n0 & rv & hosts & t' & Hst' & Hn & _ & _ & Hfresh & Hv).
  destruct (Hfresh Hw) as [-> ->].
  exists t'. split; [assumption|]. split; [assumption|].
  intros i Hi. destruct (lookup_lt_is_Some_2 (c_params c) i) as [ps Hps]; [lia|].
  destruct (entries_total ps) as [ls Hls].
  destruct (Hv _ _ _ "revision" Hps Hls) as [V _]. simpl in V.
  rewrite V. destruct Hst' as (tb & Hf & Ht).
  pose proof (g_rev _ (reach_good aff root db_name aff_int _ Hreach' tb Hf _ t' Ht)) as Hty.
  rewrite ctype_coltype in Hty. now rewrite Hty, aff_int.
Qed.

Lemma new_columns_null f c s n t t' i col :
  reach aff root db_name f -> call_ok db_name c -> c_w c = false -> stored f n t ->
  s ∈ stops (write c) (St f None) -> stored (fs s) n t' \/ stored (fs (commit db s)) n t' ->
  i < nrows t -> col ∉ colnames t -> cell_at t' i col = Some VNull.
Proof.
  intros Hreach Hok Hw (tb & Hf & Ht) Hs Hst' Hi Hcol.
  pose proof (g_ok _ (reach_good aff root db_name aff_int _ Hreach tb Hf _ t Ht)) as Gk.
  assert (G : exists t2, t2 = t' /\ exists new, t_rows t2 = t_rows t ++ new).
  { destruct Hst' as [Hst'|Hst'];
    [destruct (stops_prefix c f tb n t s Hok Hw Hf Ht Hs _ (or_introl eq_refl)) as (t2 & (tb2 & A & B) & _ & new & C & _)
    |destruct (stops_prefix c f tb n t s Hok Hw Hf Ht Hs _ (or_intror eq_refl)) as (t2 & (tb2 & A & B) & _ & new & C & _)];
    (exists t2; split; [|eauto]; destruct Hst' as (tb3 & A' & B'); rewrite A in A'; injection A' as <-; congruence). }
  destruct G as (t2 & -> & new & E). unfold cell_at, nrows in *. rewrite E, lookup_app_l by assumption.
  destruct (lookup_lt_is_Some_2 _ _ Hi) as [r Hr]. rewrite Hr. simpl. f_equal. unfold cell.
  destruct (r !! col) as [v|] eqn:Ev; [|reflexivity]. exfalso. apply Hcol. eapply Gk; eauto.
Qed.

Lemma row_values c f s' :
  reach aff root db_name f -> call_ok db_name c -> c_machines c <> [] -> c_params c <> [] ->
  exec (write c) (St f None) = (s', Some tt) ->
  exists n0 rv hosts t', stored (fs s') (c_table c) t' /\
    nrows t' = n0 + length (c_params c) /\
    map m_host (c_machines c) = map Some hosts /\
    (forall t, c_w c = false -> stored f (c_table c) t -> n0 = nrows t) /\
    (c_w c = true \/ f !! db = None -> n0 = 0) /\
    forall k ps ls col, c_params c !! k = Some ps -> Forall2 entries ps ls ->
      match db_value (c_study c) hosts rv (Z.of_nat (n0 + k)) (concat ls) col with
      | Some v => col ∈ colnames t' /\
          cell_at t' (n0 + k) col = Some (aff (default "" (coltype t' col)) v)
      | None => cell_at t' (n0 + k) col = Some VNull
      end.
Proof.
  intros Hreach Hok Hm Hp H.
  destruct (reach_values c f s' tt Hreach Hok Hm Hp H) as (n0 & rv & hosts & t' & Hst' & Hn & Hh & Hold & Hfresh & Hv).
  exists n0, rv, hosts, t'. split; [assumption|]. split; [assumption|]. split; [assumption|].
  split; [intros t Hw Hst; now apply Hold|]. split; [intros Hw; now apply Hfresh|].
  intros k ps ls col Hps Hls. destruct (Hv _ _ _ col Hps Hls) as [V1 V2].
  destruct (db_value _ _ _ _ _ _) as [v|]; [|assumption]. split; [apply V2; eauto|assumption].
Qed.

Lemma coltypes f c s' :
  reach aff root db_name f -> call_ok db_name c -> c_machines c <> [] -> c_params c <> [] ->
  c_w c = true \/ f !! db = None ->
  exec (write c) (St f None) = (s', Some tt) ->
  forall t', stored (fs s') (c_table c) t' -> forall k, k ∈ ["study_name"; "calc_name"; "hostname"] ->
    default "" (coltype t' k) = "TEXT".
Proof.
  intros Hreach Hok Hm Hp Hw H t' (tb1 & A & B) k Hk. apply write_input_exec in H; [|assumption|reflexivity].
  destruct H as (_ & new & tb0 & rv & mi & recs0 & h & Hnew & Hnum & Hrecs & tb & t & Hf & Ht & Hs & Hfit).
  destruct (proj2 (rows_before _ _ _ _ Hnew) Hw) as [-> ->].
  rewrite A in Hf. injection Hf as <-. rewrite B in Ht. injection Ht as <-.
  destruct Hrecs as [[_ [?|?]]|(_ & _ & z & _ & ->)]; [contradiction|contradiction|].
  destruct Hs as [|ext t j _ Hn Hc -> Hj Hfit2|? ? ? E]; [now rewrite lookup_empty in B| |discriminate].
  unfold grow in B. rewrite lookup_insert in B. injection B as <-. rewrite <- ctype_coltype. simpl.
  fold (the_recs c h rv z (c_params c)) in Hc.
  destruct (ok_ord _ _ Hok (raw_header (the_recs c h rv z (c_params c)))) as [_ Ho].
  assert (G : exists e : Z -> entry_t, forall idx ps, dict_get (add_hostname h (calc_record c rv idx ps)) k = Some (e idx) /\ upper (e_type (e idx)) = "TEXT").
  { assert (G1 : k = "hostname" \/ k = "calc_name" \/ k = "study_name") by set_solver. destruct G1 as [-> | [-> | ->]].
    - exists (fun _ => auto_entry "hostname" (VText h)). intros idx ps. rewrite add_hostname_get. auto.
    - exists (fun idx => auto_entry "calc_name" (VText (c_study c ++ "_run" ++ pretty idx)%string)). intros idx ps.
      rewrite add_hostname_get, calc_record_get. auto.
    - exists (fun idx => auto_entry "study_name" (VText (c_study c))). intros idx ps.
      rewrite add_hostname_get, calc_record_get. auto. }
  destruct G as (e & He).
  assert (G : forall r, r ∈ the_recs c h rv z (c_params c) -> NoDup (map fst r) /\ exists idx, dict_get r k = Some (e idx)).
  { intros r Hr. unfold the_recs in Hr. apply elem_of_list_fmap in Hr. destruct Hr as (r0 & -> & Hr).
    apply elem_of_list_lookup in Hr. destruct Hr as [i Hi]. rewrite recs_from_lookup in Hi.
    apply fmap_Some in Hi. destruct Hi as (ps & _ & ->). split; [apply add_hostname_nodup, calc_record_nodup|].
    eexists. apply He. }
  eapply header_type; [exact Hc|reflexivity|apply Ho|intros ty Hty; apply Ho in Hty].
  - destruct (the_recs c h rv z (c_params c)) as [|r rs] eqn:E.
    { apply (f_equal length) in E. rewrite the_recs_length in E. destruct (c_params c); [contradiction|discriminate]. }
    destruct (G r) as (_ & idx & Hd); [left|]. apply raw_header_in. exists r, (e idx).
    split; [left|]. split; [now apply dict_get_in|]. symmetry. apply (He idx []).
  - apply raw_header_in in Hty. destruct Hty as (r & e' & Hr & He' & ->).
    destruct (G r Hr) as (Hn1 & idx & Hd). apply (dict_get_nodup _ _ _ Hn1) in He'. rewrite He' in Hd. injection Hd as ->. apply (He idx []).
Qed.

Lemma not_spoofed c f s' :
  (forall s, aff "TEXT" (VText s) = VText s) ->
  reach aff root db_name f -> call_ok db_name c -> c_machines c <> [] -> c_params c <> [] ->
  c_w c = true \/ f !! db = None ->
  exec (write c) (St f None) = (s', Some tt) ->
  exists t' hosts, stored (fs s') (c_table c) t' /\ nrows t' = length (c_params c) /\
    map m_host (c_machines c) = map Some hosts /\
    forall k, k < length (c_params c) ->
      cell_at t' k "idx" = Some (VInt (Z.of_nat k)) /\
      cell_at t' k "revision" = Some (VInt 0) /\
      cell_at t' k "study_name" = Some (VText (c_study c)) /\
      cell_at t' k "calc_name" = Some (VText (c_study c ++ "_run" ++ pretty (Z.of_nat k))%string) /\
      cell_at t' k "hostname" = Some (VText (String.concat "," hosts)).
Proof.
  intros Htext Hreach Hok Hm Hp Hw H.
  assert (Hreach' : reach aff root db_name (fs s')) by (eapply r_killed; eauto; eapply exec_stop; eauto).
  pose proof (coltypes f c s' Hreach Hok Hm Hp Hw H) as Hty.
  destruct (reach_values c f s' tt Hreach Hok Hm Hp H) as (n0 & rv & hosts & t' & Hst' & Hn & Hh & _ & Hfresh & Hv).
  destruct (Hfresh Hw) as [-> ->]. specialize (Hty _ Hst').
  pose proof Hst' as (tb & Hf & Ht). pose proof (reach_good aff root db_name aff_int _ Hreach' tb Hf _ t' Ht) as [Ti Tr _ _ _].
  rewrite ctype_coltype in Ti, Tr.
  exists t', hosts. split; [assumption|]. split; [assumption|]. split; [assumption|]. intros k Hk.
  destruct (lookup_lt_is_Some_2 (c_params c) k Hk) as [ps Hps]. destruct (entries_total ps) as [ls Hls].
  pose proof (fun col => proj1 (Hv _ _ _ col Hps Hls)) as V. unfold db_value in V. simpl in V.
  split; [rewrite V; simpl; now rewrite Ti, aff_int|]. split; [rewrite V; simpl; now rewrite Tr, aff_int|].
  split; [rewrite V; simpl; rewrite Hty, Htext by set_solver; reflexivity|].
  split; rewrite V; simpl; rewrite Hty, Htext by set_solver; reflexivity.
Qed.
End Reach.

Lemma append_rows_one c f s' t :
  call_ok db_name c -> c_w c = false -> c_machines c <> [] -> stored f (c_table c) t ->
  exec (write c) (St f None) = (s', Some tt) ->
  (exists t', stored (fs s') (c_table c) t' /\ (exists ext, t_cols t' = t_cols t ++ ext) /\
    exists new, t_rows t' = t_rows t ++ new /\ length new = length (c_params c)) /\
  (forall n t0, n <> c_table c -> stored f n t0 -> stored (fs s') n t0).
Proof.
  intros Hok Hw Hm Hst H. destruct (append_rows c f s' tt t Hok Hw Hst H) as (t' & A & B & (new & C & D) & E).
  split; [|exact E]. exists t'. split; [assumption|]. split; [assumption|]. exists new. split; [assumption|].
  destruct (c_machines c); [contradiction|assumption].
Qed.
End Rows.
