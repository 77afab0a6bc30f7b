(** C01, C02, C03, C07: histories of ParameterStudy.write_input. *)
From Coq Require Import Ascii String ZArith Lia.
From stdpp Require Import base gmap strings pretty list.
From Verif Require Import Comb Template TemplateSpec Sql SqlSpec SqlProofs Fs FsProofs Batch BatchSpec
  BatchProofs BatchInv BatchRows BatchExample.
Local Open Scope string_scope.
Local Open Scope list_scope.

Section Theorems.
Variable aff : string -> val -> val.
Hypothesis aff_int : forall z, aff "INTEGER" (VInt z) = VInt z.
Variable root : path.
Variable db_name : string.
Notation write c := (write_input aff root db_name c).
Notation stored := (stored root db_name).
Notation db := (dbfn root db_name).

(** In every table of every database any history can leave behind, row i has
    idx i. *)
Theorem C01_idx_counts_rows f name t :
  reach aff root db_name f -> stored f name t ->
  forall i, i < nrows t -> cell_at t i "idx" = Some (VInt (Z.of_nat i)).
Proof.
  intros Hr (tb & Hf & Ht). exact (g_num _ (reach_good aff root db_name aff_int f Hr tb Hf name t Ht)).
Qed.

Theorem C01_idx_unique f name t i j z :
  reach aff root db_name f -> stored f name t ->
  cell_at t i "idx" = Some (VInt z) -> cell_at t j "idx" = Some (VInt z) -> i = j.
Proof.
  intros Hr Hst Hi Hj. pose proof (C01_idx_counts_rows f name t Hr Hst) as H.
  rewrite H in Hi by (eapply cell_at_lt; eauto). rewrite H in Hj by (eapply cell_at_lt; eauto).
  injection Hi as <-. injection Hj as Hj. lia.
Qed.

(** ... and the revisions start with 0 and stay or grow by one from row to row. *)
Theorem C02_revisions_count_up f name t :
  reach aff root db_name f -> stored f name t -> revisions t.
Proof.
  intros Hr (tb & Hf & Ht). exact (g_revs _ (reach_good aff root db_name aff_int f Hr tb Hf name t Ht)).
Qed.

(** The rows of a successful append have the largest former revision plus one. *)
Theorem C02_append_is_next_revision f c s' t :
  reach aff root db_name f -> call_ok db_name c -> c_machines c <> [] -> c_params c <> [] ->
  c_w c = false -> stored f (c_table c) t ->
  exec (write c) (St f None) = (s', Some tt) ->
  exists m t', stored (fs s') (c_table c) t' /\
    (exists i, cell_at t i "revision" = Some (VInt m)) /\
    (forall i z, cell_at t i "revision" = Some (VInt z) -> (z <= m)%Z) /\
    nrows t' = nrows t + length (c_params c) /\
    forall i, nrows t <= i < nrows t' -> cell_at t' i "revision" = Some (VInt (m + 1)).
Proof. exact (append_revision aff root db_name aff_int f c s' t). Qed.

(** After a call in write mode, or without a database, all rows have revision 0. *)
Theorem C02_fresh_study_is_revision_0 f c s' :
  reach aff root db_name f -> call_ok db_name c -> c_machines c <> [] -> c_params c <> [] ->
  c_w c = true \/ f !! db = None ->
  exec (write c) (St f None) = (s', Some tt) ->
  exists t', stored (fs s') (c_table c) t' /\ nrows t' = length (c_params c) /\
    forall i, i < nrows t' -> cell_at t' i "revision" = Some (VInt 0).
Proof. exact (fresh_revision aff root db_name aff_int f c s'). Qed.

(** Appending to any database, stopped anywhere, the transaction being lost or
    committed: every table still has its rows, with the same values, in front. *)
Theorem C03_append_keeps_rows c f n t s :
  call_ok db_name c -> c_w c = false -> stored f n t ->
  s ∈ stops (write c) (St f None) -> forall f', f' = fs s \/ f' = fs (commit db s) ->
  exists t', stored f' n t' /\ (exists ext, t_cols t' = t_cols t ++ ext) /\
    exists new, t_rows t' = t_rows t ++ new /\ length new <= length (c_params c).
Proof.
  intros Hok Hw (tb & Hf & Hn). exact (stops_prefix aff root db_name c f tb n t s Hok Hw Hf Hn).
Qed.

(** A successful append adds one row per parameter set and leaves the other
    tables alone. *)
Theorem C03_append_adds_one_row_per_set c f s' t :
  call_ok db_name c -> c_w c = false -> c_machines c <> [] -> stored f (c_table c) t ->
  exec (write c) (St f None) = (s', Some tt) ->
  (exists t', stored (fs s') (c_table c) t' /\ (exists ext, t_cols t' = t_cols t ++ ext) /\
    exists new, t_rows t' = t_rows t ++ new /\ length new = length (c_params c)) /\
  (forall n t0, n <> c_table c -> stored f n t0 -> stored (fs s') n t0).
Proof. exact (append_rows_one aff root db_name c f s' t). Qed.

(** In a reachable database the old rows are NULL in every column they did not have. *)
Theorem C03_new_columns_are_null f c s n t t' i col :
  reach aff root db_name f -> call_ok db_name c -> c_w c = false -> stored f n t ->
  s ∈ stops (write c) (St f None) -> stored (fs s) n t' \/ stored (fs (commit db s)) n t' ->
  i < nrows t -> col ∉ colnames t -> cell_at t' i col = Some VNull.
Proof. exact (new_columns_null aff root db_name aff_int f c s n t t' i col). Qed.

(** The values in the database after a successful call.  [db_value] is in
    BatchSpec.v. *)
Theorem C07_row_values c f s' :
  reach aff root db_name f -> call_ok db_name c -> c_machines c <> [] -> c_params c <> [] ->
  exec (write c) (St f None) = (s', Some tt) ->
  exists n0 rv hosts t', stored (fs s') (c_table c) t' /\
    nrows t' = n0 + length (c_params c) /\
    map m_host (c_machines c) = map Some hosts /\
    (forall t, c_w c = false -> stored f (c_table c) t -> n0 = nrows t) /\
    (c_w c = true \/ f !! db = None -> n0 = 0) /\
    forall k ps ls col, c_params c !! k = Some ps -> Forall2 entries ps ls ->
      match db_value (c_study c) hosts rv (Z.of_nat (n0 + k)) (concat ls) col with
      | Some v => col ∈ colnames t' /\
          cell_at t' (n0 + k) col = Some (aff (default "" (coltype t' col)) v)
      | None => cell_at t' (n0 + k) col = Some VNull
      end.
Proof. exact (row_values aff root db_name aff_int c f s'). Qed.

(** In particular the study's own columns cannot be spoofed. *)
Theorem C07_bookkeeping_not_spoofed c f s' :
  (forall s, aff "TEXT" (VText s) = VText s) ->
  reach aff root db_name f -> call_ok db_name c -> c_machines c <> [] -> c_params c <> [] ->
  c_w c = true \/ f !! db = None ->
  exec (write c) (St f None) = (s', Some tt) ->
  exists t' hosts, stored (fs s') (c_table c) t' /\ nrows t' = length (c_params c) /\
    map m_host (c_machines c) = map Some hosts /\
    forall k, k < length (c_params c) ->
      cell_at t' k "idx" = Some (VInt (Z.of_nat k)) /\
      cell_at t' k "revision" = Some (VInt 0) /\
      cell_at t' k "study_name" = Some (VText (c_study c)) /\
      cell_at t' k "calc_name" = Some (VText (c_study c ++ "_run" ++ pretty (Z.of_nat k))%string) /\
      cell_at t' k "hostname" = Some (VText (String.concat "," hosts)).
Proof. exact (not_spoofed aff root db_name aff_int c f s'). Qed.

(** Every nested parameter set has a flat list of entries. *)
Theorem C07_entries_total ps : exists ls, Forall2 entries ps ls.
Proof. exact (entries_total ps). Qed.
End Theorems.
Print Assumptions C01_idx_counts_rows.
Print Assumptions C01_idx_unique.
Print Assumptions C02_revisions_count_up.
Print Assumptions C02_append_is_next_revision.
Print Assumptions C02_fresh_study_is_revision_0.
Print Assumptions C03_append_keeps_rows.
Print Assumptions C03_append_adds_one_row_per_set.
Print Assumptions C03_new_columns_are_null.
Print Assumptions C07_row_values.
Print Assumptions C07_bookkeeping_not_spoofed.
Print Assumptions C07_entries_total.

(** A study of two calls (see BatchExample.v): two calculations, then a third one
    with a new key and its own idx. *)
Lemma ex_reach1 : reach ex_aff ex_root ex_db (fs ex_s1).
Proof.
  refine (r_killed _ _ _ ex_fs0 ex_call1 ex_s1 (r_init _ _ _ ex_fs0 _) (ex_call_ok _ _ _) (exec_stop _ _ _ _ ex_ok1)).
  vm_compute. reflexivity.
Qed.
Example C01_case : reach ex_aff ex_root ex_db (fs ex_s2).
Proof. exact (r_killed _ _ _ (fs ex_s1) ex_call2 ex_s2 ex_reach1 (ex_call_ok _ _ _) (exec_stop _ _ _ _ ex_ok2)). Qed.
Definition ex_tab (f : gmap path entry) : table :=
  match f !! dbfn ex_root ex_db with
  | Some (EDb tb) => default (Tab [] []) (tb !! "calc") | _ => Tab [] [] end.
Lemma ex_stored f :
  match f !! dbfn ex_root ex_db with Some (EDb tb) => bool_decide (is_Some (tb !! "calc")) | _ => false end = true ->
  stored ex_root ex_db f "calc" (ex_tab f).
Proof.
  unfold ex_tab, stored. intros H. destruct (f !! dbfn ex_root ex_db) as [[|tb|]|] eqn:E; try discriminate.
  apply bool_decide_eq_true in H. destruct H as [t Ht]. exists tb. rewrite Ht. auto.
Qed.
Lemma ex_stored1 : stored ex_root ex_db (fs ex_s1) "calc" (ex_tab (fs ex_s1)).
Proof. apply ex_stored. vm_compute. reflexivity. Qed.
Lemma ex_stored2 : stored ex_root ex_db (fs ex_s2) "calc" (ex_tab (fs ex_s2)).
Proof. apply ex_stored. vm_compute. reflexivity. Qed.
Example C01_values : map (fun i => cell_at (ex_tab (fs ex_s2)) i "idx") [0; 1; 2; 3]
  = [Some (VInt 0); Some (VInt 1); Some (VInt 2); None].
Proof. vm_compute. reflexivity. Qed.
Example C02_values : map (fun i => cell_at (ex_tab (fs ex_s2)) i "revision") [0; 1; 2]
  = [Some (VInt 0); Some (VInt 0); Some (VInt 1)].
Proof. vm_compute. reflexivity. Qed.
(** The hypotheses of the theorems about one append, all at once. *)
Example C02_C03_C07_case :
  reach ex_aff ex_root ex_db (fs ex_s1) /\ call_ok ex_db ex_call2 /\ c_machines ex_call2 <> [] /\
  c_params ex_call2 <> [] /\ c_w ex_call2 = false /\
  stored ex_root ex_db (fs ex_s1) (c_table ex_call2) (ex_tab (fs ex_s1)) /\
  exec (write_input ex_aff ex_root ex_db ex_call2) (St (fs ex_s1) None) = (ex_s2, Some tt).
Proof.
  split; [exact ex_reach1|].
  split; [apply (ex_call_ok false true)|]. split; [discriminate|]. split; [discriminate|]. split; [reflexivity|].
  split; [exact ex_stored1|exact ex_ok2].
Qed.
Example C03_values : map (fun i => cell_at (ex_tab (fs ex_s2)) i "alat") [0; 1; 2]
  = [Some VNull; Some VNull; Some (VText "5.4")].
Proof. vm_compute. reflexivity. Qed.
(** ... and about a fresh study. *)
Example C02_C07_fresh_case :
  reach ex_aff ex_root ex_db ex_fs0 /\ (c_w ex_call1 = true \/ ex_fs0 !! dbfn ex_root ex_db = None) /\
  exec (write_input ex_aff ex_root ex_db ex_call1) (St ex_fs0 None) = (ex_s1, Some tt).
Proof. split; [apply r_init; vm_compute; reflexivity|]. split; [right; vm_compute; reflexivity|exact ex_ok1]. Qed.
