(** C04, C06, C08, C09, C10: the files of a parameter study. *)
From Coq Require Import Ascii String ZArith Lia.
From stdpp Require Import base gmap strings pretty list.
From Verif Require Import Comb Template TemplateSpec TemplateProofs Sql SqlSpec SqlProofs Fs FsProofs Batch BatchSpec BatchFileSpec
  BatchProofs BatchInv BatchRows BatchFiles BatchFiles2 BatchFiles3 BatchFail BatchExample P_Batch.
Local Open Scope string_scope.
Local Open Scope list_scope.

Section Theorems.
Variable aff : string -> val -> val.
Hypothesis aff_int : forall z, aff "INTEGER" (VInt z) = VInt z.
Variable root : path.
Variable db_name : string.
Notation write c := (write_input aff root db_name c).
Notation stored := (stored root db_name).
Notation db := (dbfn root db_name).

(** At no point of an append is a file of a calculation that is in the database
    changed or removed, whatever the machine directory. *)
Theorem C04_append_keeps_old_calculations c f t s i z dir r :
  c_w c = false -> stored f (c_table c) t -> cell_at t i "idx" = Some (VInt z) ->
  s ∈ stops (write c) (St f None) ->
  is_Some (f !! (root ++ [dir; pretty z] ++ r)) ->
  fs s !! (root ++ [dir; pretty z] ++ r) = f !! (root ++ [dir; pretty z] ++ r).
Proof. intros Hw Ht Hi Hs. exact (proj1 (old_calcs_kept aff root db_name c f t s i z dir r Hw Ht Hi Hs)). Qed.

(** ... and none is created, in directories that are not named like a backup. *)
Theorem C04_append_adds_nothing_to_old_calculations c f t s i z dir r :
  c_w c = false -> stored f (c_table c) t -> cell_at t i "idx" = Some (VInt z) ->
  s ∈ stops (write c) (St f None) ->
  (forall n : nat, dir <> bak_name db_name "." n) ->
  (forall m (n : nat), m ∈ c_machines c -> dir <> bak_name (dir_name c m) "." n) ->
  fs s !! (root ++ [dir; pretty z] ++ r) = f !! (root ++ [dir; pretty z] ++ r).
Proof. intros Hw Ht Hi Hs. exact (proj2 (old_calcs_kept aff root db_name c f t s i z dir r Hw Ht Hi Hs)). Qed.

(** Nothing that exists outside of the machine directories, the database and
    excl_push is ever changed; in particular no earlier backup. *)
Theorem C06_nothing_else_is_touched c f s q :
  s ∈ stops (write c) (St f None) -> outside root db_name c q -> is_Some (f !! q) -> fs s !! q = f !! q.
Proof. intros Hs Hq He. exact (frame_write_input aff root db_name c (St f None) s Hs q Hq He). Qed.

(** With backup=True the former database and machine directories are at every
    point where they were or completely copied to a name that was free ... *)
Theorem C06_database_never_lost c f s :
  call_ok db_name c -> names_ok db_name c -> c_backup c = true ->
  is_Some (f !! db) -> s ∈ stops (write c) (St f None) ->
  in_place root (St f None) db_name s \/ saved root (St f None) db_name s.
Proof. intros Hok Hn Hb. exact (db_saved_stops aff root db_name c Hn Hb f s). Qed.
Theorem C06_directory_never_lost c f s m :
  call_ok db_name c -> names_ok db_name c -> c_backup c = true ->
  m ∈ c_machines c -> is_Some (f !! (root ++ [dir_name c m])) -> s ∈ stops (write c) (St f None) ->
  in_place root (St f None) (dir_name c m) s \/ saved root (St f None) (dir_name c m) s.
Proof. intros Hok Hn Hb. exact (dir_saved_stops aff root db_name c Hok Hn Hb m f s). Qed.
(** ... and in the end copied. *)
Theorem C06_backups_made c f s :
  call_ok db_name c -> names_ok db_name c -> c_backup c = true ->
  exec (write c) (St f None) = (s, Some tt) ->
  (is_Some (f !! db) -> saved root (St f None) db_name s) /\
  forall m, m ∈ c_machines c -> is_Some (f !! (root ++ [dir_name c m])) -> saved root (St f None) (dir_name c m) s.
Proof.
  intros Hok Hn Hb H. split.
  - intros He. exact (db_saved_exec aff root db_name c Hn Hb f s tt He H).
  - intros m Hm He. exact (dir_saved_exec aff root db_name c Hok Hn Hb m f s Hm He H).
Qed.

(** After a successful call every template of every machine is in the directory
    of every calculation, with the values of that calculation ([file_value] in
    BatchSpec.v), which is also the one in the database row with that idx. *)
Theorem C08_input_files c f s' :
  reach aff root db_name f -> call_ok db_name c -> c_machines c <> [] -> c_params c <> [] ->
  NoDup (map (dir_name c) (c_machines c)) ->
  (forall m, m ∈ c_machines c -> NoDup (map tm_base (calc_templates c m))) ->
  exec (write c) (St f None) = (s', Some tt) ->
  exists n0 rv t', stored (fs s') (c_table c) t' /\ nrows t' = n0 + length (c_params c) /\
    (forall t, c_w c = false -> stored f (c_table c) t -> n0 = nrows t) /\
    (c_w c = true \/ f !! db = None -> n0 = 0) /\
    (forall k, k < length (c_params c) -> cell_at t' (n0 + k) "idx" = Some (VInt (Z.of_nat (n0 + k))) /\
      cell_at t' (n0 + k) "revision" = Some (VInt rv)) /\
    forall m k ps ls t txt, m ∈ c_machines c -> c_params c !! k = Some ps -> Forall2 entries ps ls ->
      t ∈ calc_templates c m -> text_at root db_name c (St f None) t txt ->
      exists new, fs s' !! (root ++ [dir_name c m; pretty (n0 + k)%nat; tm_base t]) = Some (EFile new) /\
        forall rules, describes t (file_value (c_study c) m rv (Z.of_nat (n0 + k)) (concat ls)) rules ->
          dict_ok (texts_of rules) -> keys_disjoint (texts_of rules) txt -> keys_separated (texts_of rules) txt ->
          values_clean (texts_of rules) -> substituted (texts_of rules) txt new.
Proof.
  intros Hr Hok Hm Hp Hnd Htm H.
  assert (Hreach' : reach aff root db_name (fs s')) by (eapply r_killed; eauto; eapply exec_stop; eauto).
  destruct (files_written aff aff_int root db_name c f s' Hr Hok Hm Hp Hnd H) as (n0 & rv & t' & Hst & Hn & Hrv & Ho & Hf & Hfiles).
  exists n0, rv, t'. split; [exact Hst|]. split; [exact Hn|]. split; [exact Ho|]. split; [exact Hf|]. split.
  - intros k Hk. split; [|apply Hrv; exact Hk]. apply (C01_idx_counts_rows aff aff_int root db_name (fs s') _ t' Hreach' Hst). lia.
  - intros m k ps ls t txt Hm' Hk Hls Ht Htxt. destruct (Hfiles m Hm' (Htm m Hm')) as [A _].
    destruct (A k ps t txt Hk Ht Htxt) as (new & Hc & Hnew). exists new. split.
    + rewrite <- (pretty_of_nat (n0 + k)), <- Hnew. unfold calc_dir. now rewrite <- app_assoc.
    + rewrite (entries_flats _ _ Hls). intros rules. exact (content_substituted aff db_name c t m rv _ ps txt new rules Hc).
Qed.

(** run.sh of every machine enters the new calculations, in order. *)
Theorem C09_run_sh c f s' :
  reach aff root db_name f -> call_ok db_name c -> c_machines c <> [] -> c_params c <> [] ->
  NoDup (map (dir_name c) (c_machines c)) ->
  (forall m, m ∈ c_machines c -> NoDup (map tm_base (calc_templates c m))) ->
  exec (write c) (St f None) = (s', Some tt) ->
  exists n0, (forall t, c_w c = false -> stored f (c_table c) t -> n0 = nrows t) /\
    (c_w c = true \/ f !! db = None -> n0 = 0) /\
    forall m, m ∈ c_machines c -> exists job, m_templ m = Some job /\
      fs s' !! (root ++ [dir_name c m; "run.sh"])
      = Some (EFile (pst (run_sh m (tm_base job) (c_sleep c) n0 (length (c_params c))))).
Proof.
  intros Hr Hok Hm Hp Hnd Htm H.
  destruct (files_written aff aff_int root db_name c f s' Hr Hok Hm Hp Hnd H) as (n0 & rv & t' & Hst & Hn & Hrv & Ho & Hf & Hfiles).
  exists n0. split; [exact Ho|]. split; [exact Hf|]. intros m Hm'. destruct (Hfiles m Hm' (Htm m Hm')) as [_ (job & Hj & Hrun)].
  exists job. split; [exact Hj|].
  assert (E : run_content c m (tm_base job) (Z.of_nat n0 - 1) = pst (run_sh m (tm_base job) (c_sleep c) n0 (length (c_params c)))).
  { unfold run_content, run_sh. rewrite (map_ext (fun j => run_line c m (tm_base job) (Z.of_nat n0 - 1 + Z.of_nat j + 1)) (fun i : nat => run_line c m (tm_base job) (Z.of_nat (n0 + i)))).
    - unfold run_line. rewrite (map_ext (fun i : nat => _) (fun i : nat => ("cd " ++ pretty (n0 + i)%nat ++ " && " ++ default "None" (m_subcmd m) ++ " " ++ tm_base job
   ++ " && cd $here && sleep " ++ pretty (c_sleep c) ++ "
")%string)); [reflexivity|]. intros i. now rewrite pretty_of_nat.
    - intros i. f_equal. lia. }
  rewrite <- E, <- Hrun. unfold calc_dir. now rewrite <- app_assoc.
Qed.

(** excl_push lists the calculations that were there before. *)
Theorem C09_excl_push c f s' t :
  reach aff root db_name f -> call_ok db_name c -> c_machines c <> [] -> c_params c <> [] ->
  c_w c = false -> c_table c = "calc" -> c_excl c = true -> stored f "calc" t ->
  exec (write c) (St f None) = (s', Some tt) ->
  fs s' !! (root ++ ["excl_push"]) = Some (EFile (join_lines (map (fun i : nat => pst (pretty i)) (seq 0 (nrows t))))).
Proof. exact (excl_push_content aff aff_int root db_name c f s' t). Qed.

(** An append to a study whose table has another name always raises. *)
Theorem C10_append_to_other_table_raises c f t :
  reach aff root db_name f -> call_ok db_name c -> c_machines c <> [] -> c_params c <> [] ->
  c_w c = false -> c_excl c = true -> c_table c <> "calc" ->
  stored f (c_table c) t -> (forall t', ~ stored f "calc" t') ->
  snd (exec (write c) (St f None)) = None.
Proof. exact (other_table_fails aff aff_int root db_name c f t). Qed.

(** A study whose table is empty cannot be appended to, and stays as it is. *)
Theorem C10_empty_table_is_stuck c f t :
  reach aff root db_name f -> call_ok db_name c -> c_w c = false ->
  stored f (c_table c) t -> nrows t = 0 ->
  snd (exec (write c) (St f None)) = None /\
  forall s, s ∈ stops (write c) (St f None) -> txn s = None /\ stored (fs s) (c_table c) t.
Proof. exact (empty_table_stuck aff aff_int root db_name c f t). Qed.
End Theorems.
Print Assumptions C04_append_keeps_old_calculations.
Print Assumptions C04_append_adds_nothing_to_old_calculations.
Print Assumptions C06_nothing_else_is_touched.
Print Assumptions C06_database_never_lost.
Print Assumptions C06_directory_never_lost.
Print Assumptions C06_backups_made.
Print Assumptions C08_input_files.
Print Assumptions C09_run_sh.
Print Assumptions C09_excl_push.
Print Assumptions C10_append_to_other_table_raises.
Print Assumptions C10_empty_table_is_stuck.

(** The example study: a second call after the first.  C02_C03_C07_case shows the
    hypotheses about the database; here are the ones about names. *)
Lemma ex_names w bak params : names_ok ex_db (ex_call w bak params).
Proof.
  assert (D : forall m, m ∈ c_machines (ex_call w bak params) -> dir_name (ex_call w bak params) m = "calc_host0" \/ dir_name (ex_call w bak params) m = "calc_host1").
  { intros m Hm. simpl in Hm. apply elem_of_cons in Hm as [->|Hm]; [now left|]. apply elem_of_list_singleton in Hm as ->. now right. }
  assert (E : forall x n, x = "calc_host0" \/ x = "calc_host1" \/ x = "calc.db" -> has_dot (bak_name x "." n) = true).
  { intros x n _. unfold bak_name. rewrite !has_dot_app. simpl. apply orb_true_r. }
  intros m n Hm. destruct (D m Hm) as [-> | ->].
  - split; [|split].
    + intros E2. apply (f_equal String.length) in E2. discriminate E2 || (unfold bak_name in E2; rewrite !BackupProofs.app_len in E2; simpl in E2; lia).
    + intros E2. apply (f_equal has_dot) in E2. rewrite E in E2 by auto. discriminate.
    + intros m' Hm' E2. apply (f_equal has_dot) in E2. rewrite E in E2 by (destruct (D m' Hm'); auto). discriminate.
  - split; [|split].
    + intros E2. apply (f_equal String.length) in E2. discriminate E2 || (unfold bak_name in E2; rewrite !BackupProofs.app_len in E2; simpl in E2; lia).
    + intros E2. apply (f_equal has_dot) in E2. rewrite E in E2 by auto. discriminate.
    + intros m' Hm' E2. apply (f_equal has_dot) in E2. rewrite E in E2 by (destruct (D m' Hm'); auto). discriminate.
Qed.
Definition is_file (f : gmap path entry) (q : path) : option pstr :=
  match f !! q with Some (EFile t) => Some t | _ => None end.
Example C04_case : c_w ex_call2 = false /\ cell_at (ex_tab (fs ex_s1)) 1 "idx" = Some (VInt 1) /\
  is_file (fs ex_s1) (ex_root ++ ["calc_host0"; pretty 1%Z] ++ ["pw.in"]) = Some (pst "ecut=20 idx=1").
Proof. vm_compute. auto. Qed.
Example C06_case : call_ok ex_db ex_call2 /\ names_ok ex_db ex_call2 /\ c_backup ex_call2 = true /\
  bool_decide (is_Some (fs ex_s1 !! dbfn ex_root ex_db)) = true /\
  is_file (fs ex_s2) (ex_root ++ ["calc_host1.0"; "1"; "pw.in"]) = Some (pst "ecut=20 idx=1").
Proof. split; [apply (ex_call_ok false true)|]. split; [apply (ex_names false true)|]. vm_compute. auto. Qed.
Example C08_case : NoDup (map (dir_name ex_call2) (c_machines ex_call2)) /\
  is_file (fs ex_s2) (ex_root ++ ["calc_host1"; "2"; "pw.in"]) = Some (pst "ecut=30 idx=2") /\
  is_file (fs ex_s2) (ex_root ++ ["calc_host1"; "2"; "job.sh"]) = Some (pst "run study_run2 in /scratch").
Proof. split; [apply (bool_decide_unpack _); vm_compute; exact I|]. vm_compute. auto. Qed.
Example C08_templates : forall m, m ∈ c_machines ex_call2 -> NoDup (map tm_base (calc_templates ex_call2 m)).
Proof.
  intros m Hm. simpl in Hm. apply elem_of_cons in Hm as [->|Hm]; [|apply elem_of_list_singleton in Hm as ->];
    apply (bool_decide_unpack _); vm_compute; exact I.
Qed.
Lemma ex_text f txt : is_file f ["t.in"] = Some txt -> text_at ex_root ex_db ex_call2 (St f None) ex_templ txt.
Proof.
  intros G. right. split; [reflexivity|]. split.
  - split; [|split; [vm_compute; discriminate|vm_compute; discriminate]]. intros m Hm [r E]. discriminate E.
  - unfold is_file in G. cbn [fs tm_file ex_templ]. destruct (f !! ["t.in"]) as [[]|]; try discriminate. injection G as ->. reflexivity.
Qed.
Example C08_text : text_at ex_root ex_db ex_call2 (St (fs ex_s1) None) ex_templ (pst "ecut=XXXECUT idx=XXXIDX").
Proof. apply ex_text. vm_compute. reflexivity. Qed.
(** With the keys of the template given, the conditions on the rules hold. *)
Definition ex_rules : list (pstr * rval) := [(pst "XXXECUT", ROther (pst "30")); (pst "XXXIDX", ROther (pst "2"))].
Example C08_rules :
  describes (Templ "pw.in" ["t.in"] None (Some ["ecut"; "idx"]) xxx_func)
    (file_value "study" (ex_mach "host1") 1 2 [auto_entry "ecut" (VInt 30)]) ex_rules /\
  dict_ok (texts_of ex_rules) /\ keys_disjoint (texts_of ex_rules) (pst "ecut=XXXECUT idx=XXXIDX") /\
  keys_separated (texts_of ex_rules) (pst "ecut=XXXECUT idx=XXXIDX") /\ values_clean (texts_of ex_rules).
Proof.
  split; [|split; [apply check_dict_sound; reflexivity|split; [apply check_disjoint_sound; reflexivity|split; [apply check_separated_sound; reflexivity|apply check_clean_sound; reflexivity]]]].
  split; [apply NoDup_cons; split; [intros H; apply elem_of_list_singleton in H; discriminate H|apply NoDup_singleton]|]. intros p v. split.
  - intros H. apply elem_of_cons in H as [H|H].
    + injection H as -> ->. exists "ecut", (VInt 30). split; [left|]. split; [reflexivity|]. split; reflexivity.
    + apply elem_of_list_singleton in H. injection H as -> ->. exists "idx", (VInt 2). split; [right; left|]. split; [reflexivity|]. split; reflexivity.
  - intros (k & x & Hk & Hx & -> & ->). simpl in Hk. apply elem_of_cons in Hk as [-> |Hk].
    + injection Hx as <-. left.
    + apply elem_of_list_singleton in Hk as ->. injection Hx as <-. right. left.
Qed.
Example C09_case : is_file (fs ex_s2) (ex_root ++ ["excl_push"]) = Some (pst "0
1") /\ is_file (fs ex_s2) (ex_root ++ ["calc_host0"; "run.sh"]) = Some (pst "here=$(pwd)
cd 2 && qsub job.sh && cd $here && sleep 0
").
Proof. vm_compute. auto. Qed.

(** C10: the table of the example under another name. *)
Definition ex_other (c : call) : call :=
  Call (c_w c) (c_backup c) (c_sleep c) (c_excl c) (c_machines c) (c_templates c) (c_params c) (c_study c) "runs" (c_prefix c) (c_ord c).
Definition ex_o1 : st := fst (exec (write_input ex_aff ex_root ex_db (ex_other ex_call1)) (St ex_fs0 None)).
Definition ex_o2 : st := fst (exec (write_input ex_aff ex_root ex_db (ex_other ex_call2)) (St (fs ex_o1) None)).
Definition tab_rows (f : gmap path entry) (n : string) : option nat :=
  match f !! dbfn ex_root ex_db with Some (EDb tb) => nrows <$> (tb !! n) | _ => None end.
(** The call raises, but the files are there, and after the destructor of the
    connection has committed, so is the row. *)
Example C10_other_table_case :
  tab_rows (fs ex_o1) "runs" = Some 2 /\ tab_rows (fs ex_o1) "calc" = None /\
  snd (exec (write_input ex_aff ex_root ex_db (ex_other ex_call2)) (St (fs ex_o1) None)) = None /\
  is_file (fs ex_o2) (ex_root ++ ["calc_host1"; "2"; "pw.in"]) = Some (pst "ecut=30 idx=2") /\
  tab_rows (fs (commit (dbfn ex_root ex_db) ex_o2)) "runs" = Some 3.
Proof. vm_compute. auto 10. Qed.

(** Killed between the creation of the table and the commit: an empty table. *)
Definition has_empty (s : st) : bool :=
  match tab_rows (fs s) "calc" with Some 0 => true | _ => false end.
Theorem C10_killed_study_is_stuck_refuted :
  exists f t, reach ex_aff ex_root ex_db f /\ stored ex_root ex_db f "calc" t /\ nrows t = 0.
Proof.
  assert (H : existsb has_empty (stops (write_input ex_aff ex_root ex_db ex_call1) (St ex_fs0 None)) = true) by (vm_compute; reflexivity).
  apply List.existsb_exists in H. destruct H as (s & Hs & He).
  unfold has_empty, tab_rows in He. destruct (fs s !! dbfn ex_root ex_db) as [[|tb|]|] eqn:E; try discriminate.
  destruct (tb !! "calc") as [t|] eqn:Et; [|discriminate]. simpl in He.
  exists (fs s), t. split; [|split; [exists tb; auto|destruct (nrows t); [reflexivity|discriminate]]].
  refine (r_killed _ _ _ ex_fs0 ex_call1 s (r_init _ _ _ ex_fs0 _) (ex_call_ok _ _ _) _).
  - vm_compute. reflexivity.
  - now apply elem_of_list_In.
Qed.
Print Assumptions C10_killed_study_is_stuck_refuted.

(** One key with two types: the first call raises after the files were written. *)
Definition ex_call3 : call := ex_call false true [[ex_ecut 10]; [Leaf (auto_entry "ecut" (VText "high"))]].
Theorem C10_two_types_refuted :
  snd (exec (write_input ex_aff ex_root ex_db ex_call3) (St ex_fs0 None)) = None /\
  let s := fst (exec (write_input ex_aff ex_root ex_db ex_call3) (St ex_fs0 None)) in
  is_file (fs s) (ex_root ++ ["calc_host1"; "1"; "pw.in"]) = Some (pst "ecut=high idx=1") /\
  tab_rows (fs (commit (dbfn ex_root ex_db) s)) "calc" = None.
Proof. vm_compute. auto. Qed.
Print Assumptions C10_two_types_refuted.
