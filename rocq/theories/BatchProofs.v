From Coq Require Import Ascii String ZArith Lia.
From stdpp Require Import base gmap strings pretty list.
From Verif Require Import Comb Template TemplateSpec Sql SqlSpec SqlProofs Fs FsProofs Batch BatchSpec.
Local Open Scope string_scope.
Local Open Scope list_scope.

(** ** Rows and columns *)
Section Rows.
Variable aff : string -> val -> val.

Definition ctype (cols : list (string * string)) (k : string) : string :=
  default "" (snd <$> List.find (fun c => String.eqb (fst c) k) cols).
Definition ins_row (cols : list (string * string)) (rec : list (string * val)) : gmap string val :=
  fold_left (fun r kv => set_cell r (fst kv) (aff (ctype cols (fst kv)) (snd kv))) rec ∅.
Definition sqlvals (r : record) : list (string * val) := map (fun ke => (fst ke, e_sqlval (snd ke))) r.

Lemma insert_row_some t rec t' :
  insert_row aff t rec = Some t' ->
  t' = Tab (t_cols t) (t_rows t ++ [ins_row (t_cols t) rec]).
Proof. unfold insert_row. destruct (forallb _ _); [|discriminate]. intros [= <-]. reflexivity. Qed.

Lemma ins_row_cell cols rec k v :
  NoDup (map fst rec) -> (k, v) ∈ rec -> cell (ins_row cols rec) k = aff (ctype cols k) v.
Proof. intros Hn Hin. apply (proj2 (fold_set_cells aff (fun k v => aff (ctype cols k) v) rec ∅) Hn _ _ Hin). Qed.
Lemma ins_row_null cols rec k : k ∉ map fst rec -> cell (ins_row cols rec) k = VNull.
Proof.
  intros H. unfold ins_row.
  rewrite (proj1 (fold_set_cells aff (fun k v => aff (ctype cols k) v) rec ∅) k H). apply cell_empty.
Qed.

Lemma ctype_app cols ext k ty : ctype cols k = ty -> ty <> "" -> ctype (cols ++ ext) k = ty.
Proof.
  unfold ctype. intros H Hne. induction cols as [|[n t] cols IH]; simpl in *; [subst; contradiction|].
  destruct (String.eqb n k); auto.
Qed.
End Rows.

(** ** Dicts of entries *)
Lemma dict_set_nodup {A} (d : list (string * A)) k v : NoDup (map fst d) -> NoDup (map fst (dict_set d k v)).
Proof.
  intros H. rewrite dict_set_keys. destruct (existsb (String.eqb k) (map fst d)) eqn:E; [assumption|].
  apply NoDup_app. split; [assumption|]. split; [|repeat constructor; apply not_elem_of_nil].
  intros x Hx Hk. apply elem_of_list_singleton in Hk as ->.
  assert (existsb (String.eqb k) (map fst d) = true); [|congruence].
  apply existsb_exists. exists k. split; [now apply elem_of_list_In|apply String.eqb_refl].
Qed.
Lemma dict_set_in {A} (d : list (string * A)) k v x : x ∈ map fst (dict_set d k v) <-> x = k \/ x ∈ map fst d.
Proof.
  rewrite dict_set_keys. destruct (existsb (String.eqb k) (map fst d)) eqn:E.
  - apply existsb_exists in E. destruct E as [y [Hy E]]. apply String.eqb_eq in E. subst y.
    apply elem_of_list_In in Hy. split; [auto|]. intros [->|?]; auto.
  - rewrite elem_of_app, elem_of_list_singleton. tauto.
Qed.
Lemma dict_get_in {A} (d : list (string * A)) k v : dict_get d k = Some v -> (k, v) ∈ d.
Proof.
  induction d as [|[k' v'] d IH]; simpl; [discriminate|].
  destruct (String.eqb_spec k' k) as [->|]; [intros [= ->]; left|right; auto].
Qed.
Lemma dict_get_keys {A} (d : list (string * A)) k : is_Some (dict_get d k) <-> k ∈ map fst d.
Proof.
  induction d as [|[k' v'] d IH]; simpl.
  - split; [intros [? ?]; discriminate|]. intros H. apply elem_of_nil in H. contradiction.
  - rewrite elem_of_cons. destruct (String.eqb_spec k' k) as [->|Hne]; [split; eauto|].
    rewrite IH. split; [auto|]. intros [->|?]; [contradiction|assumption].
Qed.
Lemma dict_get_none {A} (d : list (string * A)) k : dict_get d k = None <-> k ∉ map fst d.
Proof. rewrite <- dict_get_keys. apply eq_None_not_Some. Qed.

Lemma record_of_gen l : forall d,
  (NoDup (map fst d) -> NoDup (map fst (fold_left (fun d e => dict_set d (e_key e) e) l d))) /\
  (forall k, dict_get (fold_left (fun d e => dict_set d (e_key e) e) l d) k
     = match last_entry l k with Some e => Some e | None => dict_get d k end).
Proof.
  induction l as [|e l IH]; intros d; simpl; [auto|].
  destruct (IH (dict_set d (e_key e) e)) as [H1 H2]. split.
  - intros Hd. apply H1. now apply dict_set_nodup.
  - intros k. rewrite H2. unfold last_entry. simpl.
    assert (Hf : forall l0 : list entry_t, List.find (fun e => String.eqb (e_key e) k) (l0 ++ [e])
       = match List.find (fun e => String.eqb (e_key e) k) l0 with Some x => Some x | None =>
           if String.eqb (e_key e) k then Some e else None end).
    { induction l0 as [|x l0 IH0]; simpl; [reflexivity|]. destruct (String.eqb (e_key x) k); auto. }
    rewrite Hf. destruct (List.find _ (rev l)); [reflexivity|].
    destruct (String.eqb_spec (e_key e) k) as [->|Hne]; [apply dict_get_set_eq|now apply dict_get_set_ne].
Qed.
Lemma record_of_nodup l : NoDup (map fst (record_of l)).
Proof. apply (proj1 (record_of_gen l [])). constructor. Qed.
Lemma record_of_get l k : dict_get (record_of l) k = last_entry l k.
Proof. unfold record_of. rewrite (proj2 (record_of_gen l [])). now destruct (last_entry l k). Qed.

Lemma last_entry_app l l' k :
  last_entry (l ++ l') k = match last_entry l' k with Some e => Some e | None => last_entry l k end.
Proof.
  unfold last_entry. rewrite rev_app_distr. induction (rev l') as [|x r IH]; simpl; [reflexivity|].
  destruct (String.eqb (e_key x) k); auto.
Qed.
Lemma last_entry_key l k e : last_entry l k = Some e -> e_key e = k.
Proof. unfold last_entry. intros H. apply List.find_some in H. now apply String.eqb_eq. Qed.

Lemma calc_record_get c rev idx ps k :
  dict_get (calc_record c rev idx ps) k =
  match last_entry (extra_params (c_study c) rev idx) k with
  | Some e => Some e | None => last_entry (flat_map flatten_pset ps) k end.
Proof. unfold calc_record. rewrite record_of_get. apply last_entry_app. Qed.
Lemma calc_record_nodup c rev idx ps : NoDup (map fst (calc_record c rev idx ps)).
Proof. apply record_of_nodup. Qed.
Lemma calc_record_idx c rev idx ps : dict_get (calc_record c rev idx ps) "idx" = Some (auto_entry "idx" (VInt idx)).
Proof. rewrite calc_record_get. reflexivity. Qed.
Lemma calc_record_rev c rev idx ps : dict_get (calc_record c rev idx ps) "revision" = Some (auto_entry "revision" (VInt rev)).
Proof. rewrite calc_record_get. reflexivity. Qed.

Lemma flatten_pset_entries p : entries p (flatten_pset p).
Proof.
  revert p. fix IH 1. intros [e|l]; simpl; [constructor|].
  assert (H : exists ls, Forall2 entries l ls /\ flat_map flatten_pset l = concat ls).
  { induction l as [|p l [ls [H1 H2]]]; [exists []; split; [constructor|reflexivity]|].
    exists (flatten_pset p :: ls). split; [constructor; [apply IH|assumption]|]. simpl. now rewrite H2. }
  destruct H as [ls [H1 ->]]. now constructor.
Qed.

(** keys of the dict as database values *)
Lemma sqlvals_keys r : map fst (sqlvals r) = map fst r.
Proof. unfold sqlvals. rewrite map_map. reflexivity. Qed.
Lemma sqlvals_in r k e : dict_get r k = Some e -> (k, e_sqlval e) ∈ sqlvals r.
Proof. intros H. apply dict_get_in in H. unfold sqlvals. apply elem_of_list_fmap. exists (k, e). auto. Qed.

(** ** The parts of write_input that do not touch the database *)
Section Study.
Variable aff : string -> val -> val.
Variable root : path.
Variable db_name : string.
Variable c : call.
Notation db := (dbfn root db_name).

Definition keepdb (s s' : st) : Prop :=
  is_Some (fs s !! db) -> fs s' !! db = fs s !! db /\ txn s' = txn s.
#[local] Instance keepdb_refl : Reflexive keepdb.
Proof. intros s _. auto. Qed.
#[local] Instance keepdb_trans : Transitive keepdb.
Proof. intros s1 s2 s3 H1 H2 Hs. destruct (H1 Hs) as [E1 E2]. destruct H2 as [E3 E4]; [congruence|]. split; congruence. Qed.

Lemma keepdb_backup name prefix : rel keepdb (backup root name prefix).
Proof.
  intros s s' H [e He]. apply backup_stops in H. destruct H as (H1 & H2 & _). split; [|assumption].
  rewrite He. auto.
Qed.
Lemma keepdb_rm_tree p : ~ under p db -> rel keepdb (rm_tree p).
Proof. intros Hp s s' H _. apply rm_tree_stops in H. destruct H as (H1 & H2 & _). auto. Qed.
Lemma keepdb_makedirs p : rel keepdb (makedirs p).
Proof.
  intros s s' H [e He]. apply makedirs_from_stops in H. destruct H as (H1 & H2 & _). split; [|assumption].
  rewrite He. auto.
Qed.
Lemma keepdb_file_write p t : p <> db -> rel keepdb (file_write p t).
Proof. intros Hp s s' H _. apply file_write_stops in H. destruct H as (H1 & H2). auto. Qed.

Lemma sub_not_db m k r : calc_dir root c m ++ [k] ++ r <> db.
Proof. unfold calc_dir, dbfn. rewrite <- app_assoc. intros H. apply app_inv_head in H. discriminate. Qed.
Lemma sub_not_under m k : ~ under (calc_dir root c m ++ [k]) db.
Proof. intros [r E]. rewrite <- app_assoc in E. symmetry in E. now apply sub_not_db in E. Qed.
Lemma dir_not_under m : dir_name c m <> db_name -> ~ under (calc_dir root c m) db.
Proof.
  intros H [r E]. unfold calc_dir, dbfn in E. rewrite <- app_assoc in E. apply app_inv_head in E. injection E as E _. congruence.
Qed.

Lemma keepdb_write_templ m k rec t : rel keepdb (write_templ (calc_dir root c m ++ [k]) rec t).
Proof.
  unfold write_templ.
  assert (G : forall keys, rel keepdb (txt <- (match tm_txt t with Some x => Ret x | None => file_read (tm_file t) end) ;;
    match rules_of (tm_func t) rec keys [] with
    | None => Fail
    | Some rules => match template_replace true txt rules with
      | None => Fail | Some new => file_write ((calc_dir root c m ++ [k]) ++ [tm_base t]) new end end)).
  { intros keys. apply rel_bind; [apply _| |].
    - destruct (tm_txt t); [apply rel_ret; apply _|]. apply rel_ask. intros s.
      destruct (fs s !! tm_file t) as [[]|]; first [apply rel_ret; apply _|apply rel_fail; apply _].
    - intros txt. destruct (rules_of _ _ _ _); [|apply rel_fail; apply _].
      destruct (template_replace _ _ _); [|apply rel_fail; apply _].
      apply keepdb_file_write. rewrite <- app_assoc. apply sub_not_db. }
  destruct (tm_keys t) as [[|k0 ks]|]; [apply rel_fail; apply _|apply G|apply G].
Qed.

Lemma keepdb_calc_write_input m k ts rec : rel keepdb (calc_write_input (calc_dir root c m ++ [k]) ts rec).
Proof.
  unfold calc_write_input. apply rel_bind; [apply _|apply rel_gets; apply _|]. intros ex.
  apply rel_bind; [apply _|apply rel_when; [apply _|apply keepdb_makedirs]|]. intros _.
  apply rel_run_all; [apply _|apply _|]. intros p Hp. apply elem_of_list_fmap in Hp. destruct Hp as [t [-> _]].
  apply keepdb_write_templ.
Qed.

Lemma calc_loop_cons m rv mi k ps rest : calc_loop root c m rv mi k (ps :: rest) =
  match mi with
  | None => Fail
  | Some z =>
    ex <- exists_p (calc_dir root c m ++ [pretty (z + Z.of_nat k + 1)%Z]) ;;
    when (c_w c && ex) (rm_tree (calc_dir root c m ++ [pretty (z + Z.of_nat k + 1)%Z])) ;;;
    calc_write_input (calc_dir root c m ++ [pretty (z + Z.of_nat k + 1)%Z]) (calc_templates c m)
      (write_record m (calc_record c rv (z + Z.of_nat k + 1)%Z ps)) ;;;
    match m_templ m with
    | None => Fail
    | Some t =>
      '(recs, txt) <- calc_loop root c m rv mi (S k) rest ;;
      Ret (calc_record c rv (z + Z.of_nat k + 1)%Z ps :: recs,
           (run_line c m (tm_base t) (z + Z.of_nat k + 1)%Z ++ txt)%string)
    end
  end.
Proof. reflexivity. Qed.

Lemma keepdb_calc_loop m rv mi params : forall k, rel keepdb (calc_loop root c m rv mi k params).
Proof.
  induction params as [|ps params IH]; intros k; [apply rel_ret; apply _|]. rewrite calc_loop_cons.
  destruct mi as [z|]; [|apply rel_fail; apply _].
  apply rel_bind; [apply _|apply rel_gets; apply _|]. intros ex.
  apply rel_bind; [apply _|apply rel_when; [apply _|apply keepdb_rm_tree, sub_not_under]|]. intros _.
  apply rel_bind; [apply _|apply keepdb_calc_write_input|]. intros _.
  destruct (m_templ m); [|apply rel_fail; apply _].
  apply rel_bind; [apply _|apply IH|]. intros [recs txt]. apply rel_ret. apply _.
Qed.

Lemma keepdb_machine_step m rv mi : dir_name c m <> db_name -> rel keepdb (machine_step root c rv mi m).
Proof.
  intros Hm. unfold machine_step. apply rel_bind; [apply _|apply rel_gets; apply _|]. intros ex.
  apply rel_bind; [apply _|apply rel_when; [apply _|apply keepdb_backup]|]. intros _.
  apply rel_bind; [apply _|apply rel_when; [apply _|apply keepdb_rm_tree, dir_not_under, Hm]|]. intros _.
  apply rel_bind; [apply _|apply keepdb_calc_loop|]. intros [recs txt].
  apply rel_bind; [apply _|apply keepdb_file_write|intros _; apply rel_ret; apply _].
  intros E. apply (sub_not_db m "run.sh" []). now rewrite app_nil_r.
Qed.

Lemma keepdb_all_machines rv mi :
  (forall m, m ∈ c_machines c -> dir_name c m <> db_name) -> rel keepdb (all_machines root c rv mi).
Proof.
  intros H. unfold all_machines. destruct (c_machines c) as [|m ms]; [apply rel_ret; apply _|].
  apply rel_bind; [apply _|apply keepdb_machine_step, H; left|]. intros recs.
  apply rel_bind; [apply _| |intros _; apply rel_ret; apply _].
  assert (H' : forall m', m' ∈ ms -> dir_name c m' <> db_name) by (intros; apply H; now right). clear H.
  induction ms as [|m' ms IH]; [apply rel_ret; apply _|].
  change (rest_machines root c rv mi (m' :: ms)) with (machine_step root c rv mi m' ;;; rest_machines root c rv mi ms).
  apply rel_bind; [apply _|apply keepdb_machine_step, H'; left|]. intros _. apply IH. intros; apply H'; now right.
Qed.

(** ** The records *)
Fixpoint recs_from (rv z : Z) (k : nat) (params : list (list pset)) : list record :=
  match params with
  | [] => []
  | ps :: rest => calc_record c rv (z + Z.of_nat k + 1) ps :: recs_from rv z (S k) rest
  end.
Lemma recs_from_length rv z params : forall k, length (recs_from rv z k params) = length params.
Proof. induction params as [|ps r IH]; intros k; simpl; auto. Qed.
Lemma recs_from_lookup rv z params : forall k j,
  recs_from rv z k params !! j = (fun ps => calc_record c rv (z + Z.of_nat (k + j) + 1) ps) <$> (params !! j).
Proof.
  induction params as [|ps r IH]; intros k [|j]; simpl; auto.
  - now rewrite Nat.add_0_r.
  - rewrite IH. destruct (r !! j); simpl; [|reflexivity]. do 2 f_equal. lia.
Qed.

Fixpoint run_txt (m : machine) (job : string) (z : Z) (k n : nat) : string :=
  match n with
  | O => ""
  | S n' => (run_line c m job (z + Z.of_nat k + 1) ++ run_txt m job z (S k) n')%string
  end.

Lemma calc_loop_result m rv mi params : forall k s s' recs txt,
  exec (calc_loop root c m rv mi k params) s = (s', Some (recs, txt)) ->
  (params = [] /\ recs = [] /\ txt = "") \/
  exists z t, mi = Some z /\ m_templ m = Some t /\ recs = recs_from rv z k params /\
    txt = run_txt m (tm_base t) z k (length params).
Proof.
  induction params as [|ps params IH]; intros k s s' recs txt H.
  - simpl in H. injection H as _ <- <-. auto.
  - right. rewrite calc_loop_cons in H. destruct mi as [z|]; [|discriminate].
    rewrite exec_bind in H. destruct (exec (exists_p _) s) as [s1 [ex|]]; [|discriminate].
    rewrite exec_bind in H. destruct (exec (when _ _) s1) as [s2 [u2|]]; [|discriminate].
    rewrite exec_bind in H. destruct (exec (calc_write_input _ _ _) s2) as [s3 [u3|]]; [|discriminate].
    destruct (m_templ m) as [t|]; [|discriminate].
    rewrite exec_bind in H. destruct (exec (calc_loop _ _ _ _ _ _ _) s3) as [s4 [[recs' txt']|]] eqn:E; [|discriminate].
    simpl in H. injection H as <- <- <-. exists z, t. split; [reflexivity|]. split; [reflexivity|].
    apply IH in E. destruct E as [(-> & -> & ->)|(z' & t' & Hz & Ht & -> & ->)]; [split; reflexivity|].
    injection Hz as <-. injection Ht as <-. split; reflexivity.
Qed.

Lemma machine_step_result m rv mi s s' recs :
  exec (machine_step root c rv mi m) s = (s', Some recs) ->
  (c_params c = [] /\ recs = []) \/ exists z, mi = Some z /\ recs = recs_from rv z 0 (c_params c).
Proof.
  unfold machine_step. intros H.
  rewrite exec_bind in H. destruct (exec (exists_p _) s) as [s1 [ex|]]; [|discriminate].
  rewrite exec_bind in H. destruct (exec (when _ _) s1) as [s2 [u2|]]; [|discriminate].
  rewrite exec_bind in H. destruct (exec (when _ _) s2) as [s3 [u3|]]; [|discriminate].
  rewrite exec_bind in H. destruct (exec (calc_loop _ _ _ _ _ _ _) s3) as [s4 [[recs' txt']|]] eqn:E; [|discriminate].
  rewrite exec_bind in H. destruct (exec (file_write _ _) s4) as [s5 [u5|]]; [|discriminate].
  simpl in H. injection H as _ <-.
  apply calc_loop_result in E. destruct E as [(-> & -> & _)|(z & t & -> & _ & -> & _)]; eauto.
Qed.

Lemma all_machines_result rv mi s s' recs :
  exec (all_machines root c rv mi) s = (s', Some recs) ->
  (recs = [] /\ (c_machines c = [] \/ c_params c = [])) \/
  (c_machines c <> [] /\ exists z, mi = Some z /\ recs = recs_from rv z 0 (c_params c)).
Proof.
  unfold all_machines. intros H. destruct (c_machines c) as [|m ms].
  - simpl in H. injection H as _ <-. auto.
  - rewrite exec_bind in H. destruct (exec (machine_step _ _ _ _ _) s) as [s1 [recs'|]] eqn:E; [|discriminate].
    rewrite exec_bind in H. destruct (exec (rest_machines _ _ _ _ _) s1) as [s2 [u2|]]; [|discriminate].
    simpl in H. injection H as _ <-. apply machine_step_result in E.
    destruct E as [(E1 & ->)|(z & -> & ->)]; [auto|]. right. split; [discriminate|]. eauto.
Qed.

(** ** The database part *)
Lemma add_cols_stops l : forall s s' tb t,
  txn s = None -> fs s !! db = Some (EDb tb) -> tb !! c_table c = Some t ->
  s' ∈ stops (add_cols root db_name c l) s ->
  txn s' = None /\ (forall q, q <> db -> fs s' !! q = fs s !! q) /\
  exists ext, fs s' !! db = Some (EDb (<[c_table c := Tab (t_cols t ++ ext) (t_rows t)]> tb)).
Proof.
  induction l as [|[k ty] l IH]; intros s s' tb t Hx Hf Ht H; simpl in H.
  - apply elem_of_list_singleton in H as ->. split; [assumption|]. split; [auto|]. exists [].
    rewrite app_nil_r. destruct t. simpl. now rewrite insert_id.
  - unfold view in H. rewrite Hx, Hf in H. unfold tab_of in H. rewrite Ht in H. simpl in H.
    assert (Hstop : s' = s -> txn s' = None /\ (forall q, q <> db -> fs s' !! q = fs s !! q) /\
      exists ext, fs s' !! db = Some (EDb (<[c_table c := Tab (t_cols t ++ ext) (t_rows t)]> tb))).
    { intros ->. split; [assumption|]. split; [auto|]. exists [].
      rewrite app_nil_r. destruct t. simpl. now rewrite insert_id. }
    destruct (has_column t k); [eauto|].
    destruct (add_column t k ty) as [t'|] eqn:E; simpl in H; [|apply elem_of_list_singleton in H; auto].
    apply elem_of_cons in H. destruct H as [H|H]; [auto|].
    destruct (add_column_prefix _ _ _ _ E) as [e1 He1]. pose proof (add_column_rows _ _ _ _ E) as He2.
    unfold ddl in H. rewrite Hx in H.
    assert (H2 : fs (put db (EDb (set_tab c tb t')) s) !! db = Some (EDb (set_tab c tb t'))) by apply lookup_insert.
    assert (H3 : set_tab c tb t' !! c_table c = Some t') by apply lookup_insert.
    destruct (IH (put db (EDb (set_tab c tb t')) s) s' _ t' Hx H2 H3 H) as (G1 & G2 & ext & G3).
    split; [assumption|]. split.
    + intros q Hq. rewrite G2 by assumption. apply lookup_insert_ne. congruence.
    + exists (e1 ++ ext). rewrite G3. unfold set_tab. rewrite insert_insert, He1, He2, app_assoc. reflexivity.
Qed.

Definition grow (tb : tables) (t : table) (recs : list record) : tables :=
  <[c_table c := Tab (t_cols t) (t_rows t ++ map (fun r => ins_row aff (t_cols t) (sqlvals r)) recs)]> tb.

Definition fits (cols : list (string * string)) (recs : list record) : Prop :=
  Forall (fun r : record => forall k, k ∈ map fst r -> k ∈ map fst cols) recs.

Lemma inserts_stops recs : forall s s' tb t,
  view db s = Some tb -> tb !! c_table c = Some t ->
  s' ∈ stops (inserts aff root db_name c recs) s ->
  fs s' = fs s /\ (s' = s \/ exists j, 0 < j <= length recs /\ txn s' = Some (grow tb t (take j recs)) /\
    fits (t_cols t) (take j recs)).
Proof.
  induction recs as [|r recs IH]; intros s s' tb t Hv Ht H; simpl in H.
  - apply elem_of_list_singleton in H as ->. auto.
  - rewrite Hv, Ht in H.
    destruct (insert_row aff t _) as [t'|] eqn:E; simpl in H; [|apply elem_of_list_singleton in H as ->; auto].
    apply elem_of_cons in H. destruct H as [->|H]; [auto|].
    pose proof (insert_row_spec _ _ _ _ E) as (E1 & _ & _ & _ & _ & E2).
    apply insert_row_some in E. fold (sqlvals r) in E, E2. rewrite sqlvals_keys in E2.
    assert (H3 : set_tab c tb t' !! c_table c = Some t') by apply lookup_insert.
    destruct (IH (dml (set_tab c tb t') s) _ (set_tab c tb t') t' eq_refl H3 H) as [G1 G2].
    split; [exact G1|]. right. destruct G2 as [->|(j & Hj & G2 & G3)].
    + exists 1. split; [simpl; lia|]. split; [|repeat constructor; exact E2].
      simpl. rewrite E. unfold grow, set_tab. simpl. reflexivity.
    + exists (S j). split; [simpl; lia|]. split; [|simpl; constructor; [exact E2|rewrite <- E1; exact G3]].
      rewrite G2. rewrite E. unfold grow, set_tab. simpl.
      rewrite insert_insert, <- app_assoc. reflexivity.
Qed.

Lemma inserts_exec recs : forall s s' u tb t,
  view db s = Some tb -> tb !! c_table c = Some t ->
  exec (inserts aff root db_name c recs) s = (s', Some u) ->
  fs s' = fs s /\ (recs = [] /\ s' = s \/ txn s' = Some (grow tb t recs)) /\
  fits (t_cols t) recs.
Proof.
  induction recs as [|r recs IH]; intros s s' u tb t Hv Ht H; simpl in H.
  - injection H as -> _. split; [reflexivity|]. split; [auto|constructor].
  - rewrite Hv, Ht in H.
    destruct (insert_row aff t _) as [t'|] eqn:E; simpl in H; [|discriminate].
    pose proof (insert_row_spec _ _ _ _ E) as (E1 & _ & _ & _ & _ & E2).
    apply insert_row_some in E. fold (sqlvals r) in E, E2.
    assert (H3 : set_tab c tb t' !! c_table c = Some t') by apply lookup_insert.
    destruct (IH (dml (set_tab c tb t') s) _ _ (set_tab c tb t') t' eq_refl H3 H) as (G1 & G2 & G3).
    split; [exact G1|]. split.
    + right. destruct G2 as [[-> ->]|G2].
      * simpl. rewrite E. unfold grow, set_tab. simpl. reflexivity.
      * rewrite G2, E. unfold grow, set_tab. simpl. rewrite insert_insert, <- app_assoc. reflexivity.
    + constructor; [rewrite sqlvals_keys in E2; exact E2|]. now rewrite E1 in G3.
Qed.

Lemma write_excl_stops rv s s' :
  db_name <> "excl_push" -> s' ∈ stops (write_excl root db_name c rv) s ->
  txn s' = txn s /\ fs s' !! db = fs s !! db /\ forall q, q <> root ++ ["excl_push"] -> fs s' !! q = fs s !! q.
Proof.
  intros Hn H. unfold write_excl in H. cbn [stops with_view] in H.
  assert (Hs : s' = s -> txn s' = txn s /\ fs s' !! db = fs s !! db /\ forall q, q <> root ++ ["excl_push"] -> fs s' !! q = fs s !! q) by (intros ->; auto).
  destruct (view db s) as [tb|]; [|apply elem_of_list_singleton in H; auto].
  destruct (_ && _ && _); [|apply elem_of_list_singleton in H; auto].
  destruct (tb !! "calc") as [t|]; [|apply elem_of_list_singleton in H; auto].
  destruct (_ && _); [|apply elem_of_list_singleton in H; auto].
  apply file_write_stops in H. destruct H as [H1 H2]. split; [assumption|]. split; [|assumption].
  apply H2. unfold dbfn. intros E. apply app_inv_head in E. congruence.
Qed.

(** Everything the database part can leave as tables, in the file or in the open
    transaction, starting from the tables [tb0]. *)
Inductive db_state (tb0 : tables) (new : bool) (recs : list record) : tables -> nat -> Prop :=
| ds_same : db_state tb0 new recs tb0 0
| ds_new ext t j : new = true -> tb0 !! c_table c = None ->
    create_table (c_ord c (raw_header recs)) = Some t -> ext = t_cols t -> j <= length recs ->
    fits ext (take j recs) ->
    db_state tb0 new recs (grow tb0 (Tab ext []) (take j recs)) j
| ds_old t ext j : new = false -> tb0 !! c_table c = Some t -> j <= length recs ->
    fits (t_cols t ++ ext) (take j recs) ->
    db_state tb0 new recs (grow tb0 (Tab (t_cols t ++ ext) (t_rows t)) (take j recs)) j.

Definition db_phase (new : bool) (rv : Z) (recs : list record) : prog unit :=
  (if new then create root db_name c (c_ord c (raw_header recs))
   else add_cols root db_name c (raw_header recs)) ;;;
  inserts aff root db_name c recs ;;;
  write_excl root db_name c rv ;;;
  do (commit db).

Lemma grow_nil tb t : grow tb t [] = <[c_table c := t]> tb.
Proof. unfold grow. simpl. rewrite app_nil_r. destruct t. reflexivity. Qed.

(** schema step: either still the same, or the table is there *)
Lemma schema_stops new recs s s' tb0 :
  txn s = None -> fs s !! db = Some (EDb tb0) ->
  (new = false -> is_Some (tb0 !! c_table c)) ->
  s' ∈ stops (if new then create root db_name c (c_ord c (raw_header recs))
              else add_cols root db_name c (raw_header recs)) s ->
  txn s' = None /\ (forall q, q <> db -> fs s' !! q = fs s !! q) /\
  exists tb, fs s' !! db = Some (EDb tb) /\ db_state tb0 new recs tb 0.
Proof.
  intros Hx Hf Hold H. destruct new.
  - unfold create in H. cbn [stops with_view] in H. unfold view in H. rewrite Hx, Hf in H.
    assert (Hs : s' = s -> txn s' = None /\ (forall q, q <> db -> fs s' !! q = fs s !! q) /\
      exists tb, fs s' !! db = Some (EDb tb) /\ db_state tb0 true recs tb 0).
    { intros ->. split; [assumption|]. split; [auto|]. exists tb0. split; [assumption|constructor]. }
    destruct (tb0 !! c_table c) eqn:E; [apply elem_of_list_singleton in H; auto|].
    destruct (create_table _) as [t|] eqn:Ec; [|apply elem_of_list_singleton in H; auto].
    simpl in H. apply elem_of_cons in H as [H|H]; [auto|]. apply elem_of_list_singleton in H as ->.
    unfold ddl. rewrite Hx. split; [assumption|]. simpl. split; [intros q Hq; apply lookup_insert_ne; congruence|].
    exists (set_tab c tb0 t). split; [apply lookup_insert|].
    assert (Ht : t = Tab (t_cols t) []).
    { unfold create_table in Ec. destruct (c_ord c (raw_header recs)); [discriminate|].
      destruct (ci_nodup _); [|discriminate]. injection Ec as <-. reflexivity. }
    pose proof (ds_new tb0 true recs (t_cols t) t 0 eq_refl E Ec eq_refl (Nat.le_0_l _) (Forall_nil_2 _)) as D.
    simpl in D. rewrite grow_nil, <- Ht in D. exact D.
  - destruct (Hold eq_refl) as [t Ht].
    destruct (add_cols_stops _ _ _ _ _ Hx Hf Ht H) as (G1 & G2 & ext & G3).
    split; [assumption|]. split; [assumption|]. eexists. split; [exact G3|].
    pose proof (ds_old tb0 false recs t ext 0 eq_refl Ht (Nat.le_0_l _) (Forall_nil_2 _)) as D. simpl in D. rewrite grow_nil in D. exact D.
Qed.

(** after the schema step the table exists *)
Lemma schema_exec new recs s s' u tb0 :
  txn s = None -> fs s !! db = Some (EDb tb0) ->
  (new = false -> is_Some (tb0 !! c_table c)) ->
  exec (if new then create root db_name c (c_ord c (raw_header recs))
              else add_cols root db_name c (raw_header recs)) s = (s', Some u) ->
  txn s' = None /\ exists tb t, fs s' !! db = Some (EDb tb) /\ tb !! c_table c = Some t /\
    forall j, j <= length recs -> fits (t_cols t) (take j recs) -> db_state tb0 new recs (grow tb t (take j recs)) j.
Proof.
  intros Hx Hf Hold H. destruct new.
  - unfold create in H. cbn [exec with_view] in H. unfold view in H. rewrite Hx, Hf in H.
    destruct (tb0 !! c_table c) eqn:E; [discriminate|].
    destruct (create_table _) as [t|] eqn:Ec; [|discriminate].
    simpl in H. injection H as <- _. unfold ddl. rewrite Hx. split; [assumption|].
    exists (set_tab c tb0 t), t. split; [apply lookup_insert|]. split; [apply lookup_insert|].
    assert (Ht : t = Tab (t_cols t) []).
    { unfold create_table in Ec. destruct (c_ord c (raw_header recs)); [discriminate|].
      destruct (ci_nodup _); [|discriminate]. injection Ec as <-. reflexivity. }
    intros j Hj Hfit. pose proof (ds_new tb0 true recs (t_cols t) t j eq_refl E Ec eq_refl Hj Hfit) as D.
    unfold grow, set_tab in *. rewrite insert_insert. rewrite <- Ht in D. exact D.
  - destruct (Hold eq_refl) as [t Ht]. apply exec_stop in H.
    destruct (add_cols_stops _ _ _ _ _ Hx Hf Ht H) as (G1 & G2 & ext & G3).
    split; [assumption|]. eexists _, _. split; [exact G3|]. split; [apply lookup_insert|].
    intros j Hj Hfit. pose proof (ds_old tb0 false recs t ext j eq_refl Ht Hj Hfit) as D.
    unfold grow in *. rewrite insert_insert. exact D.
Qed.

Lemma db_phase_stops new rv recs s s' tb0 :
  db_name <> "excl_push" -> txn s = None -> fs s !! db = Some (EDb tb0) ->
  (new = false -> is_Some (tb0 !! c_table c)) ->
  s' ∈ stops (db_phase new rv recs) s ->
  (exists tb j, fs s' !! db = Some (EDb tb) /\ db_state tb0 new recs tb j) /\
  (forall tb, txn s' = Some tb -> exists j, db_state tb0 new recs tb j).
Proof.
  intros Hn Hx Hf Hold H. unfold db_phase in H.
  apply stops_bind in H. destruct H as [H|(u & s1 & E1 & H)].
  { destruct (schema_stops _ _ _ _ _ Hx Hf Hold H) as (G1 & _ & tb & G2 & G3). split; [eauto|]. rewrite G1. discriminate. }
  destruct (schema_exec _ _ _ _ _ _ Hx Hf Hold E1) as (X1 & tb1 & t1 & F1 & T1 & D1).
  assert (V1 : view db s1 = Some tb1) by (unfold view; now rewrite X1, F1).
  assert (D10 : db_state tb0 new recs tb1 0).
  { specialize (D1 0 (Nat.le_0_l _) (Forall_nil_2 _)). simpl in D1. rewrite grow_nil, insert_id in D1; assumption. }
  assert (Gsame : forall s2, fs s2 !! db = fs s1 !! db -> (txn s2 = None \/ exists j, j <= length recs /\ txn s2 = Some (grow tb1 t1 (take j recs)) /\ fits (t_cols t1) (take j recs)) ->
    (exists tb j, fs s2 !! db = Some (EDb tb) /\ db_state tb0 new recs tb j) /\
    (forall tb, txn s2 = Some tb -> exists j, db_state tb0 new recs tb j)).
  { intros s2 Hs Ht. split; [exists tb1, 0; rewrite Hs; auto|]. intros tb Htb. destruct Ht as [Ht|(j & Hj & Ht & Hfit)]; [congruence|].
    exists j. rewrite Htb in Ht. injection Ht as ->. auto. }
  apply stops_bind in H. destruct H as [H|(u2 & s2 & E2 & H)].
  { destruct (inserts_stops _ _ _ _ _ V1 T1 H) as [G1 G2]. apply Gsame; [now rewrite G1|].
    destruct G2 as [->|(j & Hj & G2)]; [left; assumption|right; exists j; split; [lia|assumption]]. }
  destruct (inserts_exec _ _ _ _ _ _ V1 T1 E2) as (G1 & G2 & G3).
  assert (Gx2 : txn s2 = None \/ exists j, j <= length recs /\ txn s2 = Some (grow tb1 t1 (take j recs)) /\ fits (t_cols t1) (take j recs)).
  { destruct G2 as [[-> ->]|G2]; [left; assumption|right]. exists (length recs). rewrite firstn_all. auto. }
  apply stops_bind in H. destruct H as [H|(u3 & s3 & E3 & H)].
  { apply write_excl_stops in H; [|assumption]. destruct H as (H1 & H2 & _). apply Gsame; [congruence|]. rewrite H1. exact Gx2. }
  apply exec_stop, write_excl_stops in E3; [|assumption]. destruct E3 as (H1 & H2 & _).
  simpl in H. apply elem_of_cons in H as [->|H]; [apply Gsame; [congruence|rewrite H1; exact Gx2]|].
  apply elem_of_list_singleton in H as ->. unfold commit. rewrite H1. destruct Gx2 as [Gx|(j & Hj & Gx & Hfit)]; rewrite Gx.
  - apply Gsame; [congruence|]. left. congruence.
  - split; [|discriminate]. exists (grow tb1 t1 (take j recs)), j. split; [apply lookup_insert|]. auto.
Qed.

Lemma db_phase_exec new rv recs s s' u tb0 :
  db_name <> "excl_push" -> txn s = None -> fs s !! db = Some (EDb tb0) ->
  (new = false -> is_Some (tb0 !! c_table c)) ->
  exec (db_phase new rv recs) s = (s', Some u) ->
  txn s' = None /\ exists tb t, fs s' !! db = Some (EDb tb) /\ tb !! c_table c = Some t /\
    db_state tb0 new recs tb (length recs) /\
    fits (t_cols t) recs /\
    (forall q, q <> db -> q <> root ++ ["excl_push"] -> fs s' !! q = fs s !! q).
Proof.
  intros Hn Hx Hf Hold H. unfold db_phase in H.
  rewrite exec_bind in H. destruct (exec (if new then _ else _) s) as [s1 [u1|]] eqn:E1; [|discriminate].
  assert (Q1 : forall q, q <> db -> fs s1 !! q = fs s !! q).
  { apply exec_stop in E1. destruct (schema_stops _ _ _ _ _ Hx Hf Hold E1) as (_ & G & _). exact G. }
  destruct (schema_exec _ _ _ _ _ _ Hx Hf Hold E1) as (X1 & tb1 & t1 & F1 & T1 & D1).
  assert (V1 : view db s1 = Some tb1) by (unfold view; now rewrite X1, F1).
  rewrite exec_bind in H. destruct (exec (inserts _ _ _ _ _) s1) as [s2 [u2|]] eqn:E2; [|discriminate].
  destruct (inserts_exec _ _ _ _ _ _ V1 T1 E2) as (G1 & G2 & G3).
  rewrite exec_bind in H. destruct (exec (write_excl _ _ _ _) s2) as [s3 [u3|]] eqn:E3; [|discriminate].
  apply exec_stop, write_excl_stops in E3; [|assumption]. destruct E3 as (H1 & H2 & H3).
  simpl in H. injection H as <- _. unfold commit. rewrite H1.
  specialize (D1 (length recs) (Nat.le_refl _)). rewrite firstn_all in D1. specialize (D1 G3).
  destruct G2 as [[-> ->]|G2].
  - rewrite X1. split; [congruence|]. exists tb1, t1. split; [congruence|]. split; [assumption|].
    unfold grow in D1. simpl in D1. rewrite app_nil_r in D1.
    replace (<[c_table c:={| t_cols := t_cols t1; t_rows := t_rows t1 |}]> tb1) with tb1 in D1
      by (destruct t1; simpl; now rewrite insert_id).
    split; [exact D1|]. split; [constructor|]. intros q Hq Hq2. rewrite H3, Q1; auto.
  - rewrite G2. split; [reflexivity|]. exists (grow tb1 t1 recs). eexists. split; [apply lookup_insert|].
    split; [apply lookup_insert|]. split; [exact D1|]. split; [exact G3|].
    intros q Hq Hq2. simpl. rewrite lookup_insert_ne by congruence. rewrite H3, G1, Q1; auto.
Qed.

(** ** write_input as a whole *)
Lemma numbering_pure new s s' r :
  exec (numbering root db_name c new) s = (s', r) -> s' = s.
Proof.
  unfold numbering, with_view. destruct new; simpl; [congruence|]. destruct (c_w c); simpl; [congruence|].
  destruct (view db s); simpl; [|congruence]. destruct (has_column _ "idx"); simpl; [|congruence].
  destruct (max_int _); simpl; [|congruence]. destruct (has_column _ "revision"); simpl; [|congruence].
  destruct (max_int _) as [[]|]; simpl; congruence.
Qed.
Lemma numbering_stops new s s' :
  s' ∈ stops (numbering root db_name c new) s -> s' = s.
Proof.
  unfold numbering, with_view. destruct new; simpl; [apply elem_of_list_singleton|].
  destruct (c_w c); simpl; [apply elem_of_list_singleton|].
  destruct (view db s); simpl; [|apply elem_of_list_singleton].
  destruct (has_column _ "idx"); simpl; [|apply elem_of_list_singleton].
  destruct (max_int _); simpl; [|apply elem_of_list_singleton].
  destruct (has_column _ "revision"); simpl; [|apply elem_of_list_singleton].
  destruct (max_int _) as [[]|]; simpl; apply elem_of_list_singleton.
Qed.

Definition prepare : prog bool :=
  ex <- exists_p db ;;
  when (ex && c_backup c) (backup root db_name ".") ;;;
  when (ex && c_w c) (remove_file db) ;;;
  ex' <- exists_p db ;;
  makedirs root ;;;
  connect db ;;;
  Ret (negb ex').

Lemma bind_assoc {A B C} (m : prog A) (f : A -> prog B) (g : B -> prog C) s :
  exec (bind (bind m f) g) s = exec (bind m (fun a => bind (f a) g)) s /\
  stops (bind (bind m f) g) s = stops (bind m (fun a => bind (f a) g)) s.
Proof. revert s. induction m as [a| |h m IH|h IH]; intros s; simpl; auto. destruct (IH (h s)). split; [auto|f_equal; auto]. Qed.

Definition equiv {A} (m m' : prog A) : Prop := forall s, exec m s = exec m' s /\ stops m s = stops m' s.
Lemma equiv_bind {A B} (m : prog A) (f g : A -> prog B) : (forall a, equiv (f a) (g a)) -> equiv (bind m f) (bind m g).
Proof. intros H s. revert s. induction m as [a| |h m IH|h IH]; intros s; simpl; auto; [apply H|]. destruct (IH (h s)). split; [auto|f_equal; auto]. Qed.
Lemma equiv_trans {A} (a b d : prog A) : equiv a b -> equiv b d -> equiv a d.
Proof. intros H1 H2 s. destruct (H1 s), (H2 s). split; congruence. Qed.
Lemma equiv_refl {A} (a : prog A) : equiv a a.
Proof. intros s. auto. Qed.

Definition main (new : bool) : prog unit :=
  '(revision, max_idx) <- numbering root db_name c new ;;
  recs0 <- all_machines root c revision max_idx ;;
  match recs0, hostname_val c with
  | _ :: _, None => Fail
  | _, h => db_phase new revision (map (add_hostname (default "" h)) recs0)
  end.

Lemma equiv_assoc {A B C} (m : prog A) (f : A -> prog B) (g : B -> prog C) :
  equiv (bind m (fun a => bind (f a) g)) (bind (bind m f) g).
Proof. intros s. destruct (bind_assoc m f g s). auto. Qed.

Lemma write_input_split : equiv (write_input aff root db_name c) (bind prepare main).
Proof.
  unfold write_input, prepare.
  repeat (eapply equiv_trans; [|apply equiv_assoc]; apply equiv_bind; intros ?).
  apply equiv_refl.
Qed.

Lemma exists_p_exec p s s' o : exec (exists_p p) s = (s', o) -> s' = s /\ o = Some (bool_decide (is_Some (fs s !! p))).
Proof. simpl. intros [= <- <-]. auto. Qed.

(** database file during the preparation *)
Definition prep_ok (s s' : st) : Prop :=
  txn s' = txn s /\
  (fs s' !! db = fs s !! db \/
   (c_w c = true /\ fs s' !! db = None) \/
   ((fs s !! db = None \/ c_w c = true) /\ fs s' !! db = Some (EDb ∅))).

Lemma root_not_db q : (exists b, root = q ++ b) -> q <> db.
Proof.
  intros [b E]. unfold dbfn. intros E2. apply (f_equal (@length string)) in E, E2.
  rewrite app_length in E, E2. simpl in E2. lia.
Qed.

Lemma makedirs_root_stops s s' : s' ∈ stops (makedirs root) s -> txn s' = txn s /\ fs s' !! db = fs s !! db.
Proof.
  intros H. apply makedirs_from_stops in H. destruct H as (H1 & H2 & H3). split; [assumption|].
  destruct (H3 db) as [E|(_ & _ & a & b & E & _ & E2)]; [assumption|]. simpl in E2. exfalso.
  eapply root_not_db; [exists b; exact E|]. symmetry. exact E2.
Qed.
Lemma connect_stops s s' : s' ∈ stops (connect db) s ->
  txn s' = txn s /\ (s' = s \/ (fs s !! db = None /\ fs s' !! db = Some (EDb ∅))) /\ (forall q, q <> db -> fs s' !! q = fs s !! q).
Proof.
  simpl. intros H. destruct (fs s !! db) as [[]|] eqn:E; simpl in H; try (apply elem_of_list_singleton in H as ->; auto).
  destruct (is_dir s (parent db)); simpl in H.
  - apply elem_of_cons in H as [->|H]; [auto|]. apply elem_of_list_singleton in H as ->. simpl.
    split; [reflexivity|]. split; [right; split; [reflexivity|apply lookup_insert]|]. intros q Hq. apply lookup_insert_ne. congruence.
  - apply elem_of_list_singleton in H as ->. auto.
Qed.

(** the state of the database file before makedirs *)
Lemma pre_db_stops s s' ex :
  ex = bool_decide (is_Some (fs s !! db)) ->
  s' ∈ stops (when (ex && c_backup c) (backup root db_name ".") ;;; when (ex && c_w c) (remove_file db)) s ->
  txn s' = txn s /\ (fs s' !! db = fs s !! db \/ (c_w c = true /\ fs s' !! db = None)).
Proof.
  intros Hex H.
  assert (Hb : forall s1, s1 ∈ stops (when (ex && c_backup c) (backup root db_name ".")) s -> txn s1 = txn s /\ fs s1 !! db = fs s !! db).
  { intros s1 Hs. unfold when in Hs. destruct (ex && c_backup c) eqn:E; [|apply elem_of_list_singleton in Hs as ->; auto].
    apply andb_true_iff in E. destruct E as [-> _]. symmetry in Hex. apply bool_decide_eq_true in Hex.
    destruct (keepdb_backup db_name "." s s1 Hs Hex). auto. }
  apply stops_bind in H. destruct H as [H|(u & s1 & E & H)]; [destruct (Hb _ H); auto|].
  apply exec_stop in E. destruct (Hb _ E) as [B1 B2].
  unfold when in H. destruct (ex && c_w c) eqn:Ew; [|apply elem_of_list_singleton in H as ->; auto].
  apply andb_true_iff in Ew. destruct Ew as [_ Hw]. simpl in H.
  destruct (fs s1 !! db) as [[]|] eqn:E1; simpl in H; try (apply elem_of_list_singleton in H as ->; rewrite B1; split; [reflexivity|left; congruence]);
    (apply elem_of_cons in H as [->|H]; [rewrite B1; split; [reflexivity|left; congruence]|]);
    apply elem_of_list_singleton in H as ->; simpl; (split; [assumption|]); right; (split; [assumption|]); apply lookup_delete.
Qed.

Lemma prepare_stops s s' : s' ∈ stops prepare s -> prep_ok s s'.
Proof.
  intros H. unfold prepare in H.
  apply stops_bind in H. destruct H as [H|(ex & s0 & E & H)].
  { simpl in H. apply elem_of_list_singleton in H as ->. split; auto. }
  apply exists_p_exec in E. destruct E as [-> E]. injection E as ->.
  set (ex := bool_decide (is_Some (fs s !! db))) in *.
  rewrite <- (proj2 (bind_assoc (when (ex && c_backup c) (backup root db_name ".")) (fun _ => when (ex && c_w c) (remove_file db))
      (fun _ => ex' <- exists_p db ;; makedirs root ;;; connect db ;;; Ret (negb ex')) s)) in H.
  apply stops_bind in H. destruct H as [H|(u & s1 & E1 & H)].
  { apply pre_db_stops in H; [|reflexivity]. destruct H as [H1 H2]. split; [assumption|]. destruct H2 as [H2|H2]; auto. }
  apply exec_stop, pre_db_stops in E1; [|reflexivity]. destruct E1 as [X1 F1].
  apply stops_bind in H. destruct H as [H|(ex' & s2 & E2 & H)].
  { simpl in H. apply elem_of_list_singleton in H as ->. split; [assumption|]. destruct F1; auto. }
  apply exists_p_exec in E2. destruct E2 as [-> E2].
  apply stops_bind in H. destruct H as [H|(u2 & s2 & E3 & H)].
  { apply makedirs_root_stops in H. destruct H as [H1 H2]. split; [congruence|]. rewrite H2. destruct F1; auto. }
  apply exec_stop, makedirs_root_stops in E3. destruct E3 as [X2 F2].
  apply stops_bind in H.
  assert (G : forall s3, s3 ∈ stops (connect db) s2 -> prep_ok s s3).
  { intros s3 H3. apply connect_stops in H3. destruct H3 as (X3 & F3 & _). split; [congruence|].
    destruct F3 as [->|[F3 F4]]; [rewrite F2; destruct F1; auto|].
    right. right. split; [|assumption]. rewrite F2 in F3. destruct F1 as [F1|[F1 _]]; [left; congruence|auto]. }
  destruct H as [H|(u3 & s3 & E4 & H)]; [auto|].
  simpl in H. apply elem_of_list_singleton in H as ->. apply exec_stop in E4. auto.
Qed.

Lemma connect_exec s s' u : exec (connect db) s = (s', Some u) -> exists tb, fs s' !! db = Some (EDb tb) /\
  (fs s !! db = Some (EDb tb) /\ s' = s \/ fs s !! db = None /\ tb = ∅) /\ txn s' = txn s.
Proof.
  simpl. destruct (fs s !! db) as [[]|] eqn:E; simpl; try discriminate.
  - intros [= <- _]. exists tb. auto.
  - destruct (is_dir s (parent db)); simpl; [|discriminate]. intros [= <- _]. exists ∅. split; [apply lookup_insert|]. auto.
Qed.

Lemma prepare_exec s s' new :
  exec prepare s = (s', Some new) -> txn s' = txn s /\
  exists tb, fs s' !! db = Some (EDb tb) /\
   ((new = true /\ tb = ∅ /\ (fs s !! db = None \/ c_w c = true)) \/
    (new = false /\ c_w c = false /\ fs s !! db = Some (EDb tb))).
Proof.
  intros H. unfold prepare in H.
  rewrite exec_bind in H. destruct (exec (exists_p db) s) as [s0 o0] eqn:E0.
  apply exists_p_exec in E0. destruct E0 as [-> ->].
  set (ex := bool_decide (is_Some (fs s !! db))) in *.
  rewrite <- (proj1 (bind_assoc (when (ex && c_backup c) (backup root db_name ".")) (fun _ => when (ex && c_w c) (remove_file db))
      (fun _ => ex' <- exists_p db ;; makedirs root ;;; connect db ;;; Ret (negb ex')) s)) in H.
  rewrite exec_bind in H. match type of H with context [exec ?m s] => destruct (exec m s) as [s1 [u1|]] eqn:E1 end; [|discriminate].
  assert (Hw : c_w c = true -> is_Some (fs s !! db) -> fs s1 !! db = None).
  { intros Hw Hs. unfold ex in E1. rewrite bool_decide_true in E1 by assumption. simpl in E1. rewrite Hw in E1.
    rewrite exec_bind in E1. destruct (exec (when (c_backup c) _) s) as [sa [ua|]]; [|discriminate].
    simpl in E1. destruct (fs sa !! db) as [[]|]; simpl in E1; try discriminate; injection E1 as <- _; apply lookup_delete. }
  apply exec_stop, pre_db_stops in E1; [|reflexivity]. destruct E1 as [X1 F1].
  rewrite exec_bind in H. destruct (exec (exists_p db) s1) as [s2 o2] eqn:E2.
  apply exists_p_exec in E2. destruct E2 as [-> ->].
  rewrite exec_bind in H. destruct (exec (makedirs root) s1) as [s3 [u3|]] eqn:E3; [|discriminate].
  apply exec_stop, makedirs_root_stops in E3. destruct E3 as [X3 F3].
  rewrite exec_bind in H. destruct (exec (connect db) s3) as [s4 [u4|]] eqn:E4; [|discriminate].
  apply connect_exec in E4. destruct E4 as (tb & F4 & C4 & X4).
  simpl in H. injection H as <- <-. split; [congruence|]. exists tb. split; [assumption|].
  rewrite F3 in C4. destruct C4 as [[C4 _]|[C4 ->]].
  - right. rewrite bool_decide_true by (rewrite C4; eauto). split; [reflexivity|].
    destruct F1 as [F1|[_ F1]]; [|rewrite C4 in F1; discriminate]. rewrite C4 in F1. symmetry in F1. split; [|assumption].
    destruct (c_w c) eqn:Ew; [|reflexivity]. rewrite Hw in C4; [discriminate|reflexivity|rewrite F1; eauto].
  - left. rewrite bool_decide_false by (rewrite C4; intros [? ?]; discriminate). split; [reflexivity|]. split; [reflexivity|].
    destruct F1 as [F1|[F1 _]]; [left; congruence|auto].
Qed.

(** what numbering found *)
Definition numbers (new : bool) (tb : tables) (rv : Z) (mi : option Z) : Prop :=
  if new then rv = 0%Z /\ mi = Some (-1)%Z
  else exists t, tb !! c_table c = Some t /\ max_int (column t "idx") = Some mi /\
    has_column t "idx" = true /\
    (if has_column t "revision" then exists r, max_int (column t "revision") = Some (Some r) /\ rv = (r + 1)%Z
     else rv = 0%Z).

Lemma numbering_exec new s s' rv mi tb :
  c_w c = false \/ new = true ->
  txn s = None -> fs s !! db = Some (EDb tb) ->
  exec (numbering root db_name c new) s = (s', Some (rv, mi)) -> s' = s /\ numbers new tb rv mi.
Proof.
  intros Hw Hx Hf H. split; [eapply numbering_pure; eauto|]. unfold numbering, with_view in H. destruct new.
  - simpl in H. injection H as _ <- <-. simpl. auto.
  - destruct Hw as [Hw|]; [|discriminate]. rewrite Hw in H. simpl in H. unfold view in H. rewrite Hx, Hf in H.
    unfold tab_of in H. destruct (tb !! c_table c) as [t|] eqn:Et; simpl in H; [|discriminate].
    destruct (has_column t "idx") eqn:Ei; [|discriminate].
    destruct (max_int (column t "idx")) as [mi'|] eqn:Em; [|discriminate].
    simpl. exists t. split; [assumption|].
    destruct (has_column t "revision") eqn:Er.
    + destruct (max_int (column t "revision")) as [[r|]|] eqn:Em2; simpl in H; try discriminate.
      injection H as _ <- <-. eauto 6.
    + simpl in H. injection H as _ <- <-. auto.
Qed.

(** the states in which write_input can be stopped, as far as the database goes *)
Lemma write_input_stops s s' :
  call_ok db_name c -> txn s = None ->
  s' ∈ stops (write_input aff root db_name c) s ->
  (txn s' = None /\ prep_ok s s') \/
  exists new tb0 rv mi recs0 h,
    ((new = true /\ tb0 = ∅ /\ (fs s !! db = None \/ c_w c = true)) \/
     (new = false /\ c_w c = false /\ fs s !! db = Some (EDb tb0))) /\
    numbers new tb0 rv mi /\
    ((recs0 = [] /\ (c_machines c = [] \/ c_params c = [])) \/
     (c_machines c <> [] /\ exists z, mi = Some z /\ recs0 = recs_from rv z 0 (c_params c))) /\
    let recs := map (add_hostname h) recs0 in
    (exists tb j, fs s' !! db = Some (EDb tb) /\ db_state tb0 new recs tb j) /\
    (forall tb, txn s' = Some tb -> exists j, db_state tb0 new recs tb j).
Proof.
  intros [Hord Hdirs Hexcl] Hx H. rewrite (proj2 (write_input_split s)) in H.
  apply stops_bind in H. destruct H as [H|(new & s1 & E1 & H)].
  { left. apply prepare_stops in H. destruct H as [H1 H2]. split; [congruence|split; assumption]. }
  pose proof (prepare_exec _ _ _ E1) as (X1 & tb0 & F1 & Hnew).
  assert (Hprep : prep_ok s s1) by (apply prepare_stops; eapply exec_stop; eauto).
  rewrite Hx in X1.
  assert (Hsame : forall s2, fs s2 !! db = fs s1 !! db -> txn s2 = None -> txn s2 = None /\ prep_ok s s2).
  { intros s2 A B. split; [assumption|]. destruct Hprep as [P1 P2]. split; [congruence|]. now rewrite A. }
  unfold main in H. apply stops_bind in H. destruct H as [H|([rv mi] & s2 & E2 & H)].
  { left. apply numbering_stops in H as ->. auto. }
  apply (numbering_exec _ _ _ _ _ tb0) in E2; [|destruct Hnew as [(-> & _)|(_ & -> & _)]; auto|assumption|assumption].
  destruct E2 as [-> Hnum].
  assert (K : forall s3, s3 ∈ stops (all_machines root c rv mi) s1 -> fs s3 !! db = fs s1 !! db /\ txn s3 = txn s1).
  { intros s3 H3. eapply keepdb_all_machines; eauto. }
  apply stops_bind in H. destruct H as [H|(recs0 & s3 & E3 & H)].
  { left. destruct (K _ H). apply Hsame; congruence. }
  destruct (K s3) as [F3 X3]; [eapply exec_stop; eauto|].
  pose proof (all_machines_result _ _ _ _ _ E3) as Hrecs.
  assert (Hgo : forall h, s' ∈ stops (db_phase new rv (map (add_hostname h) recs0)) s3 -> 
     (exists tb j, fs s' !! db = Some (EDb tb) /\ db_state tb0 new (map (add_hostname h) recs0) tb j) /\
    (forall tb, txn s' = Some tb -> exists j, db_state tb0 new (map (add_hostname h) recs0) tb j)).
  { intros h Hh. rewrite X1 in X3. rewrite F1 in F3. apply (db_phase_stops _ _ _ _ _ tb0 Hexcl X3 F3) in Hh; [exact Hh|].
    intros ->. destruct Hnum as (t & Ht & _). rewrite Ht. eauto. }
  destruct recs0 as [|r0 recs0'] eqn:Er.
  - right. exists new, tb0, rv, mi, [], (default "" (hostname_val c)). repeat (split; [assumption|]).
    apply (Hgo (default "" (hostname_val c))). exact H.
  - rewrite <- Er in *. destruct (hostname_val c) as [h|].
    + right. exists new, tb0, rv, mi, recs0, h. repeat (split; [assumption|]). apply (Hgo h). subst. exact H.
    + left. simpl in H. subst recs0. apply elem_of_list_singleton in H as ->. apply Hsame; congruence.
Qed.
End Study.
