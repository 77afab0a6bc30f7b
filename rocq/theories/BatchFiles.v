(** Proofs about the files written by write_input. *)
From Coq Require Import Ascii String ZArith Lia.
From stdpp Require Import base gmap strings pretty list.
From Verif Require Import Comb Template TemplateSpec Sql SqlSpec SqlProofs Fs FsProofs BackupProofs Batch BatchSpec BatchFileSpec BatchProofs BatchInv BatchRows.
Local Open Scope string_scope.
Local Open Scope list_scope.

(** ** Names *)
Lemma pretty_char_not_r n : pretty_N_char n <> "r"%char.
Proof. unfold pretty_N_char. repeat (match goal with |- context [match ?x with _ => _ end] => destruct x end); intros E; inversion E. Qed.
Lemma pretty_N_head (n : N) : exists ch s, pretty n = String ch s /\ ch <> "r"%char.
Proof.
  assert (G : forall y t, (exists ch s, t = String ch s /\ ch <> "r"%char) ->
    exists ch s, pretty_N_go y t = String ch s /\ ch <> "r"%char).
  { intros y. induction (N.lt_wf_0 y) as [y _ IH]. intros t Ht.
    destruct (decide (0 < y)%N) as [Hy|Hy].
    - rewrite pretty_N_go_step by assumption. apply IH; [apply N.div_lt; lia|].
      eexists _, _. split; [reflexivity|]. apply pretty_char_not_r.
    - assert (y = 0%N) by lia. subst. now rewrite pretty_N_go_0. }
  unfold pretty, pretty_N. case_decide as Hx.
  - exists "0"%char, "". split; [reflexivity|discriminate].
  - rewrite pretty_N_go_step by lia. apply G. eexists _, _. split; [reflexivity|]. apply pretty_char_not_r.
Qed.
Lemma pretty_Z_not_run (z : Z) : pretty z <> "run.sh".
Proof.
  destruct z as [|p|p]; [discriminate| |discriminate].
  destruct (pretty_N_head (N.pos p)) as (ch & s & E & Hc).
  change (pretty (Z.pos p)) with (pretty (N.pos p)). rewrite E. intros [= -> _]. now apply Hc.
Qed.

Fixpoint has_dot (s : string) : bool :=
  match s with EmptyString => false | String ch r => Ascii.eqb ch "."%char || has_dot r end.
Lemma has_dot_app a b : has_dot (a ++ b)%string = has_dot a || has_dot b.
Proof. induction a as [|ch a IH]; [reflexivity|]. change (Ascii.eqb ch "." || has_dot (a ++ b)%string = Ascii.eqb ch "." || has_dot a || has_dot b). rewrite IH. apply orb_assoc. Qed.
Lemma bak_not_excl name n : bak_name name "." n <> "excl_push".
Proof.
  intros E. apply (f_equal has_dot) in E. unfold bak_name in E. rewrite !has_dot_app in E. simpl in E.
  destruct (has_dot name); discriminate.
Qed.

(** ** Relations kept by every effect of write_input *)
(** existing entries of a set of paths are kept *)
Definition keep_ex (P : path -> Prop) (s s' : st) : Prop :=
  forall q, P q -> is_Some (fs s !! q) -> fs s' !! q = fs s !! q.
(** entries of a set of paths are kept, existing or not *)
Definition keep_all (P : path -> Prop) (s s' : st) : Prop :=
  forall q, P q -> fs s' !! q = fs s !! q.
(** if [X] exists, everything at and below it is kept *)
Definition keep_sub (X : path) (s s' : st) : Prop :=
  is_Some (fs s !! X) -> forall r, fs s' !! (X ++ r) = fs s !! (X ++ r).

#[global] Instance keep_ex_refl P : Reflexive (keep_ex P).
Proof. intros s q _ _. reflexivity. Qed.
#[global] Instance keep_ex_trans P : Transitive (keep_ex P).
Proof. intros s1 s2 s3 H1 H2 q Hq He. rewrite H2; auto. rewrite H1; auto. Qed.
#[global] Instance keep_all_refl P : Reflexive (keep_all P).
Proof. intros s q _. reflexivity. Qed.
#[global] Instance keep_all_trans P : Transitive (keep_all P).
Proof. intros s1 s2 s3 H1 H2 q Hq. rewrite H2; auto. Qed.
#[global] Instance keep_sub_refl X : Reflexive (keep_sub X).
Proof. intros s _ r. reflexivity. Qed.
#[global] Instance keep_sub_trans X : Transitive (keep_sub X).
Proof.
  intros s1 s2 s3 H1 H2 He r. rewrite H2, H1; auto. specialize (H1 He []). rewrite !app_nil_r in H1. congruence.
Qed.

(** *** generic traversal *)
Section Gen.
Variable root : path.
Variable c : call.
Variable R : st -> st -> Prop.
Context `{!Reflexive R, !Transitive R}.

Definition sub (m : machine) (i : Z) : path := calc_dir root c m ++ [pretty i].
Record prims_idx (m : machine) (i : Z) : Prop := PrimsIdx {
  p_rm : c_w c = true -> rel R (rm_tree (sub m i));
  p_mk : rel R (makedirs (sub m i));
  p_wr : forall b t, rel R (file_write (sub m i ++ [b]) t) }.

Lemma gen_write_templ m i rec t : prims_idx m i -> rel R (write_templ (sub m i) rec t).
Proof.
  intros Hp. unfold write_templ.
  assert (G : forall keys, rel R (txt <- (match tm_txt t with Some x => Ret x | None => file_read (tm_file t) end) ;;
    match rules_of (tm_func t) rec keys [] with
    | None => Fail
    | Some rules => match template_replace true txt rules with
      | None => Fail | Some new => file_write (sub m i ++ [tm_base t]) new end end)).
  { intros keys. apply rel_bind; [apply _| |].
    - destruct (tm_txt t); [apply rel_ret; apply _|]. apply rel_ask. intros s.
      destruct (fs s !! tm_file t) as [[]|]; first [apply rel_ret; apply _|apply rel_fail; apply _].
    - intros txt. destruct (rules_of _ _ _ _); [|apply rel_fail; apply _].
      destruct (template_replace _ _ _); [|apply rel_fail; apply _]. apply Hp. }
  destruct (tm_keys t) as [[|k0 ks]|]; [apply rel_fail; apply _|apply G|apply G].
Qed.
Lemma gen_templs m i rec ts : prims_idx m i -> rel R (run_all (map (write_templ (sub m i) rec) ts)).
Proof.
  intros Hp. apply rel_run_all; [apply _|apply _|]. intros p H. apply elem_of_list_fmap in H.
  destruct H as [t [-> _]]. now apply gen_write_templ.
Qed.
Lemma gen_calc m i rec ts : prims_idx m i -> rel R (calc_write_input (sub m i) ts rec).
Proof.
  intros Hp. unfold calc_write_input. apply rel_bind; [apply _|apply rel_gets; apply _|]. intros ex.
  apply rel_bind; [apply _|apply rel_when; [apply _|apply Hp]|]. intros _. now apply gen_templs.
Qed.
Lemma gen_calc_loop m rv mi params : forall k,
  (forall z j, mi = Some z -> k <= j < k + length params -> prims_idx m (z + Z.of_nat j + 1)) ->
  rel R (calc_loop root c m rv mi k params).
Proof.
  induction params as [|ps params IH]; intros k Hp; [apply rel_ret; apply _|]. rewrite calc_loop_cons.
  destruct mi as [z|]; [|apply rel_fail; apply _].
  assert (Hk : prims_idx m (z + Z.of_nat k + 1)) by (apply (Hp z k eq_refl); simpl; lia).
  apply rel_bind; [apply _|apply rel_gets; apply _|]. intros ex.
  apply rel_bind; [apply _| |].
  { unfold when. destruct (c_w c && ex) eqn:E; [|apply rel_ret; apply _]. apply andb_true_iff in E. destruct E as [E _]. now apply Hk. }
  intros _. apply rel_bind; [apply _|now apply gen_calc|]. intros _.
  destruct (m_templ m); [|apply rel_fail; apply _].
  apply rel_bind; [apply _| |intros [recs txt]; apply rel_ret; apply _].
  apply IH. intros z' j Hz Hj. apply Hp; [assumption|simpl; lia].
Qed.
Record prims (m : machine) (mi : option Z) : Prop := Prims {
  p_bak : c_backup c = true -> rel R (backup root (dir_name c m) ".");
  p_rmd : c_w c = true -> rel R (rm_tree (calc_dir root c m));
  p_idx : forall z j, mi = Some z -> j < length (c_params c) -> prims_idx m (z + Z.of_nat j + 1);
  p_run : forall t, rel R (file_write (calc_dir root c m ++ ["run.sh"]) t) }.
Lemma gen_machine_step m rv mi : prims m mi -> rel R (machine_step root c rv mi m).
Proof.
  intros [H1 H2 H3 H4]. unfold machine_step. apply rel_bind; [apply _|apply rel_gets; apply _|]. intros ex.
  apply rel_bind; [apply _| |].
  { unfold when. destruct (ex && c_backup c) eqn:E; [|apply rel_ret; apply _]. apply andb_true_iff in E. apply H1, E. }
  intros _. apply rel_bind; [apply _| |].
  { unfold when. destruct (ex && c_w c) eqn:E; [|apply rel_ret; apply _]. apply andb_true_iff in E. apply H2, E. }
  intros _. apply rel_bind; [apply _|apply gen_calc_loop|].
  { intros z j Hz Hj. apply H3; [assumption|lia]. }
  intros [recs txt]. apply rel_bind; [apply _|apply H4|intros _; apply rel_ret; apply _].
Qed.
Lemma gen_rest ms rv mi : (forall m, m ∈ ms -> prims m mi) -> rel R (rest_machines root c rv mi ms).
Proof.
  induction ms as [|m' ms IH]; intros H'; [apply rel_ret; apply _|].
  change (rest_machines root c rv mi (m' :: ms)) with (machine_step root c rv mi m' ;;; rest_machines root c rv mi ms).
  apply rel_bind; [apply _|apply gen_machine_step, H'; left|]. intros _. apply IH. intros; apply H'; now right.
Qed.
Lemma gen_all_machines rv mi : (forall m, m ∈ c_machines c -> prims m mi) -> rel R (all_machines root c rv mi).
Proof.
  intros H. unfold all_machines. destruct (c_machines c) as [|m ms]; [apply rel_ret; apply _|].
  apply rel_bind; [apply _|apply gen_machine_step, H; left|]. intros recs.
  apply rel_bind; [apply _| |intros _; apply rel_ret; apply _].
  apply gen_rest. intros; apply H; now right.
Qed.
End Gen.

(** *** primitives *)
Lemma kex_backup P d name prefix : rel (keep_ex P) (backup d name prefix).
Proof. intros s s' H q _ [e He]. apply backup_stops in H. destruct H as (_ & H & _). rewrite He. auto. Qed.
Lemma kex_makedirs P p : rel (keep_ex P) (makedirs p).
Proof. intros s s' H q _ [e He]. apply makedirs_from_stops in H. destruct H as (_ & H & _). rewrite He. auto. Qed.
Lemma kex_rm (P : path -> Prop) p : (forall q, P q -> ~ under p q) -> rel (keep_ex P) (rm_tree p).
Proof. intros Hp s s' H q Hq _. apply rm_tree_stops in H. destruct H as (_ & H & _). apply H. auto. Qed.
Lemma kex_write (P : path -> Prop) p t : (forall q, P q -> q <> p) -> rel (keep_ex P) (file_write p t).
Proof. intros Hp s s' H q Hq _. apply file_write_stops in H. destruct H as (_ & H). apply H. auto. Qed.

Lemma kall_backup (P : path -> Prop) d name prefix :
  (forall q n, P q -> ~ under (d ++ [bak_name name prefix n]) q) -> rel (keep_all P) (backup d name prefix).
Proof. intros Hp s s' H q Hq. apply backup_stops in H. destruct H as (_ & _ & n & H). apply H. auto. Qed.
Lemma kall_makedirs (P : path -> Prop) p : (forall q b, P q -> p <> q ++ b) -> rel (keep_all P) (makedirs p).
Proof.
  intros Hp s s' H q Hq. apply makedirs_from_stops in H. destruct H as (_ & _ & H).
  destruct (H q) as [E|(_ & _ & a & b & E & _ & E2)]; [assumption|]. simpl in E2. subst. exfalso. eapply Hp; eauto.
Qed.
Lemma kall_rm (P : path -> Prop) p : (forall q, P q -> ~ under p q) -> rel (keep_all P) (rm_tree p).
Proof. intros Hp s s' H q Hq. apply rm_tree_stops in H. destruct H as (_ & H & _). apply H. auto. Qed.
Lemma kall_write (P : path -> Prop) p t : (forall q, P q -> q <> p) -> rel (keep_all P) (file_write p t).
Proof. intros Hp s s' H q Hq. apply file_write_stops in H. destruct H as (_ & H). apply H. auto. Qed.

Lemma ksub_backup d x name prefix : rel (keep_sub (d ++ [x])) (backup d name prefix).
Proof. intros s s' H Hx r. rewrite <- app_assoc. eapply backup_stops_sibling; eauto. Qed.
(** two different entries of the same directory *)
Lemma sib_not_under (d : path) x y r r' : x <> y -> d ++ [x] ++ r <> d ++ [y] ++ r'.
Proof. intros H E. apply under_same_len in E. contradiction. Qed.
Lemma ksub_rm d x y r : x <> y -> rel (keep_sub (d ++ [x])) (rm_tree (d ++ [y] ++ r)).
Proof.
  intros Hxy s s' H _ r1. apply rm_tree_stops in H. destruct H as (_ & H & _). apply H.
  intros [r2 E]. rewrite <- !app_assoc in E. simpl in E. revert E. apply (sib_not_under d x y r1 (r ++ r2) Hxy).
Qed.
Lemma ksub_makedirs d x y r : x <> y -> rel (keep_sub (d ++ [x])) (makedirs (d ++ [y] ++ r)).
Proof.
  intros Hxy s s' H [e He] r1. apply makedirs_from_stops in H. destruct H as (_ & H0 & H).
  destruct (H ((d ++ [x]) ++ r1)) as [E|(_ & _ & a & b & E & _ & E2)]; [assumption|]. simpl in E2. subst a.
  rewrite <- !app_assoc in E. symmetry in E. exfalso. revert E. apply (sib_not_under d x y (r1 ++ b) r Hxy).
Qed.
Lemma ksub_write d x y r t : x <> y -> rel (keep_sub (d ++ [x])) (file_write (d ++ [y] ++ r) t).
Proof.
  intros Hxy s s' H _ r1. apply file_write_stops in H. destruct H as (_ & H). apply H.
  rewrite <- app_assoc. now apply sib_not_under.
Qed.

Section Files.
Variable aff : string -> val -> val.
Variable root : path.
Variable db_name : string.
Variable c : call.
Notation db := (dbfn root db_name).
Notation sub := (sub root c).

Notation outside := (outside root db_name c).
Lemma sub_under m i r : under (calc_dir root c m) (sub m i ++ r).
Proof. exists ([pretty i] ++ r). unfold BatchFiles.sub. now rewrite <- app_assoc. Qed.

Lemma prims_ex (P : path -> Prop) m mi :
  (forall q, P q -> ~ under (calc_dir root c m) q) -> prims root c (keep_ex P) m mi.
Proof.
  intros HP. constructor.
  - intros _. apply kex_backup.
  - intros _. apply kex_rm. assumption.
  - intros z j _ _. constructor.
    + intros _. apply kex_rm. intros q Hq [r ->]. apply (HP _ Hq). apply sub_under.
    + apply kex_makedirs.
    + intros b t. apply kex_write. intros q Hq ->. apply (HP _ Hq). apply sub_under.
  - intros t. apply kex_write. intros q Hq ->. apply (HP _ Hq). eexists. reflexivity.
Qed.

Lemma dir_not_x m x : dir_name c m <> x -> prims root c (keep_sub (root ++ [x])) m None /\
  forall mi, prims root c (keep_sub (root ++ [x])) m mi.
Proof.
  intros Hx. assert (G : forall mi, prims root c (keep_sub (root ++ [x])) m mi); [|auto].
  intros mi. assert (Hx' : x <> dir_name c m) by congruence. constructor.
  - intros _. apply ksub_backup.
  - intros _. unfold calc_dir. apply (ksub_rm root x (dir_name c m) []); assumption.
  - intros z j _ _. constructor.
    + intros _. unfold BatchFiles.sub, calc_dir. rewrite <- app_assoc. apply ksub_rm. assumption.
    + unfold BatchFiles.sub, calc_dir. rewrite <- app_assoc. apply ksub_makedirs. assumption.
    + intros b t. unfold BatchFiles.sub, calc_dir. rewrite <- !app_assoc. apply ksub_write. assumption.
  - intros t. unfold calc_dir. rewrite <- app_assoc. apply ksub_write. assumption.
Qed.

(** *** the database part *)
Lemma gen_ddl (R : st -> st -> Prop) `{!Reflexive R, !Transitive R} tb :
  (forall s, R s (put db (EDb tb) s)) -> (forall s t, R s (St (fs s) t)) -> forall s, R s (ddl db tb s).
Proof. intros H1 H2 s. unfold ddl. destruct (txn s); auto. Qed.

Section GenDb.
Variable R : st -> st -> Prop.
Context `{!Reflexive R, !Transitive R}.
Hypothesis Hput : forall tb s, R s (put db (EDb tb) s).
Hypothesis Htxn : forall s t, R s (St (fs s) t).
Hypothesis Hex : forall t, rel R (file_write (root ++ ["excl_push"]) t).

Lemma gen_create h : rel R (create root db_name c h).
Proof.
  unfold create, with_view. apply rel_ask. intros s. destruct (view db s); [|apply rel_fail; apply _].
  destruct (_ !! _); [apply rel_fail; apply _|]. destruct (create_table h); [|apply rel_fail; apply _].
  apply rel_do; [apply _|]. apply gen_ddl; try apply _; auto.
Qed.
Lemma gen_add_cols l : rel R (add_cols root db_name c l).
Proof.
  induction l as [|[k ty] l IH]; simpl; [apply rel_ret; apply _|]. unfold with_view. apply rel_ask. intros s.
  destruct (view db s) as [tb|]; [|apply rel_fail; apply _]. destruct (has_column _ _); [assumption|].
  destruct (_ !! _); [|apply rel_fail; apply _]. destruct (add_column _ _ _); [|apply rel_fail; apply _].
  apply rel_Do; [apply _|apply _| |assumption]. apply gen_ddl; try apply _; auto.
Qed.
Lemma gen_inserts recs : rel R (inserts aff root db_name c recs).
Proof.
  induction recs as [|r recs IH]; simpl; [apply rel_ret; apply _|]. unfold with_view. apply rel_ask. intros s.
  destruct (view db s) as [tb|]; [|apply rel_fail; apply _].
  destruct (_ !! _); [|apply rel_fail; apply _]. destruct (insert_row _ _ _); [|apply rel_fail; apply _].
  apply rel_Do; [apply _|apply _| |assumption]. intros s0. apply Htxn.
Qed.
Lemma gen_write_excl rv : rel R (write_excl root db_name c rv).
Proof.
  unfold write_excl, with_view. apply rel_ask. intros s.
  destruct (view db s) as [tb|]; [|apply rel_fail; apply _].
  destruct (_ && _ && _); [|apply rel_ret; apply _]. destruct (tb !! "calc"); [|apply rel_fail; apply _].
  destruct (_ && _); [apply Hex|apply rel_fail; apply _].
Qed.
Lemma gen_commit s : R s (commit db s).
Proof. unfold commit. destruct (txn s) as [tb|]; [|reflexivity]. etransitivity; [apply (Hput tb)|]. exact (Htxn (put db (EDb tb) s) None). Qed.
Lemma gen_db_phase new rv recs : rel R (db_phase aff root db_name c new rv recs).
Proof.
  unfold db_phase. apply rel_bind; [apply _|destruct new; [apply gen_create|apply gen_add_cols]|]. intros _.
  apply rel_bind; [apply _|apply gen_inserts|]. intros _. apply rel_bind; [apply _|apply gen_write_excl|]. intros _.
  apply rel_do; [apply _|]. apply gen_commit.
Qed.

Hypothesis Hmk : rel R (makedirs root).
Hypothesis Hdel : c_w c = true -> forall s, R s (del db s).
Hypothesis Hbak : c_backup c = true -> rel R (backup root db_name ".").
Lemma gen_prepare : rel R (prepare root db_name c).
Proof.
  unfold prepare. apply rel_bind; [apply _|apply rel_gets; apply _|]. intros ex.
  apply rel_bind; [apply _| |].
  { unfold when. destruct (ex && c_backup c) eqn:E; [|apply rel_ret; apply _]. apply andb_true_iff in E. apply Hbak, E. }
  intros _. apply rel_bind; [apply _| |].
  { unfold when. destruct (ex && c_w c) eqn:E; [|apply rel_ret; apply _]. apply andb_true_iff in E. destruct E as [_ E].
    unfold remove_file. apply rel_ask. intros s. destruct (fs s !! db) as [[]|]; try (apply rel_fail; apply _);
      (apply rel_Do; [apply _|apply _|now apply Hdel|apply rel_ret; apply _]). }
  intros _. apply rel_bind; [apply _|apply rel_gets; apply _|]. intros ex'.
  apply rel_bind; [apply _|exact Hmk|]. intros _. apply rel_bind; [apply _| |intros _; apply rel_ret; apply _].
  unfold connect. apply rel_ask. intros s. destruct (fs s !! db) as [[]|]; try (apply rel_fail; apply _); [apply rel_ret; apply _|].
  destruct (is_dir s _); [|apply rel_fail; apply _]. apply rel_Do; [apply _|apply _|apply Hput|apply rel_ret; apply _].
Qed.

Hypothesis Hms : forall mi m, m ∈ c_machines c -> prims root c R m mi.
Lemma gen_write_input : rel R (write_input aff root db_name c).
Proof.
  intros s s' H. rewrite (proj2 (write_input_split aff root db_name c s)) in H. revert s s' H.
  change (rel R (bind (prepare root db_name c) (main aff root db_name c))).
  apply rel_bind; [apply _|apply gen_prepare|]. intros new. unfold main.
  apply rel_bind; [apply _| |].
  { intros s s' H. apply numbering_stops in H as ->. reflexivity. }
  intros [rv mi]. apply rel_bind; [apply _|apply gen_all_machines; try apply _; apply Hms|].
  intros recs0. destruct recs0; [apply gen_db_phase|]. destruct (hostname_val c); [apply gen_db_phase|apply rel_fail; apply _].
Qed.
End GenDb.

(** *** frame: existing entries outside *)
Lemma frame_write_input : rel (keep_ex outside) (write_input aff root db_name c).
Proof.
  apply gen_write_input; try apply _.
  - intros tb s q (_ & Hq & _) _. simpl. apply lookup_insert_ne. congruence.
  - intros s t q _ _. reflexivity.
  - intros t. apply kex_write. intros q (_ & _ & Hq). assumption.
  - apply kex_makedirs.
  - intros _ s q (_ & Hq & _) _. simpl. apply lookup_delete_ne. congruence.
  - intros _. apply kex_backup.
  - intros mi m Hm. apply prims_ex. intros q (Hq & _). auto.
Qed.
Lemma frame_all_machines rv mi : rel (keep_ex outside) (all_machines root c rv mi).
Proof. apply gen_all_machines; try apply _. intros m Hm. apply prims_ex. intros q (Hq & _). auto. Qed.

(** *** siblings of the machine directories *)
Lemma sib_put x e s : x <> db_name -> keep_sub (root ++ [x]) s (put db e s).
Proof. intros Hx _ r. simpl. apply lookup_insert_ne. unfold dbfn. rewrite <- app_assoc. intros E. apply (sib_not_under root db_name x [] r); [congruence|exact E]. Qed.
Lemma sib_del x s : x <> db_name -> keep_sub (root ++ [x]) s (del db s).
Proof. intros Hx _ r. simpl. apply lookup_delete_ne. unfold dbfn. rewrite <- app_assoc. intros E. apply (sib_not_under root db_name x [] r); [congruence|exact E]. Qed.
Lemma sib_makedirs x : rel (keep_sub (root ++ [x])) (makedirs root).
Proof.
  intros s s' H _ r. apply makedirs_from_stops in H. destruct H as (_ & _ & H).
  destruct (H ((root ++ [x]) ++ r)) as [E|(_ & _ & a & b & E & _ & E2)]; [assumption|]. simpl in E2. subst a.
  apply (f_equal (@length string)) in E. rewrite !app_length in E. simpl in E. lia.
Qed.
Lemma sib_prepare x : x <> db_name -> rel (keep_sub (root ++ [x])) (prepare root db_name c).
Proof.
  intros Hx. apply gen_prepare; try apply _.
  - intros tb s. now apply sib_put.
  - apply sib_makedirs.
  - intros _ s. now apply sib_del.
  - intros _. apply ksub_backup.
Qed.
Lemma sib_db_phase x new rv recs : x <> db_name -> x <> "excl_push" ->
  rel (keep_sub (root ++ [x])) (db_phase aff root db_name c new rv recs).
Proof.
  intros H1 H2. apply gen_db_phase; try apply _.
  - intros tb s. now apply sib_put.
  - intros s t _ r. reflexivity.
  - intros t. apply (ksub_write root x "excl_push" []). assumption.
Qed.
End Files.
