(** Proofs about the files written by write_input: earlier calculations, backups,
    contents. *)
From Coq Require Import Ascii String ZArith Lia.
From stdpp Require Import base gmap strings pretty list.
From Verif Require Import Comb Template TemplateSpec Sql SqlSpec SqlProofs Fs FsProofs BackupProofs Batch BatchSpec BatchFileSpec BatchProofs BatchInv BatchRows BatchFiles.
Local Open Scope string_scope.
Local Open Scope list_scope.

Lemma backup_exec_some d name prefix s s' u :
  exec (backup d name prefix) s = (s', Some u) -> is_Some (fs s !! (d ++ [name])) ->
  exists n, fs s !! (d ++ [bak_name name prefix n]) = None /\
    (forall r, fs s' !! (d ++ [bak_name name prefix n] ++ r) = fs s !! (d ++ [name] ++ r)) /\
    forall r, fs s' !! (d ++ [name] ++ r) = fs s !! (d ++ [name] ++ r).
Proof.
  intros H He. assert (Hsib : forall r, fs s' !! (d ++ [name] ++ r) = fs s !! (d ++ [name] ++ r)).
  { eapply backup_stops_sibling; [eapply exec_stop; eauto|assumption]. }
  destruct He as [e He]. unfold backup in H. cbn [exec] in H. rewrite He in H.
  destruct (find_free _ s d name prefix 0) as [n|] eqn:Hff; [|discriminate].
  assert (Hfree : fs s !! (d ++ [bak_name name prefix n]) = None).
  { clear H. revert Hff. generalize 0 as k. generalize (S (size (fs s))) as fuel.
    induction fuel as [|fuel IH]; intros k; simpl; [discriminate|].
    destruct (fs s !! (d ++ [bak_name name prefix k])) eqn:E; [apply IH|intros [= <-]; exact E]. }
  exists n. split; [assumption|]. split; [|assumption]. intros r.
  apply copy_tree_exec in H. destruct H as [(H & _)|(_ & _ & _ & H & _)]; [discriminate|].
  rewrite app_assoc, H, <- app_assoc. reflexivity.
Qed.

Section Files.
Variable aff : string -> val -> val.
Variable root : path.
Variable db_name : string.
Variable c : call.
Notation db := (dbfn root db_name).
Notation sub := (sub root c).

(** *** the phases of a call *)
Lemma phases_stops s s' :
  txn s = None -> s' ∈ stops (write_input aff root db_name c) s ->
  s' ∈ stops (prepare root db_name c) s \/
  exists new tb0 rv mi s1,
    exec (prepare root db_name c) s = (s1, Some new) /\
    fs s1 !! db = Some (EDb tb0) /\ txn s1 = None /\
    ((new = true /\ tb0 = ∅ /\ (fs s !! db = None \/ c_w c = true)) \/
     (new = false /\ c_w c = false /\ fs s !! db = Some (EDb tb0))) /\
    numbers c new tb0 rv mi /\
    (s' ∈ stops (all_machines root c rv mi) s1 \/
     exists recs0 s3 recs, exec (all_machines root c rv mi) s1 = (s3, Some recs0) /\
       s' ∈ stops (db_phase aff root db_name c new rv recs) s3).
Proof.
  intros Hx H. rewrite (proj2 (write_input_split aff root db_name c s)) in H.
  apply stops_bind in H. destruct H as [H|(new & s1 & E1 & H)]; [now left|].
  pose proof (prepare_exec _ _ _ _ _ _ E1) as (X1 & tb0 & F1 & Hnew). rewrite Hx in X1.
  unfold main in H. apply stops_bind in H. destruct H as [H|([rv mi] & s2 & E2 & H)].
  { left. apply numbering_stops in H as ->. eapply exec_stop; eauto. }
  apply (numbering_exec _ _ _ _ _ _ _ _ tb0) in E2; [|destruct Hnew as [(-> & _)|(_ & -> & _)]; auto|assumption|assumption].
  destruct E2 as [-> Hnum].
  right. exists new, tb0, rv, mi, s1. split; [assumption|]. split; [assumption|]. split; [assumption|]. split; [assumption|]. split; [assumption|].
  apply stops_bind in H. destruct H as [H|(recs0 & s3 & E3 & H)]; [now left|].
  destruct recs0 as [|r0 recs0'].
  - right. eexists _, s3, _. split; [exact E3|exact H].
  - destruct (hostname_val c) as [h|].
    + right. eexists _, s3, _. split; [exact E3|exact H].
    + left. simpl in H. apply elem_of_list_singleton in H as ->. eapply exec_stop; eauto.
Qed.
Lemma phases_exec s s' u :
  txn s = None -> exec (write_input aff root db_name c) s = (s', Some u) ->
  exists new tb0 rv mi s1,
    exec (prepare root db_name c) s = (s1, Some new) /\
    fs s1 !! db = Some (EDb tb0) /\ txn s1 = None /\
    ((new = true /\ tb0 = ∅ /\ (fs s !! db = None \/ c_w c = true)) \/
     (new = false /\ c_w c = false /\ fs s !! db = Some (EDb tb0))) /\
    numbers c new tb0 rv mi /\
    exists recs0 s3 recs, exec (all_machines root c rv mi) s1 = (s3, Some recs0) /\
       exec (db_phase aff root db_name c new rv recs) s3 = (s', Some u).
Proof.
  intros Hx H. rewrite (proj1 (write_input_split aff root db_name c s)) in H.
  rewrite exec_bind in H. destruct (exec (prepare root db_name c) s) as [s1 [new|]] eqn:E1; [|discriminate].
  pose proof (prepare_exec _ _ _ _ _ _ E1) as (X1 & tb0 & F1 & Hnew). rewrite Hx in X1.
  unfold main in H. rewrite exec_bind in H.
  destruct (exec (numbering root db_name c new) s1) as [s2 [[rv mi]|]] eqn:E2; [|discriminate].
  apply (numbering_exec _ _ _ _ _ _ _ _ tb0) in E2; [|destruct Hnew as [(-> & _)|(_ & -> & _)]; auto|assumption|assumption].
  destruct E2 as [-> Hnum].
  exists new, tb0, rv, mi, s1. split; [reflexivity|]. split; [assumption|]. split; [assumption|]. split; [assumption|]. split; [assumption|].
  rewrite exec_bind in H. destruct (exec (all_machines root c rv mi) s1) as [s3 [recs0|]] eqn:E3; [|discriminate].
  destruct recs0 as [|r0 recs0'].
  - eexists _, s3, _. split; [reflexivity|exact H].
  - destruct (hostname_val c) as [h|]; [|discriminate]. eexists _, s3, _. split; [reflexivity|exact H].
Qed.

(** all_machines does what rest_machines does on the whole list *)
Lemma stops_ret {A B} (m : prog A) (b : B) s : stops (bind m (fun _ => Ret b)) s = stops m s.
Proof. revert s. induction m as [a| |f m IH|g IH]; intros s; simpl; auto. f_equal. auto. Qed.
Lemma stops_ext {A B C} (m : prog A) (k : A -> prog B) (k' : A -> prog C) s :
  (forall a s, stops (k a) s = stops (k' a) s) -> stops (bind m k) s = stops (bind m k') s.
Proof. intros H. revert s. induction m as [a| |f m IH|g IH]; intros s; simpl; auto. f_equal. auto. Qed.
Lemma all_rest_stops rv mi s :
  stops (all_machines root c rv mi) s = stops (rest_machines root c rv mi (c_machines c)) s.
Proof.
  unfold all_machines. destruct (c_machines c) as [|m ms]; [reflexivity|].
  change (rest_machines root c rv mi (m :: ms)) with (machine_step root c rv mi m ;;; rest_machines root c rv mi ms).
  apply stops_ext. intros a s1. apply stops_ret.
Qed.
Lemma all_rest_exec rv mi s s' recs :
  exec (all_machines root c rv mi) s = (s', Some recs) ->
  exec (rest_machines root c rv mi (c_machines c)) s = (s', Some tt).
Proof.
  unfold all_machines. destruct (c_machines c) as [|m ms]; [simpl; intros [= <- _]; reflexivity|].
  change (rest_machines root c rv mi (m :: ms)) with (machine_step root c rv mi m ;;; rest_machines root c rv mi ms).
  rewrite !exec_bind. destruct (exec (machine_step root c rv mi m) s) as [s1 [r|]]; [|discriminate].
  rewrite exec_bind. destruct (exec (rest_machines root c rv mi ms) s1) as [s2 [[]|]]; [|discriminate].
  simpl. intros [= <- _]. reflexivity.
Qed.

(** *** C04: earlier calculations *)
Lemma numbers_old new tb0 rv mi t :
  numbers c new tb0 rv mi -> new = false -> tb0 !! c_table c = Some t ->
  forall z i zi, mi = Some z -> cell_at t i "idx" = Some (VInt zi) -> (zi <= z)%Z.
Proof.
  intros Hn -> Ht z i zi -> Hi. destruct Hn as (t' & Ht' & Hm & _). rewrite Ht in Ht'. injection Ht' as <-.
  apply max_int_some in Hm. destruct Hm as [_ Hm]. apply Hm. apply column_in. eauto.
Qed.

Notation calc_path := (calc_path root).
Lemma calc_path_sub m i r dir z r' :
  sub m i ++ r = calc_path dir z r' -> i = z /\ dir = dir_name c m /\ r = r'.
Proof.
  unfold BatchFiles.sub, BatchFileSpec.calc_path, calc_dir. rewrite <- !app_assoc. intros E. apply app_inv_head in E.
  injection E as E1 E2 E3. apply pretty_Z_inj in E2. auto.
Qed.

Section Old.
Variable olds : Z -> Prop.
Let Pold (q : path) : Prop := exists dir z r, olds z /\ q = calc_path dir z r.
Lemma prims_old_ex m mi :
  c_w c = false -> (forall z j, mi = Some z -> olds (z + Z.of_nat j + 1) -> False) ->
  prims root c (keep_ex Pold) m mi.
Proof.
  intros Hw Hmi. constructor.
  - intros _. apply kex_backup.
  - congruence.
  - intros z j Hz _. constructor; [congruence|apply kex_makedirs|].
    intros b t. apply kex_write. intros q (dir & zz & r & Ho & ->) E. symmetry in E.
    apply calc_path_sub in E. destruct E as (<- & _). eapply Hmi; eauto.
  - intros t. apply kex_write. intros q (dir & zz & r & Ho & ->) E. unfold BatchFileSpec.calc_path, calc_dir in E.
    rewrite <- app_assoc in E. apply app_inv_head in E. injection E as _ E _. now apply pretty_Z_not_run in E.
Qed.
Lemma keep_old_stops s s' tb0 :
  c_w c = false -> txn s = None -> fs s !! db = Some (EDb tb0) ->
  (forall rv mi z j, numbers c false tb0 rv mi -> mi = Some z -> olds (z + Z.of_nat j + 1) -> False) ->
  s' ∈ stops (write_input aff root db_name c) s -> keep_ex Pold s s'.
Proof.
  intros Hw Hx Hf Hold H.
  assert (Hne : forall q x, Pold q -> q <> root ++ [x]).
  { intros q x (dir & z & r & _ & ->) E. unfold BatchFileSpec.calc_path in E. apply app_inv_head in E. discriminate. }
  assert (Hput : forall tb s0, keep_ex Pold s0 (put db (EDb tb) s0)).
  { intros tb s0 q Hq _. simpl. apply lookup_insert_ne. intros <-. eapply Hne; [exact Hq|unfold dbfn; reflexivity]. }
  assert (Hprep : rel (keep_ex Pold) (prepare root db_name c)).
  { apply gen_prepare; try apply _; auto using kex_makedirs, kex_backup. congruence. }
  apply phases_stops in H; [|assumption].
  destruct H as [H|(new & tb & rv & mi & s1 & E1 & F1 & X1 & Hnew & Hnum & H)]; [now apply Hprep|].
  destruct Hnew as [(_ & _ & [?|?])|(-> & _ & Hf')]; [congruence|congruence|].
  rewrite Hf in Hf'. injection Hf' as <-.
  transitivity s1; [apply Hprep; eapply exec_stop; eauto|].
  assert (Hall : rel (keep_ex Pold) (all_machines root c rv mi)).
  { apply gen_all_machines; try apply _. intros m _. apply prims_old_ex; [assumption|]. intros z j Hz. now apply (Hold rv mi). }
  destruct H as [H|(recs0 & s3 & recs & E3 & H)]; [now apply Hall|].
  transitivity s3; [apply Hall; eapply exec_stop; eauto|].
  revert H. apply gen_db_phase; try apply _; [exact Hput|intros s0 t q _ _; reflexivity|].
  intros t. apply kex_write. intros q Hq. now apply Hne.
Qed.

(** ... and nothing new appears there, backup names aside *)
Let Pall (q : path) : Prop := exists dir z r, olds z /\ q = calc_path dir z r /\
  (forall n : nat, dir <> bak_name db_name "." n) /\
  (forall m (n : nat), m ∈ c_machines c -> dir <> bak_name (dir_name c m) "." n).
Lemma Pall_bak q name (n : nat) :
  (forall dir, (exists z r, q = calc_path dir z r) -> dir <> bak_name name "." n) ->
  Pall q -> ~ under (root ++ [bak_name name "." n]) q.
Proof.
  intros Hd (dir & z & r & _ & -> & _) [r' E]. unfold BatchFileSpec.calc_path in E. rewrite <- app_assoc in E.
  apply app_inv_head in E. injection E as E _. revert E. apply Hd. eauto.
Qed.
Lemma prims_old_all m mi :
  m ∈ c_machines c ->
  c_w c = false -> (forall z j, mi = Some z -> olds (z + Z.of_nat j + 1) -> False) ->
  prims root c (keep_all Pall) m mi.
Proof.
  intros Hm Hw Hmi. constructor.
  - intros _. apply kall_backup. intros q n (dir & z & r & Ho & -> & _ & Hd) [r' E].
    unfold BatchFileSpec.calc_path in E. rewrite <- app_assoc in E. apply app_inv_head in E. injection E as E _. revert E. now apply Hd.
  - congruence.
  - intros z j Hz _. constructor; [congruence| |].
    + apply kall_makedirs. intros q b (dir & zz & r & Ho & -> & _) E.
      assert (E' : sub m (z + Z.of_nat j + 1) ++ [] = calc_path dir zz (r ++ b)).
      { rewrite app_nil_r, E. unfold BatchFileSpec.calc_path. now rewrite <- !app_assoc. }
      apply calc_path_sub in E'. destruct E' as (<- & _). eapply Hmi; eauto.
    + intros b t. apply kall_write. intros q (dir & zz & r & Ho & -> & _) E. symmetry in E.
      apply calc_path_sub in E. destruct E as (<- & _). eapply Hmi; eauto.
  - intros t. apply kall_write. intros q (dir & zz & r & Ho & -> & _) E. unfold BatchFileSpec.calc_path, calc_dir in E.
    rewrite <- app_assoc in E. apply app_inv_head in E. injection E as _ E _. now apply pretty_Z_not_run in E.
Qed.
Lemma keep_old_all_stops s s' tb0 :
  c_w c = false -> txn s = None -> fs s !! db = Some (EDb tb0) ->
  (forall rv mi z j, numbers c false tb0 rv mi -> mi = Some z -> olds (z + Z.of_nat j + 1) -> False) ->
  s' ∈ stops (write_input aff root db_name c) s -> keep_all Pall s s'.
Proof.
  intros Hw Hx Hf Hold H.
  assert (Hne : forall q x, Pall q -> q <> root ++ [x]).
  { intros q x (dir & z & r & _ & -> & _) E. unfold BatchFileSpec.calc_path in E. apply app_inv_head in E. discriminate. }
  assert (Hput : forall tb s0, keep_all Pall s0 (put db (EDb tb) s0)).
  { intros tb s0 q Hq. simpl. apply lookup_insert_ne. intros <-. eapply Hne; [exact Hq|unfold dbfn; reflexivity]. }
  assert (Hprep : rel (keep_all Pall) (prepare root db_name c)).
  { apply gen_prepare; try apply _; auto.
    - apply kall_makedirs. intros q b (dir & zz & r & Ho & -> & _) E. unfold BatchFileSpec.calc_path in E.
      apply (f_equal (@length string)) in E. rewrite !app_length in E. simpl in E. lia.
    - congruence.
    - intros _. apply kall_backup. intros q n (dir & z & r & Ho & -> & Hd & _) [r' E].
      unfold BatchFileSpec.calc_path in E. rewrite <- app_assoc in E. apply app_inv_head in E. injection E as E _. revert E. apply Hd. }
  apply phases_stops in H; [|assumption].
  destruct H as [H|(new & tb & rv & mi & s1 & E1 & F1 & X1 & Hnew & Hnum & H)]; [now apply Hprep|].
  destruct Hnew as [(_ & _ & [?|?])|(-> & _ & Hf')]; [congruence|congruence|].
  rewrite Hf in Hf'. injection Hf' as <-.
  transitivity s1; [apply Hprep; eapply exec_stop; eauto|].
  assert (Hall : rel (keep_all Pall) (all_machines root c rv mi)).
  { apply gen_all_machines; try apply _. intros m Hm. apply prims_old_all; [assumption|assumption|]. intros z j Hz. now apply (Hold rv mi). }
  destruct H as [H|(recs0 & s3 & recs & E3 & H)]; [now apply Hall|].
  transitivity s3; [apply Hall; eapply exec_stop; eauto|].
  revert H. apply gen_db_phase; try apply _; [exact Hput|intros s0 t q _; reflexivity|].
  intros t. apply kall_write. intros q Hq. now apply Hne.
Qed.
End Old.

Lemma old_calcs_kept f t s i z dir r :
  c_w c = false -> stored root db_name f (c_table c) t -> cell_at t i "idx" = Some (VInt z) ->
  s ∈ stops (write_input aff root db_name c) (St f None) ->
  (is_Some (f !! calc_path dir z r) -> fs s !! calc_path dir z r = f !! calc_path dir z r) /\
  ((forall n : nat, dir <> bak_name db_name "." n) ->
   (forall m (n : nat), m ∈ c_machines c -> dir <> bak_name (dir_name c m) "." n) ->
   fs s !! calc_path dir z r = f !! calc_path dir z r).
Proof.
  intros Hw (tb & Hf & Ht) Hi H.
  assert (Hold : forall rv mi z' j, numbers c false tb rv mi -> mi = Some z' -> z = (z' + Z.of_nat j + 1)%Z -> False).
  { intros rv mi z' j Hn Hz E. pose proof (numbers_old _ _ _ _ _ Hn eq_refl Ht _ _ _ Hz Hi). lia. }
  split.
  - intros He. apply (keep_old_stops (fun x => z = x) (St f None) s tb Hw eq_refl Hf Hold H); [|exact He].
    exists dir, z, r. auto.
  - intros H1 H2. apply (keep_old_all_stops (fun x => z = x) (St f None) s tb Hw eq_refl Hf Hold H).
    exists dir, z, r. auto.
Qed.

(** *** C06: backups *)
Notation names_ok := (names_ok db_name c).
Notation saved := (saved root).
Notation in_place := (in_place root).
Lemma keep_in_place s x s' : keep_sub (root ++ [x]) s s' -> is_Some (fs s !! (root ++ [x])) -> in_place s x s'.
Proof. intros H He r. rewrite app_assoc. now apply H. Qed.
Lemma in_place_is_some s x s' : in_place s x s' -> fs s' !! (root ++ [x]) = fs s !! (root ++ [x]).
Proof. intros H. apply (H []). Qed.
Lemma keep_saved s x s' s'' : is_Some (fs s !! (root ++ [x])) ->
  saved s x s' -> (forall n : nat, keep_sub (root ++ [bak_name x "." n]) s' s'') -> saved s x s''.
Proof.
  intros He (n & Hn & H) Hk. exists n. split; [assumption|]. intros r. rewrite app_assoc, (Hk n).
  - rewrite <- app_assoc. apply H.
  - specialize (H []). rewrite !app_nil_r in H. rewrite H. exact He.
Qed.
(** free before means free at the beginning *)
Lemma keep_free s x s' : keep_sub (root ++ [x]) s s' -> fs s' !! (root ++ [x]) = None -> fs s !! (root ++ [x]) = None.
Proof.
  intros H Hn. destruct (fs s !! (root ++ [x])) as [e|] eqn:E; [|reflexivity].
  assert (He : is_Some (fs s !! (root ++ [x]))) by (rewrite E; eauto).
  specialize (H He []). rewrite app_nil_r in H. congruence.
Qed.

Section Backup.
Hypothesis Hok : call_ok db_name c.
Hypothesis Hnames : names_ok.
Hypothesis Hbak : c_backup c = true.

Lemma ne_sym {A} (x y : A) : x <> y -> y <> x.
Proof. congruence. Qed.
Lemma sib_rest ms x rv mi : (forall m, m ∈ ms -> dir_name c m <> x) ->
  rel (keep_sub (root ++ [x])) (rest_machines root c rv mi ms).
Proof. intros H. apply gen_rest; try apply _. intros m Hm. now apply dir_not_x, H. Qed.

(** one machine with an existing directory *)
Lemma machine_step_saved m rv mi s s' :
  m ∈ c_machines c -> is_Some (fs s !! (root ++ [dir_name c m])) ->
  s' ∈ stops (machine_step root c rv mi m) s ->
  in_place s (dir_name c m) s' \/ saved s (dir_name c m) s'.
Proof.
  intros Hm He H. unfold machine_step in H. apply stops_bind in H.
  destruct H as [H|(ex & s0 & E & H)].
  { left. apply elem_of_list_singleton in H as ->. intros r. reflexivity. }
  apply exists_p_exec in E. destruct E as [-> E]. injection E as ->.
  unfold calc_dir in H at 1. rewrite (bool_decide_true _ He) in H. rewrite Hbak in H. cbn [andb when] in H.
  apply stops_bind in H. destruct H as [H|([] & s1 & E1 & H)].
  { left. apply keep_in_place; [|assumption]. eapply ksub_backup; eauto. }
  right. destruct (backup_exec_some _ _ _ _ _ _ E1 He) as (n & Hn & Hc & Hp).
  apply (keep_saved s (dir_name c m) s1); [assumption|exists n; auto|].
  intros n'. destruct (Hnames m n' Hm) as (_ & _ & Hne).
  assert (Hd : dir_name c m <> bak_name (dir_name c m) "." n') by (apply Hne; assumption).
  destruct (dir_not_x root c m _ Hd) as [_ Hpr]. destruct (Hpr mi) as [_ P2 P3 P4].
  revert H. match goal with |- _ ∈ stops ?p s1 -> _ => enough (G : rel (keep_sub (root ++ [bak_name (dir_name c m) "." n'])) p) by apply G end.
  apply rel_bind; [apply _| |].
  { unfold when. destruct (bool_decide _ && c_w c) eqn:Ew; [|apply rel_ret; apply _]. apply andb_true_iff in Ew. apply P2, Ew. }
  intros _. apply rel_bind; [apply _|apply gen_calc_loop; try apply _|].
  { intros z j Hz Hj. apply P3; [assumption|lia]. }
  intros [recs txt]. apply rel_bind; [apply _|apply P4|intros _; apply rel_ret; apply _].
Qed.
Lemma machine_step_saved_exec m rv mi s s' recs :
  m ∈ c_machines c -> is_Some (fs s !! (root ++ [dir_name c m])) ->
  exec (machine_step root c rv mi m) s = (s', Some recs) -> saved s (dir_name c m) s'.
Proof.
  intros Hm He H. unfold machine_step in H. rewrite exec_bind in H.
  destruct (exec (exists_p _) s) as [s0 o] eqn:E. apply exists_p_exec in E. destruct E as [-> ->].
  unfold calc_dir in H at 1. rewrite (bool_decide_true _ He) in H. rewrite Hbak in H. cbn [andb when] in H.
  rewrite exec_bind in H. destruct (exec (backup root (dir_name c m) ".") s) as [s1 [[]|]] eqn:E1; [|discriminate].
  destruct (backup_exec_some _ _ _ _ _ _ E1 He) as (n & Hn & Hc & Hp).
  apply (keep_saved s (dir_name c m) s1); [assumption|exists n; auto|].
  intros n'. destruct (Hnames m n' Hm) as (_ & _ & Hne).
  assert (Hd : dir_name c m <> bak_name (dir_name c m) "." n') by (apply Hne; assumption).
  destruct (dir_not_x root c m _ Hd) as [_ Hpr]. destruct (Hpr mi) as [_ P2 P3 P4].
  apply exec_stop in H. revert H. match goal with |- _ ∈ stops ?p s1 -> _ => enough (G : rel (keep_sub (root ++ [bak_name (dir_name c m) "." n'])) p) by apply G end.
  apply rel_bind; [apply _| |].
  { unfold when. destruct (bool_decide _ && c_w c) eqn:Ew; [|apply rel_ret; apply _]. apply andb_true_iff in Ew. apply P2, Ew. }
  intros _. apply rel_bind; [apply _|apply gen_calc_loop; try apply _|].
  { intros z j Hz Hj. apply P3; [assumption|lia]. }
  intros [recs' txt]. apply rel_bind; [apply _|apply P4|intros _; apply rel_ret; apply _].
Qed.

(** carrying [saved] back over a prefix that kept root/x and the backup names *)
Lemma saved_before s0 s x s' : in_place s0 x s -> (forall n : nat, keep_sub (root ++ [bak_name x "." n]) s0 s) ->
  saved s x s' -> saved s0 x s'.
Proof.
  intros Hp Hk (n & Hn & H). exists n. split; [eapply keep_free; eauto|]. intros r. rewrite H. apply Hp.
Qed.
Lemma in_place_trans s0 s x s' : in_place s0 x s -> in_place s x s' -> in_place s0 x s'.
Proof. intros H1 H2 r. rewrite H2. apply H1. Qed.

Lemma rest_saved x ms : forall rv mi s s', (forall m, m ∈ ms -> m ∈ c_machines c) ->
  (exists m, m ∈ c_machines c /\ x = dir_name c m) ->
  is_Some (fs s !! (root ++ [x])) ->
  s' ∈ stops (rest_machines root c rv mi ms) s -> in_place s x s' \/ saved s x s'.
Proof.
  induction ms as [|m ms IH]; intros rv mi s s' Hin Hx He H.
  { left. apply elem_of_list_singleton in H as ->. intros r. reflexivity. }
  change (rest_machines root c rv mi (m :: ms)) with (machine_step root c rv mi m ;;; rest_machines root c rv mi ms) in H.
  destruct Hx as (mx & Hmx & ->). set (x := dir_name c mx) in *.
  assert (Hnb : forall ms', (forall m, m ∈ ms' -> m ∈ c_machines c) -> forall n : nat, rel (keep_sub (root ++ [bak_name x "." n])) (rest_machines root c rv mi ms')).
  { intros ms' Hi n. apply sib_rest. intros m' Hm'. destruct (Hnames m' n) as (_ & _ & Hne); [auto|]. now apply Hne. }
  assert (Hnm : forall n : nat, rel (keep_sub (root ++ [bak_name x "." n])) (machine_step root c rv mi m)).
  { intros n. apply gen_machine_step; try apply _. apply dir_not_x. destruct (Hnames m n) as (_ & _ & Hne); [apply Hin; left|]. now apply Hne. }
  destruct (decide (dir_name c m = x)) as [Ex|Ex].
  - apply stops_bind in H. destruct H as [H|(recs & s1 & E1 & H)].
    + rewrite <- Ex in *. apply (machine_step_saved m rv mi); auto. apply Hin. left.
    + right. assert (Hs : saved s x s1).
      { rewrite <- Ex in *. apply (machine_step_saved_exec m rv mi _ _ recs); auto. apply Hin. left. }
      eapply keep_saved; [exact He|exact Hs|]. intros n. apply (Hnb ms); [|exact H]. intros; apply Hin; now right.
  - assert (Hk : rel (keep_sub (root ++ [x])) (machine_step root c rv mi m)).
    { apply gen_machine_step; try apply _. now apply dir_not_x. }
    apply stops_bind in H. destruct H as [H|(recs & s1 & E1 & H)].
    + left. apply keep_in_place; [now apply Hk|assumption].
    + assert (Hp : in_place s x s1) by (apply keep_in_place; [apply Hk; eapply exec_stop; eauto|assumption]).
      destruct (IH rv mi s1 s') as [H1|H1]; auto.
      * intros; apply Hin; now right.
      * exists mx. auto.
      * now rewrite (in_place_is_some _ _ _ Hp).
      * left. eapply in_place_trans; eauto.
      * right. eapply saved_before; eauto. intros n. apply Hnm. eapply exec_stop; eauto.
Qed.
Lemma rest_saved_exec x ms : forall rv mi s s', (forall m, m ∈ ms -> m ∈ c_machines c) ->
  (exists m, m ∈ ms /\ x = dir_name c m) ->
  is_Some (fs s !! (root ++ [x])) ->
  exec (rest_machines root c rv mi ms) s = (s', Some tt) -> saved s x s'.
Proof.
  induction ms as [|m ms IH]; intros rv mi s s' Hin Hx He H.
  { destruct Hx as (m & Hm & _). inversion Hm. }
  change (rest_machines root c rv mi (m :: ms)) with (machine_step root c rv mi m ;;; rest_machines root c rv mi ms) in H.
  assert (Hnb : forall n : nat, rel (keep_sub (root ++ [bak_name x "." n])) (rest_machines root c rv mi ms) /\
     rel (keep_sub (root ++ [bak_name x "." n])) (machine_step root c rv mi m)).
  { intros n. destruct Hx as (mx & Hmx & ->). split.
    - apply sib_rest. intros m' Hm'. destruct (Hnames m' n) as (_ & _ & Hne); [apply Hin; now right|]. apply Hne. auto.
    - apply gen_machine_step; try apply _. apply dir_not_x. destruct (Hnames m n) as (_ & _ & Hne); [apply Hin; left|]. apply Hne. auto. }
  rewrite exec_bind in H. destruct (exec (machine_step root c rv mi m) s) as [s1 [recs|]] eqn:E1; [|discriminate].
  destruct (decide (dir_name c m = x)) as [Ex|Ex].
  - assert (Hs : saved s x s1).
    { rewrite <- Ex in *. apply (machine_step_saved_exec m rv mi _ _ recs); auto. apply Hin. left. }
    eapply keep_saved; [exact He|exact Hs|]. intros n. apply (proj1 (Hnb n)). eapply exec_stop; exact H.
  - assert (Hk : rel (keep_sub (root ++ [x])) (machine_step root c rv mi m)).
    { apply gen_machine_step; try apply _. now apply dir_not_x. }
    assert (Hp : in_place s x s1) by (apply keep_in_place; [apply Hk; eapply exec_stop; eauto|assumption]).
    apply (saved_before s s1); [assumption|intros n; apply (proj2 (Hnb n)); eapply exec_stop; exact E1|].
    apply (IH rv mi); auto.
    + intros; apply Hin; now right.
    + destruct Hx as (mx & Hmx & Hx). apply elem_of_cons in Hmx as [->|Hmx]; [congruence|eauto].
    + now rewrite (in_place_is_some _ _ _ Hp).
Qed.

(** machine directories, whole call *)
Lemma dir_facts m : m ∈ c_machines c -> dir_name c m <> db_name.
Proof. apply Hok. Qed.
Lemma bak_db x (n : nat) : (exists m, m ∈ c_machines c /\ x = dir_name c m) -> bak_name x "." n <> db_name.
Proof. intros (m & Hm & ->). destruct (Hnames m n Hm) as (H & _). congruence. Qed.

Lemma dir_saved_stops m f s :
  m ∈ c_machines c -> is_Some (f !! (root ++ [dir_name c m])) ->
  s ∈ stops (write_input aff root db_name c) (St f None) ->
  in_place (St f None) (dir_name c m) s \/ saved (St f None) (dir_name c m) s.
Proof.
  intros Hm He H. set (x := dir_name c m) in *.
  assert (Hx : exists m, m ∈ c_machines c /\ x = dir_name c m) by eauto.
  assert (Hp : rel (keep_sub (root ++ [x])) (prepare root db_name c)) by (apply sib_prepare, dir_facts; assumption).
  assert (Hpb : forall n : nat, rel (keep_sub (root ++ [bak_name x "." n])) (prepare root db_name c)).
  { intros n. apply sib_prepare. now apply bak_db. }
  apply phases_stops in H; [|reflexivity].
  destruct H as [H|(new & tb & rv & mi & s1 & E1 & F1 & X1 & Hnew & Hnum & H)].
  { left. apply keep_in_place; [now apply Hp|assumption]. }
  assert (H1 : in_place (St f None) x s1) by (apply keep_in_place; [apply Hp; eapply exec_stop; eauto|assumption]).
  assert (He1 : is_Some (fs s1 !! (root ++ [x]))) by (rewrite (in_place_is_some _ _ _ H1); assumption).
  assert (Hb1 : forall n : nat, keep_sub (root ++ [bak_name x "." n]) (St f None) s1).
  { intros n. apply Hpb. eapply exec_stop; eauto. }
  destruct H as [H|(recs0 & s3 & recs & E3 & H)].
  - rewrite all_rest_stops in H. apply (rest_saved x) in H; auto.
    destruct H as [H|H]; [left; eapply in_place_trans; eauto|right; eapply saved_before; eauto].
  - apply all_rest_exec in E3. apply (rest_saved_exec x) in E3; auto.
    right. eapply saved_before; eauto. eapply keep_saved; [exact He1|exact E3|].
    intros n. eapply sib_db_phase; [now apply bak_db|apply bak_not_excl|exact H].
Qed.
Lemma dir_saved_exec m f s :
  m ∈ c_machines c -> is_Some (f !! (root ++ [dir_name c m])) ->
  exec (write_input aff root db_name c) (St f None) = (s, Some tt) ->
  saved (St f None) (dir_name c m) s.
Proof.
  intros Hm He H. set (x := dir_name c m) in *.
  assert (Hx : exists m, m ∈ c_machines c /\ x = dir_name c m) by eauto.
  assert (Hp : rel (keep_sub (root ++ [x])) (prepare root db_name c)) by (apply sib_prepare, dir_facts; assumption).
  assert (Hpb : forall n : nat, rel (keep_sub (root ++ [bak_name x "." n])) (prepare root db_name c)).
  { intros n. apply sib_prepare. now apply bak_db. }
  apply phases_exec in H; [|reflexivity].
  destruct H as (new & tb & rv & mi & s1 & E1 & F1 & X1 & Hnew & Hnum & recs0 & s3 & recs & E3 & H).
  assert (H1 : in_place (St f None) x s1) by (apply keep_in_place; [apply Hp; eapply exec_stop; eauto|assumption]).
  assert (He1 : is_Some (fs s1 !! (root ++ [x]))) by (rewrite (in_place_is_some _ _ _ H1); assumption).
  apply all_rest_exec in E3. apply (rest_saved_exec x) in E3; auto.
  eapply saved_before; [exact H1|intros n; apply Hpb; eapply exec_stop; eauto|].
  eapply keep_saved; [exact He1|exact E3|].
  intros n. eapply sib_db_phase; [now apply bak_db|apply bak_not_excl|eapply exec_stop; exact H].
Qed.

(** the database *)
Lemma db_bak_kept (n : nat) : rel (keep_sub (root ++ [bak_name db_name "." n])) (main aff root db_name c true) /\
  rel (keep_sub (root ++ [bak_name db_name "." n])) (main aff root db_name c false).
Proof.
  assert (G : forall new, rel (keep_sub (root ++ [bak_name db_name "." n])) (main aff root db_name c new)); [|auto].
  intros new. unfold main. apply rel_bind; [apply _| |].
  { intros s s' H. apply numbering_stops in H as ->. reflexivity. }
  assert (Hdb : forall rv recs, rel (keep_sub (root ++ [bak_name db_name "." n])) (db_phase aff root db_name c new rv recs)).
  { intros. apply sib_db_phase; [apply bak_name_ne|apply bak_not_excl]. }
  intros [rv mi]. apply rel_bind; [apply _| |].
  { apply gen_all_machines; try apply _. intros m Hm. apply dir_not_x. destruct (Hnames m n Hm) as (_ & H & _). exact H. }
  intros recs0. destruct recs0; [apply Hdb|]. destruct (hostname_val c); [apply Hdb|apply rel_fail; apply _].
Qed.
Lemma prepare_saved f s' :
  is_Some (f !! db) ->
  (s' ∈ stops (prepare root db_name c) (St f None) ->
   in_place (St f None) db_name s' \/ saved (St f None) db_name s') /\
  (forall new, exec (prepare root db_name c) (St f None) = (s', Some new) -> saved (St f None) db_name s').
Proof.
  intros He. unfold prepare.
  assert (Hrest : forall s1, exec (backup root db_name ".") (St f None) = (s1, Some tt) ->
     forall s2, s2 ∈ stops (when (true && c_w c) (remove_file db) ;;; ex' <- exists_p db ;; makedirs root ;;; connect db ;;; Ret (negb ex')) s1 ->
     saved (St f None) db_name s2).
  { intros s1 E1 s2 H2. destruct (backup_exec_some _ _ _ _ _ _ E1 He) as (n & Hn & Hc & Hp).
    apply (keep_saved _ _ s1); [assumption|exists n; auto|]. intros n'.
    revert H2. match goal with |- _ ∈ stops ?p s1 -> _ => enough (G : rel (keep_sub (root ++ [bak_name db_name "." n'])) p) by apply G end.
    pose proof (bak_name_ne db_name "." n') as Hne.
    apply rel_bind; [apply _| |].
    { unfold when. destruct (true && c_w c); [|apply rel_ret; apply _].
      unfold remove_file. apply rel_ask. intros s. destruct (fs s !! db) as [[]|]; try (apply rel_fail; apply _);
      (apply rel_Do; [apply _|apply _|intros; now apply sib_del|apply rel_ret; apply _]). }
    intros _. apply rel_bind; [apply _|apply rel_gets; apply _|]. intros ex'.
    apply rel_bind; [apply _|apply sib_makedirs|]. intros _. apply rel_bind; [apply _| |intros _; apply rel_ret; apply _].
    unfold connect. apply rel_ask. intros s. destruct (fs s !! db) as [[]|]; try (apply rel_fail; apply _); [apply rel_ret; apply _|].
    destruct (is_dir s _); [|apply rel_fail; apply _]. apply rel_Do; [apply _|apply _|intros; now apply sib_put|apply rel_ret; apply _]. }
  split.
  - intros H. apply stops_bind in H. destruct H as [H|(ex & s0 & E & H)].
    { left. apply elem_of_list_singleton in H as ->. intros r. reflexivity. }
    apply exists_p_exec in E. destruct E as [-> E]. injection E as ->.
    change (fs (St f None)) with f in H. rewrite (bool_decide_true _ He), Hbak in H.
    apply stops_bind in H. destruct H as [H|([] & s1 & E1 & H)].
    { left. apply keep_in_place; [|exact He]. eapply ksub_backup; exact H. }
    right. eapply Hrest; [exact E1|exact H].
  - intros new H. rewrite exec_bind in H. destruct (exec (exists_p db) (St f None)) as [s0 o] eqn:E.
    apply exists_p_exec in E. destruct E as [-> ->].
    change (fs (St f None)) with f in H. rewrite (bool_decide_true _ He), Hbak in H.
    rewrite exec_bind in H. change (when (true && true) (backup root db_name ".")) with (backup root db_name ".") in H.
    destruct (exec (backup root db_name ".") (St f None)) as [s1 [[]|]] eqn:E1; [|discriminate].
    eapply Hrest; [reflexivity|eapply exec_stop; exact H].
Qed.
Lemma db_saved_stops f s :
  is_Some (f !! db) -> s ∈ stops (write_input aff root db_name c) (St f None) ->
  in_place (St f None) db_name s \/ saved (St f None) db_name s.
Proof.
  intros He H. rewrite (proj2 (write_input_split aff root db_name c _)) in H.
  apply stops_bind in H. destruct H as [H|(new & s1 & E1 & H)]; [now apply prepare_saved|].
  right. apply (keep_saved _ _ s1); [exact He|eapply prepare_saved; eauto|].
  intros n. destruct (db_bak_kept n). destruct new; auto.
Qed.
Lemma db_saved_exec f s u :
  is_Some (f !! db) -> exec (write_input aff root db_name c) (St f None) = (s, Some u) ->
  saved (St f None) db_name s.
Proof.
  intros He H. rewrite (proj1 (write_input_split aff root db_name c _)) in H. rewrite exec_bind in H.
  destruct (exec (prepare root db_name c) (St f None)) as [s1 [new|]] eqn:E1; [|discriminate].
  apply (keep_saved _ _ s1); [exact He|eapply prepare_saved; eauto|].
  intros n. apply exec_stop in H. destruct (db_bak_kept n). destruct new; auto.
Qed.
End Backup.
End Files.
