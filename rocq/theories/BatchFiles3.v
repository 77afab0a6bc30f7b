(** Proofs about the contents of the files written by write_input. *)
From Coq Require Import Ascii String ZArith Lia.
From stdpp Require Import base gmap strings pretty list.
From Verif Require Import Comb Template TemplateSpec TemplateProofs Sql SqlSpec SqlProofs Fs FsProofs BackupProofs Batch BatchSpec BatchFileSpec BatchProofs BatchInv BatchRows BatchFiles BatchFiles2.
Local Open Scope string_scope.
Local Open Scope list_scope.

Section Files.
Variable aff : string -> val -> val.
Variable root : path.
Variable db_name : string.
Variable c : call.
Notation db := (dbfn root db_name).
Notation sub := (sub root c).
Notation outside := (outside root db_name c).

(** *** one template *)
Notation text_at := (text_at root db_name c).
Lemma text_keep s s' t txt : keep_ex outside s s' -> text_at s t txt -> text_at s' t txt.
Proof.
  intros H [H1|(H1 & H2 & H3)]; [now left|right]. split; [assumption|]. split; [assumption|].
  rewrite (H _ H2); [assumption|rewrite H3; eauto].
Qed.
Definition tkeys (t : templ) (rec : record) : list string :=
  match tm_keys t with Some l => l | None => map fst rec end.
Definition content (t : templ) (rec : record) (txt new : pstr) : Prop :=
  exists rules, rules_of (tm_func t) rec (tkeys t rec) [] = Some rules /\
    template_replace true txt rules = Some new.

Lemma write_templ_exec dir rec t s s' u txt :
  text_at s t txt -> exec (write_templ dir rec t) s = (s', Some u) ->
  exists new, content t rec txt new /\ s' = St (<[dir ++ [tm_base t] := EFile new]> (fs s)) (txn s) /\
    is_dir s dir = true.
Proof.
  intros Ht H.
  assert (G : exec (txt <- (match tm_txt t with Some x => Ret x | None => file_read (tm_file t) end) ;;
    match rules_of (tm_func t) rec (tkeys t rec) [] with
    | None => Fail
    | Some rules => match template_replace true txt rules with
      | None => Fail | Some new => file_write (dir ++ [tm_base t]) new end end) s = (s', Some u)).
  { unfold write_templ, tkeys in *. destruct (tm_keys t) as [[|k0 ks]|]; [discriminate|exact H|exact H]. }
  clear H. rewrite exec_bind in G.
  assert (E : exec (match tm_txt t with Some x => Ret x | None => file_read (tm_file t) end) s = (s, Some txt)).
  { destruct Ht as [-> |(-> & _ & Hf)]; [reflexivity|]. simpl. rewrite Hf. reflexivity. }
  rewrite E in G. destruct (rules_of _ _ _ _) as [rules|] eqn:Er; [|discriminate].
  destruct (template_replace _ _ _) as [new|] eqn:Et; [|discriminate].
  apply file_write_exec in G. destruct G as (-> & Hd & _). exists new. split; [exists rules; auto|]. split; [reflexivity|].
  unfold parent in Hd. rewrite removelast_last in Hd. exact Hd.
Qed.

Lemma templs_exec m i rec ts : NoDup (map tm_base ts) -> (forall m', m' = m -> m' ∈ c_machines c) -> forall s s' u,
  exec (run_all (map (write_templ (sub m i) rec) ts)) s = (s', Some u) ->
  forall t txt, t ∈ ts -> text_at s t txt ->
  exists new, content t rec txt new /\ fs s' !! (sub m i ++ [tm_base t]) = Some (EFile new).
Proof.
  intros Hnd Hm. induction ts as [|t0 ts IH]; intros s s' u H t txt Ht Htxt; [inversion Ht|].
  simpl in Hnd. apply NoDup_cons in Hnd. destruct Hnd as [Hn0 Hnd].
  change (exec (write_templ (sub m i) rec t0 ;;; run_all (map (write_templ (sub m i) rec) ts)) s = (s', Some u)) in H.
  rewrite exec_bind in H. destruct (exec (write_templ (sub m i) rec t0) s) as [s1 [u1|]] eqn:E1; [|discriminate].
  apply elem_of_cons in Ht as [->|Ht].
  - destruct (write_templ_exec _ _ _ _ _ _ _ Htxt E1) as (new & Hc & -> & _). exists new. split; [assumption|].
    assert (Hk : forall s2 s3 v, exec (run_all (map (write_templ (sub m i) rec) ts)) s2 = (s3, Some v) ->
       fs s3 !! (sub m i ++ [tm_base t0]) = fs s2 !! (sub m i ++ [tm_base t0])).
    { clear -Hn0. induction ts as [|t1 ts IH]; intros s2 s3 v H2.
      - simpl in H2. injection H2 as <- _. reflexivity.
      - change (exec (write_templ (sub m i) rec t1 ;;; run_all (map (write_templ (sub m i) rec) ts)) s2 = (s3, Some v)) in H2.
        rewrite exec_bind in H2. destruct (exec (write_templ (sub m i) rec t1) s2) as [s4 [u4|]] eqn:E4; [|discriminate].
        simpl in Hn0. rewrite (IH ltac:(set_solver) _ _ _ H2).
        assert (R : rel (keep_all (fun q => q = sub m i ++ [tm_base t0])) (write_templ (sub m i) rec t1)).
        { unfold write_templ. assert (W : forall new, rel (keep_all (fun q => q = sub m i ++ [tm_base t0])) (file_write (sub m i ++ [tm_base t1]) new)).
          { intros new. apply kall_write. intros q -> E. apply app_inv_head in E. injection E as E. set_solver. }
          assert (G : forall keys, rel (keep_all (fun q => q = sub m i ++ [tm_base t0])) (txt <- (match tm_txt t1 with Some x => Ret x | None => file_read (tm_file t1) end) ;;
            match rules_of (tm_func t1) rec keys [] with
            | None => Fail
            | Some rules => match template_replace true txt rules with
              | None => Fail | Some new => file_write (sub m i ++ [tm_base t1]) new end end)).
          { intros keys. apply rel_bind; [apply _| |].
            - destruct (tm_txt t1); [apply rel_ret; apply _|]. apply rel_ask. intros s.
              destruct (fs s !! tm_file t1) as [[]|]; first [apply rel_ret; apply _|apply rel_fail; apply _].
            - intros txt. destruct (rules_of _ _ _ _); [|apply rel_fail; apply _].
              destruct (template_replace _ _ _); [|apply rel_fail; apply _]. apply W. }
          destruct (tm_keys t1) as [[|k0 ks]|]; [apply rel_fail; apply _|apply G|apply G]. }
        eapply R; [eapply exec_stop; exact E4|reflexivity]. }
    rewrite (Hk _ _ _ H). simpl. apply lookup_insert.
  - eapply IH; eauto. eapply text_keep; [|exact Htxt].
    assert (R : rel (keep_ex outside) (write_templ (sub m i) rec t0)).
    { apply gen_write_templ; try apply _. destruct (prims_ex root c outside m (Some (i - 1))%Z) as [_ _ P3 _].
      - intros q (Hq & _). apply Hq. auto.
      - destruct (c_params c); constructor.
        all: try (intros _; apply kex_rm; intros q (Hq & _) [r ->]; apply (Hq m (Hm m eq_refl)); apply sub_under).
        all: try apply kex_makedirs.
        all: intros b t1; apply kex_write; intros q (Hq & _) ->; apply (Hq m (Hm m eq_refl)); apply sub_under. }
    eapply R, exec_stop; eauto.
Qed.

Lemma prims_idx_outside m i : m ∈ c_machines c -> prims_idx root c (keep_ex outside) m i.
Proof.
  intros Hm. constructor.
  - intros _; apply kex_rm; intros q (Hq & _) [r ->]; apply (Hq m Hm); apply sub_under.
  - apply kex_makedirs.
  - intros b t1; apply kex_write; intros q (Hq & _) ->; apply (Hq m Hm); apply sub_under.
Qed.

(** *** one calculation *)
Lemma calc_exec m i rec s s' u : m ∈ c_machines c -> NoDup (map tm_base (calc_templates c m)) ->
  exec (calc_write_input (sub m i) (calc_templates c m) rec) s = (s', Some u) ->
  forall t txt, t ∈ calc_templates c m -> text_at s t txt ->
  exists new, content t rec txt new /\ fs s' !! (sub m i ++ [tm_base t]) = Some (EFile new).
Proof.
  intros Hm Hnd H t txt Ht Htxt. unfold calc_write_input in H. rewrite exec_bind in H.
  destruct (exec (exists_p _) s) as [s0 o] eqn:E0. apply exists_p_exec in E0. destruct E0 as [-> ->].
  rewrite exec_bind in H. match type of H with context [exec (when ?b ?p) s] => destruct (exec (when b p) s) as [s1 [u1|]] eqn:E1 end; [|discriminate].
  eapply templs_exec; [exact Hnd|intros ? ->; exact Hm|exact H|exact Ht|].
  eapply text_keep; [|exact Htxt].
  assert (R : rel (keep_ex outside) (when (negb (bool_decide (is_Some (fs s !! sub m i)))) (makedirs (sub m i)))).
  { apply rel_when; [apply _|apply kex_makedirs]. }
  eapply R, exec_stop; eauto.
Qed.

(** what a path below root/dir/idx is not touched by *)
Lemma loop_keeps m rv z i r params : forall k,
  (forall j, k <= j < k + length params -> i <> (z + Z.of_nat j + 1)%Z) ->
  rel (keep_ex (fun q => q = sub m i ++ r)) (calc_loop root c m rv (Some z) k params).
Proof.
  intros k Hk. apply gen_calc_loop; try apply _. intros z' j [= <-] Hj.
  assert (Hne : forall r', sub m i ++ r <> sub m (z + Z.of_nat j + 1) ++ r').
  { intros r' E. unfold BatchFiles.sub in E. rewrite <- !app_assoc in E. apply app_inv_head in E. injection E as E _.
    apply pretty_Z_inj in E. apply (Hk j); auto. }
  constructor.
  - intros _. apply kex_rm. intros q -> [r' E]. now apply Hne in E.
  - apply kex_makedirs.
  - intros b t. apply kex_write. intros q ->. apply Hne.
Qed.

Lemma loop_exec m rv z params : m ∈ c_machines c -> NoDup (map tm_base (calc_templates c m)) -> forall k s s' res,
  exec (calc_loop root c m rv (Some z) k params) s = (s', Some res) ->
  forall j ps t txt, params !! j = Some ps -> t ∈ calc_templates c m -> text_at s t txt ->
  let idx := (z + Z.of_nat (k + j) + 1)%Z in
  exists new, content t (write_record m (calc_record c rv idx ps)) txt new /\
    fs s' !! (sub m idx ++ [tm_base t]) = Some (EFile new).
Proof.
  intros Hm Hnd. induction params as [|p0 params IH]; intros k s s' res H j ps t txt Hj Ht Htxt; [discriminate|].
  rewrite calc_loop_cons in H. rewrite exec_bind in H.
  destruct (exec (exists_p _) s) as [s0 o] eqn:E0. apply exists_p_exec in E0. destruct E0 as [-> ->].
  rewrite exec_bind in H. match type of H with context [exec (when ?b ?p) s] => destruct (exec (when b p) s) as [s1 [u1|]] eqn:E1 end; [|discriminate].
  rewrite exec_bind in H. match type of H with context [exec (calc_write_input ?a ?b ?d) s1] => destruct (exec (calc_write_input a b d) s1) as [s2 [u2|]] eqn:E2 end; [|discriminate].
  destruct (m_templ m); [|discriminate].
  rewrite exec_bind in H. destruct (exec (calc_loop root c m rv (Some z) (S k) params) s2) as [s3 [[recs txt']|]] eqn:E3; [|discriminate].
  simpl in H. injection H as <- _.
  assert (T1 : text_at s1 t txt).
  { eapply text_keep; [|exact Htxt].
    assert (R : rel (keep_ex outside) (when (c_w c && bool_decide (is_Some (fs s !! sub m (z + Z.of_nat k + 1)))) (rm_tree (sub m (z + Z.of_nat k + 1))))).
    { apply rel_when; [apply _|]. apply kex_rm; intros q (Hq & _) [r ->]; apply (Hq m Hm); apply sub_under. }
    eapply R, exec_stop; exact E1. }
  destruct j as [|j]; simpl in Hj.
  - injection Hj as ->. destruct (calc_exec m _ _ _ _ _ Hm Hnd E2 t txt Ht T1) as (new & Hc & Hf).
    rewrite Nat.add_0_r. exists new. split; [exact Hc|].
    rewrite <- Hf. apply (loop_keeps m rv z (z + Z.of_nat k + 1) [tm_base t] params (S k)) with (s := s2).
    { intros; lia. } { eapply exec_stop; exact E3. } { reflexivity. }
    change (is_Some (fs s2 !! (sub m (z + Z.of_nat k + 1) ++ [tm_base t]))). rewrite Hf. eauto.
  - replace (k + S j) with (S k + j) by lia. eapply IH; eauto.
    eapply text_keep; [|exact T1].
    assert (R : rel (keep_ex outside) (calc_write_input (sub m (z + Z.of_nat k + 1)) (calc_templates c m) (write_record m (calc_record c rv (z + Z.of_nat k + 1) p0)))).
    { apply gen_calc; try apply _. now apply prims_idx_outside. }
    eapply R, exec_stop; exact E2.
Qed.

Lemma run_txt_concat m job z n : forall k,
  run_txt c m job z k n = String.concat "" (map (fun j => run_line c m job (z + Z.of_nat j + 1)) (seq k n)).
Proof.
  induction n as [|n IH]; intros k; [reflexivity|].
  change (seq k (S n)) with (k :: seq (S k) n).
  change (run_txt c m job z k (S n)) with (run_line c m job (z + Z.of_nat k + 1) ++ run_txt c m job z (S k) n)%string.
  rewrite IH. destruct n as [|n]; [|reflexivity]. simpl. 
  clear. induction (run_line c m job (z + Z.of_nat k + 1)) as [|ch r IHr]; [reflexivity|]. exact (f_equal (String ch) IHr).
Qed.

Definition run_content (m : machine) (job : string) (z : Z) : pstr :=
  pst ("here=$(pwd)
" ++ String.concat "" (map (fun j => run_line c m job (z + Z.of_nat j + 1)) (seq 0 (length (c_params c)))))%string.

(** *** one machine *)
Lemma step_exec m rv z s s' recs : m ∈ c_machines c -> NoDup (map tm_base (calc_templates c m)) ->
  exec (machine_step root c rv (Some z) m) s = (s', Some recs) ->
  (forall j ps t txt, c_params c !! j = Some ps -> t ∈ calc_templates c m -> text_at s t txt ->
   let idx := (z + Z.of_nat j + 1)%Z in
   exists new, content t (write_record m (calc_record c rv idx ps)) txt new /\
     fs s' !! (sub m idx ++ [tm_base t]) = Some (EFile new)) /\
  (c_params c <> [] -> exists t, m_templ m = Some t /\
     fs s' !! (calc_dir root c m ++ ["run.sh"]) = Some (EFile (run_content m (tm_base t) z))).
Proof.
  intros Hm Hnd H. unfold machine_step in H. rewrite exec_bind in H.
  destruct (exec (exists_p _) s) as [s0 o] eqn:E0. apply exists_p_exec in E0. destruct E0 as [-> ->].
  rewrite exec_bind in H. match type of H with context [exec (when ?b ?p) s] => destruct (exec (when b p) s) as [s1 [u1|]] eqn:E1 end; [|discriminate].
  rewrite exec_bind in H. match type of H with context [exec (when ?b ?p) s1] => destruct (exec (when b p) s1) as [s2 [u2|]] eqn:E2 end; [|discriminate].
  rewrite exec_bind in H. destruct (exec (calc_loop root c m rv (Some z) 0 (c_params c)) s2) as [s3 [[recs' txt']|]] eqn:E3; [|discriminate].
  rewrite exec_bind in H. match type of H with context [exec (file_write ?a ?b) s3] => destruct (exec (file_write a b) s3) as [s4 [u4|]] eqn:E4 end; [|discriminate].
  simpl in H. injection H as <- _. apply file_write_exec in E4. destruct E4 as (-> & _ & _). split.
  - intros j ps t txt Hj Ht Htxt idx.
    assert (T2 : text_at s2 t txt).
    { eapply text_keep; [|exact Htxt]. transitivity s1.
      - match type of E1 with exec ?p s = _ => assert (R : rel (keep_ex outside) p) end.
        { apply rel_when; [apply _|]. apply kex_backup. }
        eapply R, exec_stop; exact E1.
      - match type of E2 with exec ?p s1 = _ => assert (R : rel (keep_ex outside) p) end.
        { apply rel_when; [apply _|]. apply kex_rm. intros q (Hq & _). now apply Hq. }
        eapply R, exec_stop; exact E2. }
    destruct (loop_exec m rv z (c_params c) Hm Hnd 0 _ _ _ E3 j ps t txt Hj Ht T2) as (new & Hc & Hf).
    exists new. split; [exact Hc|]. simpl. rewrite lookup_insert_ne; [exact Hf|].
    unfold BatchFiles.sub. rewrite <- app_assoc. intros E. apply app_inv_head in E. injection E as E _.
    symmetry in E. now apply pretty_Z_not_run in E.
  - intros Hp. apply calc_loop_result in E3. destruct E3 as [(E3 & _)|(z' & t & Hz & Ht & _ & ->)]; [contradiction|].
    injection Hz as <-. exists t. split; [assumption|]. simpl. rewrite lookup_insert. unfold run_content.
    now rewrite run_txt_concat.
Qed.

(** *** all machines *)
Lemma other_machine m m' mi r : m' ∈ c_machines c -> dir_name c m' <> dir_name c m ->
  prims root c (keep_ex (fun q => q = calc_dir root c m ++ r)) m' mi.
Proof.
  intros Hm Hne. apply prims_ex. intros q -> [r' E]. unfold calc_dir in E. rewrite <- !app_assoc in E.
  apply under_same_len in E. congruence.
Qed.
Lemma rest_exec ms : forall rv z s s' u,
  (forall m, m ∈ ms -> m ∈ c_machines c) -> NoDup (map (dir_name c) ms) ->
  exec (rest_machines root c rv (Some z) ms) s = (s', Some u) ->
  forall m, m ∈ ms -> NoDup (map tm_base (calc_templates c m)) ->
  (forall j ps t txt, c_params c !! j = Some ps -> t ∈ calc_templates c m -> text_at s t txt ->
   let idx := (z + Z.of_nat j + 1)%Z in
   exists new, content t (write_record m (calc_record c rv idx ps)) txt new /\
     fs s' !! (sub m idx ++ [tm_base t]) = Some (EFile new)) /\
  (c_params c <> [] -> exists t, m_templ m = Some t /\
     fs s' !! (calc_dir root c m ++ ["run.sh"]) = Some (EFile (run_content m (tm_base t) z))).
Proof.
  induction ms as [|m0 ms IH]; intros rv z s s' u Hin Hnd H m Hm Htm; [inversion Hm|].
  change (rest_machines root c rv (Some z) (m0 :: ms)) with (machine_step root c rv (Some z) m0 ;;; rest_machines root c rv (Some z) ms) in H.
  rewrite exec_bind in H. destruct (exec (machine_step root c rv (Some z) m0) s) as [s1 [recs|]] eqn:E1; [|discriminate].
  simpl in Hnd. apply NoDup_cons in Hnd. destruct Hnd as [Hn0 Hnd].
  assert (Hin0 : m0 ∈ c_machines c) by (apply Hin; left).
  assert (Hin' : forall m, m ∈ ms -> m ∈ c_machines c) by (intros; apply Hin; now right).
  apply elem_of_cons in Hm as [->|Hm].
  - assert (Hk : forall r e, fs s1 !! (calc_dir root c m0 ++ r) = Some e -> fs s' !! (calc_dir root c m0 ++ r) = Some e).
    { intros r e He. rewrite <- He.
      assert (R : rel (keep_ex (fun q => q = calc_dir root c m0 ++ r)) (rest_machines root c rv (Some z) ms)).
      { apply gen_rest; try apply _. intros m' Hm'. apply other_machine; [auto|]. intros E. apply Hn0. rewrite <- E.
        apply elem_of_list_fmap. eauto. }
      eapply R; [eapply exec_stop; exact H|reflexivity|]. rewrite He. eauto. }
    destruct (step_exec m0 rv z s s1 recs Hin0 Htm E1) as [A B]. split.
    + intros j ps t txt Hj Ht Htxt idx. destruct (A j ps t txt Hj Ht Htxt) as (new & Hc & Hf). exists new. split; [exact Hc|].
      unfold idx. revert Hf. unfold BatchFiles.sub. rewrite <- !app_assoc. apply Hk.
    + intros Hp. destruct (B Hp) as (t & Ht & Hf). exists t. split; [assumption|]. apply Hk, Hf.
  - destruct (IH rv z s1 s' u Hin' Hnd H m Hm Htm) as [A B]. split; [|exact B].
    intros j ps t txt Hj Ht Htxt. apply A; [assumption|assumption|]. eapply text_keep; [|exact Htxt].
    assert (R : rel (keep_ex outside) (machine_step root c rv (Some z) m0)).
    { apply gen_machine_step; try apply _. apply prims_ex. intros q (Hq & _). auto. }
    eapply R, exec_stop; exact E1.
Qed.

(** *** the values *)
Lemma dict_update_get d d' k : NoDup (map fst d') ->
  dict_get (dict_update d d') k = match dict_get d' k with Some v => Some v | None => dict_get d k end.
Proof.
  revert d. induction d' as [|[k0 v0] d' IH]; intros d Hn; [reflexivity|].
  simpl in Hn. apply NoDup_cons in Hn. destruct Hn as [Hk Hn]. unfold dict_update. simpl.
  change (dict_get (dict_update (dict_set d k0 v0) d') k = match (if String.eqb k0 k then Some v0 else dict_get d' k) with Some v => Some v | None => dict_get d k end).
  rewrite IH by assumption. destruct (String.eqb_spec k0 k) as [<-|Hne].
  - rewrite (proj2 (dict_get_none d' k0) Hk). apply dict_get_set_eq.
  - destruct (dict_get d' k); [reflexivity|]. now apply dict_get_set_ne.
Qed.

Lemma extra_last rv idx k : last_entry (extra_params (c_study c) rv idx) k =
  if String.eqb "calc_name" k then Some (auto_entry "calc_name" (VText (c_study c ++ "_run" ++ pretty idx)%string))
  else if String.eqb "idx" k then Some (auto_entry "idx" (VInt idx))
  else if String.eqb "study_name" k then Some (auto_entry "study_name" (VText (c_study c)))
  else if String.eqb "revision" k then Some (auto_entry "revision" (VInt rv)) else None.
Proof. reflexivity. Qed.
Lemma machine_get m k : dict_get (machine_record m) k =
  if String.eqb "subcmd" k then Some (auto_entry "subcmd" (oval (m_subcmd m)))
  else if String.eqb "scratch" k then Some (auto_entry "scratch" (oval (m_scratch m)))
  else if String.eqb "home" k then Some (auto_entry "home" (oval (m_home m))) else None.
Proof. reflexivity. Qed.
Lemma write_record_value m rv idx ps k :
  e_fileval <$> dict_get (write_record m (calc_record c rv idx ps)) k
  = file_value (c_study c) m rv idx (flat_map flatten_pset ps) k.
Proof.
  unfold write_record. rewrite dict_update_get.
  2: { simpl. repeat constructor; set_solver. }
  rewrite calc_record_get, extra_last, machine_get. unfold file_value.
  rewrite (String.eqb_sym "subcmd"), (String.eqb_sym "scratch"), (String.eqb_sym "home"), (String.eqb_sym "calc_name"),
    (String.eqb_sym "idx"), (String.eqb_sym "study_name"), (String.eqb_sym "revision").
  destruct (String.eqb_spec k "home") as [->|H1]; [reflexivity|].
  destruct (String.eqb_spec k "scratch") as [->|H2]; [reflexivity|].
  destruct (String.eqb_spec k "subcmd") as [->|H3]; [reflexivity|].
  destruct (String.eqb k "calc_name"); [reflexivity|]. destruct (String.eqb k "idx"); [reflexivity|].
  destruct (String.eqb k "study_name"); [reflexivity|]. destruct (String.eqb k "revision"); reflexivity.
Qed.

(** *** the rules *)
Lemma rules_set_in d k v p x : NoDup (map fst d) ->
  (p, x) ∈ rules_set d k v <-> (p = k /\ x = v) \/ (p <> k /\ (p, x) ∈ d).
Proof.
  induction d as [|[k' v'] d IH]; intros Hn; simpl.
  - set_solver.
  - simpl in Hn. apply NoDup_cons in Hn. destruct Hn as [Hk Hn].
    destruct (List.list_eq_dec ascii_dec k' k) as [->|Hne].
    + rewrite elem_of_cons. split.
      * intros [[= -> ->]|H]; [auto|]. right. split; [|now right]. intros ->. apply Hk. apply elem_of_list_fmap. exists (k, x). auto.
      * intros [[-> ->]|[H1 H2]]; [now left|]. apply elem_of_cons in H2 as [[= -> ->]|H2]; [contradiction|now right].
    + rewrite !elem_of_cons, IH by assumption. split.
      * intros [[= -> ->]|[[-> ->]|[H1 H2]]]; [right; auto|now left|right; auto].
      * intros [[-> ->]|[H1 [[= -> ->]|H2]]]; [right; now left|now left|right; right; auto].
Qed.
Lemma rules_set_keys d k v p : p ∈ map fst (rules_set d k v) <-> p = k \/ p ∈ map fst d.
Proof.
  induction d as [|[k' v'] d IH]; simpl; [set_solver|].
  destruct (List.list_eq_dec ascii_dec k' k) as [->|Hne]; simpl; rewrite !elem_of_cons; [tauto|]. rewrite IH. tauto.
Qed.
Lemma rules_set_nodup d k v : NoDup (map fst d) -> NoDup (map fst (rules_set d k v)).
Proof.
  induction d as [|[k' v'] d IH]; simpl; intros Hn; [repeat constructor; set_solver|].
  apply NoDup_cons in Hn. destruct Hn as [Hk Hn].
  destruct (List.list_eq_dec ascii_dec k' k) as [->|Hne]; simpl; apply NoDup_cons; [auto|].
  split; [|auto]. rewrite rules_set_keys. intros [->|H]; [contradiction|auto].
Qed.
Lemma rules_of_spec func rec keys : forall acc rules, NoDup (map fst acc) ->
  rules_of func rec keys acc = Some rules ->
  NoDup (map fst rules) /\
  (forall p v, (p, v) ∈ rules -> (exists k e, k ∈ keys /\ dict_get rec k = Some e /\ p = func k /\ v = rval_of (e_fileval e)) \/ (p, v) ∈ acc) /\
  (forall k, k ∈ keys -> is_Some (dict_get rec k) /\ func k ∈ map fst rules) /\
  (forall p, p ∈ map fst acc -> p ∈ map fst rules).
Proof.
  induction keys as [|k keys IH]; intros acc rules Hn H; simpl in H.
  - injection H as <-. split; [assumption|]. split; [auto|]. split; [|auto]. intros k Hk. inversion Hk.
  - destruct (dict_get rec k) as [e|] eqn:Ek; [|discriminate].
    apply IH in H; [|now apply rules_set_nodup]. destruct H as (H1 & H2 & H3 & H4). split; [assumption|]. split; [|split].
    + intros p v Hp. destruct (H2 p v Hp) as [(k' & e' & A & B & C & D)|Hin].
      * left. exists k', e'. split; [now right|]. auto.
      * apply rules_set_in in Hin; [|assumption]. destruct Hin as [[-> ->]|[_ Hin]]; [|now right].
        left. exists k, e. split; [left|]. auto.
    + intros k' Hk. apply elem_of_cons in Hk as [->|Hk]; [|now apply H3]. rewrite Ek. split; [eauto|].
      apply H4. apply rules_set_keys. now left.
    + intros p Hp. apply H4, rules_set_keys. now right.
Qed.

Lemma content_substituted t m rv idx ps txt new rules :
  content t (write_record m (calc_record c rv idx ps)) txt new ->
  describes t (file_value (c_study c) m rv idx (flat_map flatten_pset ps)) rules ->
  dict_ok (texts_of rules) -> keys_disjoint (texts_of rules) txt -> keys_separated (texts_of rules) txt ->
  values_clean (texts_of rules) -> substituted (texts_of rules) txt new.
Proof.
  intros (rules0 & Hr & Ht) (Hn & Hd) H1 H2 H3 H4.
  set (rec := write_record m (calc_record c rv idx ps)) in *.
  assert (Hval : forall k, file_value (c_study c) m rv idx (flat_map flatten_pset ps) k = e_fileval <$> dict_get rec k).
  { intros k. symmetry. apply write_record_value. }
  apply rules_of_spec in Hr; [|constructor]. destruct Hr as (N0 & I0 & K0 & _).
  assert (Hused : forall k, used t k -> is_Some (dict_get rec k) -> k ∈ tkeys t rec).
  { intros k. unfold used, tkeys. destruct (tm_keys t); [auto|]. intros _ Hk. now apply dict_get_keys. }
  assert (Hused' : forall k, k ∈ tkeys t rec -> used t k).
  { intros k. unfold used, tkeys. destruct (tm_keys t); auto. }
  assert (Hfst : NoDup (map fst rules)).
  { destruct H1 as [H1 _]. unfold texts_of in H1. rewrite map_map in H1. simpl in H1. apply NoDup_ListNoDup. exact H1. }
  assert (Hin0 : forall p v, (p, v) ∈ rules0 -> (p, v) ∈ rules).
  { intros p v Hp. destruct (I0 p v Hp) as [(k & e & A & B & -> & ->)|Hx]; [|inversion Hx].
    apply Hd. exists k, (e_fileval e). split; [auto|]. rewrite Hval, B. auto. }
  assert (Hfun : forall p v v', (p, v) ∈ rules -> (p, v') ∈ rules -> v = v').
  { clear -Hfst. induction rules as [|[k x] rules IH]; intros p v v' A B; [inversion A|].
    simpl in Hfst. apply NoDup_cons in Hfst. destruct Hfst as [Hk Hn].
    apply elem_of_cons in A, B. destruct A as [A|A], B as [B|B].
    - congruence.
    - injection A as -> ->. exfalso. apply Hk. apply elem_of_list_fmap. eexists (_, _). split; [|exact B]. reflexivity.
    - injection B as -> ->. exfalso. apply Hk. apply elem_of_list_fmap. eexists (_, _). split; [|exact A]. reflexivity.
    - eapply IH; eauto. }
  assert (Hperm : Permutation rules rules0).
  { apply NoDup_Permutation; [assumption|eapply NoDup_fmap_1; exact N0|]. intros [p v]. split; [|apply Hin0].
    intros Hp. pose proof Hp as Hp'. apply Hd in Hp. destruct Hp as (k & x & A & B & -> & ->).
    rewrite Hval in B. apply fmap_Some in B. destruct B as (e & B & ->).
    assert (Hk : k ∈ tkeys t rec) by (apply Hused; [assumption|rewrite B; eauto]).
    destruct (K0 k Hk) as [_ Hkin]. apply elem_of_list_fmap in Hkin. destruct Hkin as ([p v] & E & Hpv). simpl in E. subst p.
    pose proof (Hfun _ _ _ Hp' (Hin0 _ _ Hpv)) as <-. exact Hpv. }
  destruct (template_replace_unique true txt rules H1 H2 H3 H4 (or_introl eq_refl)) as (out & Eo & So & _).
  assert (E : template_replace true txt rules0 = template_replace true txt rules).
  { apply template_replace_order; auto. now left. }
  rewrite E, Eo in Ht. injection Ht as <-. exact So.
Qed.
End Files.

Section Final.
Variable aff : string -> val -> val.
Hypothesis aff_int : forall z, aff "INTEGER" (VInt z) = VInt z.
Variable root : path.
Variable db_name : string.
Notation db := (dbfn root db_name).
Notation stored := (stored root db_name).
Notation write c := (write_input aff root db_name c).

Lemma numbers_reach c f new tb0 rv z n0 rv' :
  reach aff root db_name f ->
  ((new = true /\ tb0 = ∅ /\ (f !! db = None \/ c_w c = true)) \/
   (new = false /\ c_w c = false /\ f !! db = Some (EDb tb0))) ->
  numbers c new tb0 rv (Some z) ->
  (forall t, c_w c = false -> stored f (c_table c) t -> n0 = nrows t /\
       exists m, (exists i, cell_at t i "revision" = Some (VInt m)) /\
         (forall i z, cell_at t i "revision" = Some (VInt z) -> (z <= m)%Z) /\ rv' = (m + 1)%Z) ->
  (c_w c = true \/ f !! db = None -> n0 = 0 /\ rv' = 0%Z) ->
  z = (Z.of_nat n0 - 1)%Z /\ rv = rv'.
Proof.
  intros Hreach Hnew Hnum Hold Hfresh. destruct Hnew as [(-> & -> & Hw)|(-> & Hw & Hf)].
  - destruct Hnum as [-> [= ->]]. destruct Hfresh as [-> ->]; [tauto|]. auto.
  - destruct Hnum as (t & Ht & Hm & _ & Hr).
    pose proof (reach_good aff root db_name aff_int f Hreach tb0 Hf _ t Ht) as [G1 G2 G3 G4 _].
    destruct (Hold t Hw) as [-> (m & (i & Hi) & Hmax & ->)]; [exists tb0; auto|].
    rewrite (ctype_has t "revision" "INTEGER" G2) in Hr by discriminate.
    destruct Hr as (r & Hr & ->). apply max_int_some in Hm, Hr. destruct Hm as [M1 M2], Hr as [R1 R2].
    apply column_in in M1, R1. destruct M1 as [j Hj], R1 as [k Hk]. split.
    + pose proof (cell_at_lt _ _ _ _ Hj) as Hlt. rewrite G3 in Hj by assumption. injection Hj as <-.
      assert (Z.of_nat (nrows t - 1) <= Z.of_nat j)%Z; [|lia].
      apply M2. apply column_in. exists (nrows t - 1). apply G3. lia.
    + assert (m = r); [|lia]. pose proof (Hmax _ _ Hk). assert (m <= r)%Z; [|lia]. apply R2, column_in. eauto.
Qed.

(** all that a successful call leaves *)
Lemma files_written c f s' :
  reach aff root db_name f -> call_ok db_name c -> c_machines c <> [] -> c_params c <> [] ->
  NoDup (map (dir_name c) (c_machines c)) ->
  exec (write c) (St f None) = (s', Some tt) ->
  exists n0 rv t', stored (fs s') (c_table c) t' /\ nrows t' = n0 + length (c_params c) /\
    (forall k, k < length (c_params c) -> cell_at t' (n0 + k) "revision" = Some (VInt rv)) /\
    (forall t, c_w c = false -> stored f (c_table c) t -> n0 = nrows t) /\
    (c_w c = true \/ f !! db = None -> n0 = 0) /\
    forall m, m ∈ c_machines c -> NoDup (map tm_base (calc_templates c m)) ->
      (forall k ps t txt, c_params c !! k = Some ps -> t ∈ calc_templates c m ->
         text_at root db_name c (St f None) t txt ->
         exists new, content t (write_record m (calc_record c rv (Z.of_nat (n0 + k)) ps)) txt new /\
           fs s' !! (calc_dir root c m ++ [pretty (Z.of_nat (n0 + k)); tm_base t]) = Some (EFile new)) /\
      (exists t, m_templ m = Some t /\ fs s' !! (calc_dir root c m ++ ["run.sh"])
         = Some (EFile (run_content c m (tm_base t) (Z.of_nat n0 - 1)))).
Proof.
  intros Hreach Hok Hms Hps Hnd H.
  destruct (reach_values aff root db_name aff_int c f s' tt Hreach Hok Hms Hps H) as (n0 & rv & hosts & t' & Hst' & Hn & Hh & Hold & Hfresh & Hv).
  assert (Hreach' : reach aff root db_name (fs s')) by (eapply r_killed; eauto; eapply exec_stop; eauto).
  exists n0, rv, t'. split; [assumption|]. split; [assumption|]. split.
  { intros k Hk. destruct (lookup_lt_is_Some_2 (c_params c) k Hk) as [ps Hpk].
    destruct (entries_total ps) as [ls Hls]. destruct (Hv _ _ _ "revision" Hpk Hls) as [V _]. rewrite V.
    unfold db_value. simpl. destruct Hst' as (tb & Hf & Ht).
    pose proof (g_rev _ (reach_good aff root db_name aff_int _ Hreach' tb Hf _ t' Ht)) as Hty.
    rewrite ctype_coltype in Hty. now rewrite Hty, aff_int. }
  split; [intros t Hw Ht; now apply Hold|]. split; [intros Hw; now apply Hfresh|].
  apply phases_exec in H; [|reflexivity].
  destruct H as (new & tb0 & rv0 & mi & s1 & E1 & F1 & X1 & Hnew & Hnum & recs0 & s3 & recs & E3 & E4).
  pose proof (all_machines_result _ _ _ _ _ _ _ E3) as Hres.
  destruct Hres as [[_ [?|?]]|(_ & z & -> & _)]; [contradiction|contradiction|].
  destruct (numbers_reach c f new tb0 rv0 z n0 rv Hreach Hnew Hnum Hold Hfresh) as [-> ->].
  apply all_rest_exec in E3. intros m Hm Htm.
  destruct (rest_exec root db_name c (c_machines c) rv (Z.of_nat n0 - 1) s1 s3 tt (fun _ h => h) Hnd E3 m Hm Htm) as [A B].
  assert (Hk : forall a r e, fs s3 !! (calc_dir root c m ++ a :: r) = Some e -> fs s' !! (calc_dir root c m ++ a :: r) = Some e).
  { intros a r e He. rewrite <- He.
    assert (R : rel (keep_ex (fun q => q = calc_dir root c m ++ a :: r)) (db_phase aff root db_name c new rv recs)).
    { assert (Hne : forall x, calc_dir root c m ++ a :: r <> root ++ [x]).
      { intros x E. unfold calc_dir in E. rewrite <- app_assoc in E. apply app_inv_head in E. discriminate. }
      apply gen_db_phase; try apply _.
      - intros tb s q -> _. simpl. apply lookup_insert_ne. intros E. symmetry in E. now apply Hne in E.
      - intros s t q _ _. reflexivity.
      - intros t. apply kex_write. intros q ->. apply Hne. }
    eapply R; [eapply exec_stop; exact E4|reflexivity|]. rewrite He. eauto. }
  assert (Hpre : keep_ex (outside root db_name c) (St f None) s1).
  { assert (R : rel (keep_ex (outside root db_name c)) (prepare root db_name c)).
    { apply gen_prepare; try apply _.
      - intros tb s q (_ & Hq & _) _. simpl. apply lookup_insert_ne. congruence.
      - apply kex_makedirs.
      - intros _ s q (_ & Hq & _) _. simpl. apply lookup_delete_ne. congruence.
      - intros _. apply kex_backup. }
    eapply R, exec_stop; exact E1. }
  split.
  - intros k ps t txt Hpk Ht Htxt. destruct (A k ps t txt Hpk Ht (text_keep _ _ _ _ _ _ _ Hpre Htxt)) as (new' & Hc & Hf).
    replace (Z.of_nat n0 - 1 + Z.of_nat k + 1)%Z with (Z.of_nat (n0 + k)) in * by lia.
    exists new'. split; [exact Hc|]. apply Hk. unfold sub in Hf. rewrite <- app_assoc in Hf. exact Hf.
  - destruct (B Hps) as (t & Ht & Hf). exists t. split; [assumption|]. apply Hk, Hf.
Qed.

(** excl_push *)
Lemma db_phase_excl c new rv recs s s' u tb :
  db_name <> "excl_push" -> c_excl c = true -> (0 < rv)%Z ->
  exec (db_phase aff root db_name c new rv recs) s = (s', Some u) ->
  fs s' !! db = Some (EDb tb) -> txn s' = None -> has_column (tab_of c tb) "revision" = true ->
  exists t, tb !! "calc" = Some t /\
    fs s' !! (root ++ ["excl_push"]) = Some (EFile (join_lines (map (fun v => frepr (rval_of v)) (old_idx t rv)))).
Proof.
  intros Hne Hex Hrv H Hf Hx Hcol. unfold db_phase in H.
  rewrite exec_bind in H. destruct (exec (if new then _ else _) s) as [s1 [u1|]] eqn:E1; [|discriminate].
  rewrite exec_bind in H. destruct (exec (inserts _ _ _ _ _) s1) as [s2 [u2|]] eqn:E2; [|discriminate].
  rewrite exec_bind in H. destruct (exec (write_excl _ _ _ _) s2) as [s3 [u3|]] eqn:E3; [|discriminate].
  simpl in H. injection H as <- _.
  assert (Hdb : root ++ ["excl_push"] <> db).
  { unfold dbfn. intros E. apply app_inv_head in E. injection E as E. congruence. }
  pose proof (write_excl_stops root db_name c rv s2 s3 Hne) as W.
  destruct W as (W1 & W2 & W3); [eapply exec_stop; exact E3|].
  assert (V : view db s2 = Some tb).
  { unfold view. unfold commit in Hf, Hx. rewrite <- W1. destruct (txn s3) as [tb3|] eqn:E.
    - simpl in Hf. rewrite lookup_insert in Hf. now injection Hf as ->.
    - rewrite <- W2. now rewrite Hf. }
  unfold write_excl, with_view in E3. cbn [exec] in E3. rewrite V in E3.
  rewrite Hex, Hcol in E3. replace (0 <? rv)%Z with true in E3 by (symmetry; now apply Z.ltb_lt). cbn [andb] in E3.
  destruct (tb !! "calc") as [t|]; [|discriminate]. exists t. split; [reflexivity|].
  destruct (has_column t "idx" && has_column t "revision"); [|discriminate].
  apply file_write_exec in E3. destruct E3 as (-> & _ & _).
  unfold commit. simpl. destruct (txn s2); simpl; [rewrite lookup_insert_ne by congruence|]; apply lookup_insert.
Qed.

Lemma pretty_of_nat (n : nat) : pretty (Z.of_nat n) = pretty n.
Proof. destruct n; reflexivity. Qed.
Lemma filter_false {A} (f : A -> bool) l : (forall x, x ∈ l -> f x = false) -> List.filter f l = [].
Proof.
  induction l as [|x l IH]; intros H; [reflexivity|]. simpl. rewrite H by left. apply IH. intros; apply H; now right.
Qed.
Lemma filter_true {A} (f : A -> bool) l : (forall x, x ∈ l -> f x = true) -> List.filter f l = l.
Proof.
  induction l as [|x l IH]; intros H; [reflexivity|]. simpl. rewrite H by left. f_equal. apply IH. intros; apply H; now right.
Qed.
Lemma excl_push_content c f s' t :
  reach aff root db_name f -> call_ok db_name c -> c_machines c <> [] -> c_params c <> [] ->
  c_w c = false -> c_table c = "calc" -> c_excl c = true -> stored f "calc" t ->
  exec (write c) (St f None) = (s', Some tt) ->
  fs s' !! (root ++ ["excl_push"]) = Some (EFile (join_lines (map (fun i : nat => pst (pretty i)) (seq 0 (nrows t))))).
Proof.
  intros Hreach Hok Hms Hps Hw Htab Hex Hst H. rewrite <- Htab in Hst.
  assert (Hreach' : reach aff root db_name (fs s')) by (eapply r_killed; eauto; eapply exec_stop; eauto).
  destruct (append_revision aff root db_name aff_int f c s' t Hreach Hok Hms Hps Hw Hst H) as (m & t' & Hst' & (i0 & Hi0) & Hmax & Hn & Hnew).
  destruct (append_rows aff root db_name c f s' tt t Hok Hw Hst H) as (t'' & Hst'' & _ & (new & Hrows & _) & _).
  assert (t'' = t') as ->.
  { destruct Hst' as (tb1 & A & B), Hst'' as (tb2 & C & D). congruence. }
  pose proof (phases_exec aff root db_name c (St f None) s' tt eq_refl H) as (new' & tb0 & rv & mi & s1 & E1 & F1 & X1 & Hnw & Hnum & recs0 & s3 & recs & E3 & E4).
  pose proof (all_machines_result _ _ _ _ _ _ _ E3) as Hres.
  destruct Hres as [[_ [?|?]]|(_ & z & -> & _)]; [contradiction|contradiction|].
  destruct (numbers_reach c f new' tb0 rv z (nrows t) (m + 1)%Z Hreach Hnw Hnum) as [_ ->].
  { intros t1 _ Ht1. destruct Hst as (tb1 & A & B), Ht1 as (tb2 & C & D). rewrite A in C. injection C as <-. rewrite B in D. injection D as <-.
    split; [reflexivity|]. exists m. eauto. }
  { intros [?|Hf]; [congruence|]. destruct Hst as (tb1 & A & _). congruence. }
  destruct Hst' as (tb & Hf & Ht).
  pose proof (reach_good aff root db_name aff_int _ Hreach' tb Hf _ t' Ht) as [G1 G2 G3 G4 _].
  assert (Hm0 : (0 <= m)%Z).
  { assert (0 < nrows t) by (pose proof (cell_at_lt _ _ _ _ Hi0); lia).
    destruct Hst as (tb1 & A & B). pose proof (reach_good aff root db_name aff_int _ Hreach tb1 A _ t B) as [_ _ _ (_ & Z0 & _) _].
    apply (Hmax 0 0%Z). now apply Z0. }
  assert (Hx' : txn s' = None).
  { apply write_input_exec in H; [apply H|assumption|reflexivity]. }
  assert (Hrv : (0 < m + 1)%Z) by lia.
  destruct (db_phase_excl c _ _ _ _ _ _ tb (ok_excl _ _ Hok) Hex Hrv E4 Hf Hx') as (t1 & Ht1 & ->).
  { unfold tab_of. rewrite Ht. simpl. apply (ctype_has t' "revision" "INTEGER" G2). discriminate. }
  rewrite Htab in Ht. rewrite Ht in Ht1. injection Ht1 as <-. do 3 f_equal.
  (* the selected rows *)
  assert (Hsel : List.filter (fun r => lt_rev (m + 1) (cell r "revision")) (t_rows t') = t_rows t).
  { rewrite Hrows, List.filter_app, filter_true, filter_false; [apply app_nil_r| |].
    - intros r Hr. apply elem_of_list_lookup in Hr. destruct Hr as [j Hj].
      assert (Hc : cell_at t' (nrows t + j) "revision" = Some (cell r "revision")).
      { unfold cell_at. rewrite Hrows. unfold nrows. rewrite lookup_app_r by lia. replace (length (t_rows t) + j - length (t_rows t)) with j by lia. now rewrite Hj. }
      rewrite Hnew in Hc.
      + injection Hc as Hc. rewrite <- Hc. simpl. apply Z.ltb_ge. lia.
      + split; [lia|]. apply cell_at_lt in Hc. exact Hc.
    - intros r Hr. apply elem_of_list_lookup in Hr. destruct Hr as [j Hj].
      assert (Hjn : j < nrows t) by (eapply lookup_lt_Some; eauto).
      destruct Hst as (tb1 & A & B). pose proof (reach_good aff root db_name aff_int _ Hreach tb1 A _ t B) as [_ _ _ (R0 & _) _].
      destruct (R0 j Hjn) as [zz Hz]. pose proof (Hmax _ _ Hz). unfold cell_at in Hz. rewrite Hj in Hz. injection Hz as ->.
      simpl. apply Z.ltb_lt. lia. }
  unfold old_idx. rewrite Hsel. rewrite map_map.
  destruct Hst as (tb1 & A & B). pose proof (reach_good aff root db_name aff_int _ Hreach tb1 A _ t B) as [_ _ N0 _ _].
  apply list_eq. intros j. change (map ?g ?l) with (g <$> l). rewrite !list_lookup_fmap.
  destruct (decide (j < nrows t)) as [Hj|Hj].
  - rewrite lookup_seq_lt by assumption. specialize (N0 j Hj). unfold cell_at in N0.
    destruct (t_rows t !! j) as [r|]; [|discriminate]. injection N0 as N0. simpl. rewrite N0. simpl.
    unfold pst. f_equal. f_equal. apply pretty_of_nat.
  - rewrite lookup_seq_ge by lia. rewrite lookup_ge_None_2; [reflexivity|]. unfold nrows in Hj. lia.
Qed.
End Final.
