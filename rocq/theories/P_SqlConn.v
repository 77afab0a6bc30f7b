(** C107 What a database object has stored when the program ends, is killed or fails. *)
From stdpp Require Import base gmap strings list.
From Coq Require Import String Lia.
From Verif Require Import Sql SqlConn SqlConnSpec.
Local Open Scope string_scope.
Local Open Scope list_scope.

(** ** statements *)
Lemma run_app c ps qs : prims_run c (ps ++ qs) = prims_run (prims_run c ps) qs.
Proof. unfold prims_run. apply fold_left_app. Qed.
(** what is on disk after some statements was there before or was seen in between *)
Lemma run_disk c ps : disk (prims_run c ps) = disk c \/ exists j, (j <= List.length ps)%nat /\ disk (prims_run c ps) = visible (prims_run c (firstn j ps)).
Proof.
  revert c. induction ps as [|p ps IH]; intros c; [now left|]. cbn [prims_run fold_left].
  change (fold_left prim_run ps (prim_run c p)) with (prims_run (prim_run c p) ps).
  destruct (IH (prim_run c p)) as [E|(j & L & E)].
  - destruct p as [n t|n t|].
    + left. rewrite E. reflexivity.
    + destruct (work c) as [w|] eqn:W.
      * left. rewrite E. cbn. now rewrite W.
      * right. exists 1%nat. split; [cbn; lia|]. rewrite E. cbn. rewrite W. reflexivity.
    + right. exists 1%nat. split; [cbn; lia|]. rewrite E. reflexivity.
  - right. exists (S j). split; [cbn; lia|]. rewrite E. reflexivity.
Qed.
Lemma dml_disk c n ts : disk (prims_run c (map (Dml n) ts)) = disk c.
Proof. revert c. induction ts as [|t ts IH]; intros c; [reflexivity|]. cbn. change (disk (prims_run (prim_run c (Dml n t)) (map (Dml n) ts)) = disk c). now rewrite IH. Qed.
Lemma dml_open c n ts : ts <> [] -> work (prims_run c (map (Dml n) ts)) <> None.
Proof.
  intros N. destruct ts as [|t ts]; [congruence|]. clear N. revert c t. induction ts as [|u ts IH]; intros c t; [discriminate|].
  cbn [map]. change (prims_run c (Dml n t :: map (Dml n) (u :: ts))) with (prims_run (prim_run c (Dml n t)) (map (Dml n) (u :: ts))). apply IH.
Qed.
Lemma last_cons {A} (l : list A) a b : List.last (a :: l) b = List.last l a.
Proof. revert a b. induction l as [|c l IH]; intros a b; [reflexivity|]. change (List.last (c :: l) b = List.last (c :: l) a). now rewrite !IH. Qed.
Lemma dml_visible c n ts : visible (prims_run c (map (Dml n) ts)) = match ts with [] => visible c | t :: ts' => <[n := List.last ts' t]> (visible c) end.
Proof.
  revert c. induction ts as [|t ts IH]; intros c; [reflexivity|]. cbn [map]. change (prims_run c (Dml n t :: map (Dml n) ts)) with (prims_run (prim_run c (Dml n t)) (map (Dml n) ts)).
  rewrite IH. destruct ts as [|u ts]; [reflexivity|].
  transitivity (<[n := List.last ts u]> (<[n := t]> (visible c))); [reflexivity|]. now rewrite insert_insert, last_cons.
Qed.
Lemma ddl_visible c n t : visible (prim_run c (Ddl n t)) = <[n := t]> (visible c).
Proof. unfold visible. cbn. destruct (work c) eqn:W; cbn; [reflexivity|]. reflexivity. Qed.

Section C107.
Variable aff : string -> val -> val.
Notation do_call := (do_call aff). Notation calls := (calls aff). Notation killed_in := (killed_in aff). Notation compile := (compile aff).

(** ** the loop of fill_column as statements *)
Lemma fill_one t col v vs r m e o : fill_loop aff t col (v :: vs) r m e o =
  let '(t', ok) := fill_loop aff t col [v] r m e o in if ok then fill_loop aff t' col vs (r + 1) m e o else (t', false).
Proof.
  cbn [fill_loop]. destruct (r <=? m)%Z.
  - match goal with |- context[if ?b then _ else _] => destruct b end; [|reflexivity].
    match goal with |- context[if ?b then (fill_loop _ _ _ _ _ _ _ _) else _] => destruct b | _ => idtac end; reflexivity.
  - destruct e; [|reflexivity]. destruct (insert_row aff t [(col, v)]); reflexivity.
Qed.
Lemma fill_one_false t col v r m e o t' : fill_loop aff t col [v] r m e o = (t', false) -> t' = t.
Proof.
  cbn [fill_loop]. destruct (r <=? m)%Z.
  - match goal with |- context[if ?b then _ else _] => destruct b end; [discriminate|congruence].
  - destruct e; [|discriminate]. destruct (insert_row aff t [(col, v)]); [discriminate|congruence].
Qed.
Lemma fill_one_same t col v r m o t' : (r <=? m)%Z = false -> fill_loop aff t col [v] r m false o = (t', true) -> t' = t.
Proof. cbn [fill_loop]. intros ->. congruence. Qed.
Lemma fill_tables_ok t col vs r m e o : fill_loop aff t col vs r m e o =
  (List.last (fst (fill_tables aff t col vs r m e o)) t, snd (fill_tables aff t col vs r m e o)).
Proof.
  revert t r. induction vs as [|v vs IH]; intros t r; [reflexivity|]. rewrite fill_one. cbn [fill_tables].
  destruct (fill_loop aff t col [v] r m e o) as [t' ok] eqn:E. destruct ok.
  - rewrite IH. destruct (fill_tables aff t' col vs (r + 1) m e o) as [ts ok']. cbn [fst snd].
    destruct ((r <=? m)%Z || e) eqn:B; cbn [fst snd]; [now rewrite last_cons|].
    apply orb_false_iff in B as [B ->]. now rewrite (fill_one_same _ _ _ _ _ _ _ B E).
  - now rewrite (fill_one_false _ _ _ _ _ _ _ _ E).
Qed.
Lemma fill_steps_ok t col vs s e o : fill_column aff t col vs s e o = (List.last (fst (fill_steps aff t col vs s e o)) t, snd (fill_steps aff t col vs s e o)).
Proof.
  unfold fill_column, fill_steps. destruct (negb (has_column t col)); [reflexivity|]. destruct (t_rows t); [reflexivity|].
  match goal with |- context[if ?b then _ else _] => destruct b end; [reflexivity|]. apply fill_tables_ok.
Qed.
Lemma insert_last (d : db) n t ts : d !! n = Some t -> match ts with [] => d | u :: ts' => <[n := List.last ts' u]> d end = <[n := List.last ts t]> d.
Proof. intros E. destruct ts as [|u ts]; [cbn; now rewrite insert_id|]. now rewrite last_cons. Qed.

(** what a method does to its table, seen by the same program: fill_column, attach_column,
    add_column, create_table and insert of C11, C12 *)
Theorem C107_fill c n t col vs s e o tab : cursor_open c = true -> get_table c tab = Some n -> visible c !! n = Some t ->
  visible (fst (do_call c (Fill col vs s e o tab))) = <[n := fst (fill_column aff t col vs s e o)]> (visible c) /\
  snd (do_call c (Fill col vs s e o tab)) = snd (fill_column aff t col vs s e o).
Proof.
  intros O G V. unfold SqlConn.do_call. rewrite O. cbn [SqlConn.compile]. unfold on_table. rewrite G, V, fill_steps_ok.
  destruct (fill_steps aff t col vs s e o) as [ts ok]. cbn [fst snd]. split; [|reflexivity]. rewrite dml_visible. now apply insert_last.
Qed.
Theorem C107_attach c n t col vs ty s e o tab : cursor_open c = true -> get_table c tab = Some n -> visible c !! n = Some t ->
  visible (fst (do_call c (Attach col vs ty s e o tab))) = <[n := fst (attach_column aff t col vs ty s e o)]> (visible c) /\
  snd (do_call c (Attach col vs ty s e o tab)) = snd (attach_column aff t col vs ty s e o).
Proof.
  intros O G V. unfold SqlConn.do_call. rewrite O. cbn [SqlConn.compile]. unfold on_table. rewrite G, V. unfold attach_column, add_steps.
  destruct (negb o && has_column t col); [cbn; now rewrite insert_id|].
  destruct (match ty with Some ty => Some ty | None => match vs with [] => None | v :: _ => find_sqltype v end end) as [ty'|]; [|cbn; now rewrite insert_id].
  destruct (add_column t col ty') as [t'|] eqn:A; [|cbn; now rewrite insert_id]. rewrite fill_steps_ok.
  destruct (fill_steps aff t' col vs s e o) as [ts ok]. cbn [fst snd]. split; [|reflexivity]. rewrite run_app, dml_visible.
  assert (X : visible (prims_run c (if has_column t col then [] else [Ddl n t'])) = <[n := t']> (visible c)).
  { unfold add_column in A. destruct (has_column t col); [injection A as <-; cbn; now rewrite insert_id|]. cbn. apply ddl_visible. }
  rewrite X. rewrite (insert_last _ n t' ts) by apply lookup_insert. apply insert_insert.
Qed.
Theorem C107_add c n t t' col ty tab : cursor_open c = true -> get_table c tab = Some n -> visible c !! n = Some t -> add_column t col ty = Some t' ->
  visible (fst (do_call c (AddCol col ty tab))) = <[n := t']> (visible c) /\ snd (do_call c (AddCol col ty tab)) = true.
Proof.
  intros O G V A. unfold SqlConn.do_call. rewrite O. cbn [SqlConn.compile]. unfold on_table, add_steps. rewrite G, V, A. cbn [fst snd]. split; [|reflexivity].
  unfold add_column in A. destruct (has_column t col); [injection A as <-; cbn; now rewrite insert_id|]. cbn. apply ddl_visible.
Qed.
Theorem C107_create c n header tab : cursor_open c = true -> get_table c tab = Some n ->
  match visible c !! n, create_table header with
  | None, Some t => visible (fst (do_call c (Create header tab))) = <[n := t]> (visible c) /\ snd (do_call c (Create header tab)) = true
  | _, _ => do_call c (Create header tab) = (c, false)
  end.
Proof.
  intros O G. unfold SqlConn.do_call. rewrite O. cbn [SqlConn.compile]. rewrite G. destruct (visible c !! n) as [t|] eqn:V; [reflexivity|].
  destruct (create_table header) as [t|]; [|reflexivity]. cbn [fst snd]. split; [|reflexivity]. cbn. apply ddl_visible.
Qed.
Theorem C107_insert c n t t' rec : cursor_open c = true -> visible c !! n = Some t -> insert_row aff t rec = Some t' ->
  visible (fst (do_call c (Insert rec n))) = <[n := t']> (visible c) /\ snd (do_call c (Insert rec n)) = true.
Proof. intros O V I. unfold SqlConn.do_call. rewrite O. cbn [SqlConn.compile]. rewrite V, I. now split. Qed.
(** the default table is used when no table is named; without both nothing happens but an exception *)
Theorem C107_default c k n : works_on (deflt c) k = None -> (k <> Commit /\ k <> Finish /\ forall t, k <> SetTable t) \/ k = SetTable (Some n) ->
  do_call c k = if match k with SetTable _ => true | _ => false end then (Conn (disk c) (work c) (cursor_open c) (Some n), true) else (c, false).
Proof.
  intros W [(N1 & N2 & N3)| ->]; [|reflexivity].
  destruct k as [h tab|cl ty tab|cl vs s e o tab|cl vs ty s e o tab|rec m|tab| |]; try congruence; cbn in W; try discriminate;
    (destruct tab as [x|]; [discriminate|]); unfold SqlConn.do_call; destruct (cursor_open c); try reflexivity; cbn [SqlConn.compile]; unfold on_table, get_table; rewrite W; reflexivity.
Qed.
(** no call touches another table *)
Lemma compile_tables c k n n' : works_on (deflt c) k = Some n -> n' <> n -> forall ps, (exists q, fst (compile c k) = ps ++ q) ->
  visible (prims_run c ps) !! n' = visible c !! n'.
Proof.
  intros W N. assert (H : forall p, In p (fst (compile c k)) -> exists t, p = Dml n t \/ p = Ddl n t).
  { destruct k as [h tab|cl ty tab|cl vs s e o tab|cl vs ty s e o tab|rec m|tab| |]; cbn in W; try discriminate; cbn [SqlConn.compile].
    - unfold get_table. rewrite W. destruct (visible c !! n); [intros p []|]. destruct (create_table h); [|intros p []]. intros p [<-|[]]. eauto.
    - unfold on_table, get_table. rewrite W. destruct (visible c !! n) as [t|]; [|intros p []]. unfold add_steps. destruct (add_column t cl ty); [|intros p []].
      destruct (has_column t cl); [intros p []|]. intros p [<-|[]]. eauto.
    - unfold on_table, get_table. rewrite W. destruct (visible c !! n) as [t|]; [|intros p []]. destruct (fill_steps aff t cl vs s e o) as [ts ok]. cbn [fst].
      intros p I. apply in_map_iff in I as (u & <- & _). eauto.
    - unfold on_table, get_table. rewrite W. destruct (visible c !! n) as [t|]; [|intros p []]. destruct (negb o && has_column t cl); [intros p []|].
      destruct (match ty with Some ty => Some ty | None => match vs with [] => None | v :: _ => find_sqltype v end end); [|intros p []].
      unfold add_steps. destruct (add_column t cl s0) as [t'|]; [|intros p []]. destruct (fill_steps aff t' cl vs s e o) as [ts ok]. cbn [fst].
      intros p I. apply in_app_or in I as [I|I]; [|apply in_map_iff in I as (u & <- & _); eauto]. destruct (has_column t cl); [destruct I|]. destruct I as [<-|[]]. eauto.
    - injection W as ->. destruct (visible c !! n) as [t|]; [|intros p []]. destruct (insert_row aff t rec); [|intros p []]. intros p [<-|[]]. eauto. }
  intros ps [q E]. rewrite E in H. clear E. assert (H' : forall p, In p ps -> exists t, p = Dml n t \/ p = Ddl n t) by (intros p I; apply H, in_or_app; now left).
  clear H W. revert c. induction ps as [|p ps IH]; intros c; [reflexivity|]. cbn [prims_run fold_left]. change (fold_left prim_run ps (prim_run c p)) with (prims_run (prim_run c p) ps).
  rewrite IH by (intros p' I; apply H'; now right). destruct (H' p (or_introl eq_refl)) as (t & [-> | ->]).
  - change (<[n := t]> (visible c) !! n' = visible c !! n'). now rewrite lookup_insert_ne by congruence.
  - rewrite ddl_visible. now rewrite lookup_insert_ne by congruence.
Qed.
Theorem C107_other_tables c k n n' : works_on (deflt c) k = Some n -> n' <> n -> visible (fst (do_call c k)) !! n' = visible c !! n'.
Proof.
  intros W N. pose proof (compile_tables c k n n' W N (fst (compile c k)) (ex_intro _ [] (eq_sym (app_nil_r _)))) as H.
  destruct k; cbn in W; try discriminate; unfold SqlConn.do_call; destruct (cursor_open c); try reflexivity; destruct (compile c _) as [ps ok]; exact H.
Qed.

(** ** being killed *)
Lemma call_steps c k : (match k with Commit | Finish | SetTable _ => False | _ => True end) -> disk (fst (do_call c k)) = disk (killed_in c k (List.length (fst (compile c k)))).
Proof.
  intros H. unfold SqlConn.killed_in. destruct k; try contradiction; unfold SqlConn.do_call; destruct (cursor_open c); try reflexivity; rewrite firstn_all; destruct (compile c _); reflexivity.
Qed.
Lemma killed_disk c k m : disk (killed_in c k m) = disk c \/ exists j, disk (killed_in c k m) = visible (killed_in c k j).
Proof.
  unfold SqlConn.killed_in. destruct (cursor_open c); [|now left]. destruct (run_disk c (firstn m (fst (compile c k)))) as [E|(j & _ & E)]; [now left|].
  right. exists (min j m). rewrite E, firstn_firstn. reflexivity.
Qed.
Lemma moment c0 ks : work c0 = None -> disk (calls c0 ks) = visible c0 \/
  exists ks1 k' rest m', ks = ks1 ++ k' :: rest /\ disk (calls c0 ks) = visible (killed_in (calls c0 ks1) k' m').
Proof.
  intros W. induction ks as [|k ks IH] using rev_ind; [left; unfold visible; cbn; now rewrite W|].
  assert (STEP : disk (fst (do_call (calls c0 ks) k)) = disk (calls c0 ks) \/ exists j, disk (fst (do_call (calls c0 ks) k)) = visible (killed_in (calls c0 ks) k j)).
  { destruct k; try (rewrite call_steps by exact I; apply killed_disk).
    - left. reflexivity.
    - right. exists 0%nat. cbn. unfold SqlConn.killed_in. destruct (cursor_open _); reflexivity.
    - right. exists 0%nat. cbn. unfold SqlConn.killed_in. destruct (cursor_open _); reflexivity. }
  unfold SqlConn.calls in *. rewrite fold_left_app. cbn [fold_left]. destruct STEP as [E|[j E]].
  - rewrite E. destruct IH as [H|(ks1 & k' & rest & m' & -> & H)]; [now left|]. right. exists ks1, k', (rest ++ [k]), m'. split; [now rewrite <- app_assoc|exact H].
  - right. exists ks, k, [], j. now split.
Qed.
(** Killed at any statement after a commit, the file holds the data as the program saw it at
    one moment since then: nothing committed is lost, and never a mixture of moments. *)
Theorem C107_killed c0 ks k m : work c0 = None ->
  exists ks1 k' rest m', ks ++ [k] = ks1 ++ k' :: rest /\ disk (killed_in (calls c0 ks) k m) = visible (killed_in (calls c0 ks1) k' m').
Proof.
  intros W. destruct (killed_disk (calls c0 ks) k m) as [E|[j E]].
  - rewrite E. destruct (moment c0 ks W) as [H|(ks1 & k' & rest & m' & -> & H)].
    + destruct ks as [|k1 ks].
      * exists [], k, [], 0%nat. split; [reflexivity|]. rewrite H. cbn. unfold SqlConn.killed_in. destruct (cursor_open c0); reflexivity.
      * exists [], k1, (ks ++ [k]), 0%nat. split; [reflexivity|]. rewrite H. cbn. unfold SqlConn.killed_in. destruct (cursor_open c0); reflexivity.
    + exists ks1, k', (rest ++ [k]), m'. split; [now rewrite <- app_assoc|exact H].
  - exists ks, k, [], j. split; [reflexivity|exact E].
Qed.
(** values written after the last commit are lost, all of them *)
Lemma values_disk c k m : only_values k -> disk (killed_in c k m) = disk c.
Proof.
  intros H. unfold SqlConn.killed_in. destruct (cursor_open c); [|reflexivity]. 
  assert (D : exists n ts, fst (compile c k) = map (Dml n) ts).
  { destruct k as [h tab|cl ty tab|cl vs s e o tab|cl vs ty s e o tab|rec n|tab| |]; try contradiction; cbn [SqlConn.compile].
    - unfold on_table. destruct (get_table c tab) as [n|]; [|now exists "", []]. destruct (visible c !! n); [|now exists "", []]. destruct (fill_steps aff t cl vs s e o) as [ts ok]. now exists n, ts.
    - destruct (visible c !! n) as [t|]; [|now exists "", []]. destruct (insert_row aff t rec) as [t'|]; [now exists n, [t']|now exists "", []].
    - now exists "", []. }
  destruct D as (n & ts & ->). rewrite firstn_map. apply dml_disk.
Qed.
Theorem C107_lost c0 ks k m : List.Forall only_values ks -> only_values k -> disk (killed_in (calls c0 ks) k m) = disk c0.
Proof.
  intros F H. rewrite values_disk by exact H. clear H. induction ks as [|x ks IH] using rev_ind; [reflexivity|]. apply List.Forall_app in F as [F X].
  apply List.Forall_inv in X. unfold SqlConn.calls in *. rewrite fold_left_app. cbn [fold_left].
  destruct x; try contradiction; [rewrite call_steps by exact I|rewrite call_steps by exact I|cbn; now apply IH];
    rewrite values_disk by exact X; now apply IH.
Qed.
(** commit and finish store all the program has seen *)
Theorem C107_commit c0 ks : ends_with_commit ks -> work (calls c0 ks) = None /\ exists ks' k, ks = ks' ++ [k] /\ disk (calls c0 ks) = visible (calls c0 ks').
Proof.
  intros (ks' & [-> | ->]); unfold SqlConn.calls; rewrite fold_left_app; cbn; (split; [reflexivity|]); eexists ks', _; split; reflexivity.
Qed.
(** new tables and columns are stored at once if there is no open transaction *)
Theorem C107_ddl_stored c col ty header tab : work c = None ->
  disk (fst (do_call c (AddCol col ty tab))) = visible (fst (do_call c (AddCol col ty tab))) /\
  disk (fst (do_call c (Create header tab))) = visible (fst (do_call c (Create header tab))).
Proof.
  intros W. assert (V : visible c = disk c) by (unfold visible; now rewrite W). split; unfold SqlConn.do_call; (destruct (cursor_open c); [|symmetry; exact V]); cbn [SqlConn.compile].
  - unfold on_table. destruct (get_table c tab) as [n|]; [|symmetry; exact V]. destruct (visible c !! n) as [t|]; [|symmetry; exact V]. unfold add_steps.
    destruct (add_column t col ty); [|symmetry; exact V]. destruct (has_column t col); [symmetry; exact V|]. cbn. rewrite W. reflexivity.
  - destruct (get_table c tab) as [n|]; [|symmetry; exact V]. destruct (visible c !! n) as [t|]; [symmetry; exact V|]. destruct (create_table header); [|symmetry; exact V].
    cbn. rewrite W. reflexivity.
Qed.
(** so attach_column is not one step: killed before the commit, the file has the column without
    any value, and calling attach_column again fails *)
Theorem C107_attach_refuted c n t t' col vs ty s e m : cursor_open c = true -> work c = None -> disk c !! n = Some t ->
  has_column t col = false -> add_column t col ty = Some t' -> (1 <= m)%nat ->
  let c' := killed_in c (Attach col vs (Some ty) s e false (Some n)) m in
  disk c' = <[n := t']> (disk c) /\ has_column t' col = true /\ t_rows t' = t_rows t /\
  snd (do_call (reopen c' (Some n)) (Attach col vs (Some ty) s e false (Some n))) = false.
Proof.
  intros O W D H A M c'.
  assert (HC : has_column t' col = true /\ t_rows t' = t_rows t).
  { unfold add_column in A. rewrite H in A. destruct (ci_has (colnames t) col); [discriminate|]. injection A as <-. split; [|reflexivity].
    unfold has_column. cbn. rewrite existsb_app. cbn. rewrite String.eqb_refl. apply orb_true_r. }
  assert (V : visible c !! n = Some t) by (unfold visible; now rewrite W).
  assert (E : disk c' = <[n := t']> (disk c)).
  { unfold c', SqlConn.killed_in. rewrite O. cbn [SqlConn.compile]. unfold on_table. cbn [get_table]. rewrite V, H. cbn [negb andb]. unfold add_steps. rewrite A, H.
    destruct (fill_steps aff t' col vs s e false) as [ts ok]. cbn [fst]. destruct m as [|m]; [lia|]. cbn [app firstn]. rewrite firstn_map.
    change (disk (prims_run (prim_run c (Ddl n t')) (map (Dml n) (firstn m ts))) = <[n := t']> (disk c)). rewrite dml_disk. cbn. rewrite W. reflexivity. }
  split; [exact E|]. split; [apply HC|]. split; [apply HC|]. unfold SqlConn.do_call, reopen. cbn [cursor_open]. cbn [SqlConn.compile]. unfold on_table. cbn [get_table].
  unfold visible. cbn [work disk default]. rewrite E, lookup_insert. destruct HC as [-> _]. reflexivity.
Qed.
(** inside an open transaction it is *)
Theorem C107_attach_open c col vs ty s e o tab m : work c <> None -> disk (killed_in c (Attach col vs ty s e o tab) m) = disk c.
Proof.
  intros W. unfold SqlConn.killed_in. destruct (cursor_open c); [|reflexivity].
  assert (G : forall ps c, work c <> None -> (forall p, In p ps -> p <> CommitP) -> disk (prims_run c ps) = disk c).
  { clear. induction ps as [|p ps IH]; intros c W H; [reflexivity|]. cbn. change (disk (prims_run (prim_run c p) ps) = disk c).
    assert (X : disk (prim_run c p) = disk c /\ work (prim_run c p) <> None).
    { destruct p as [n t|n t|]; [split; [reflexivity|discriminate]| |exfalso; eapply H; [now left|reflexivity]]. cbn. destruct (work c); [split; [reflexivity|discriminate]|congruence]. }
    rewrite IH; [apply X|apply X|]. intros q I. apply H. now right. }
  apply G; [exact W|]. intros p I E. subst p.
  assert (I' : In CommitP (fst (compile c (Attach col vs ty s e o tab)))) by (rewrite <- (firstn_skipn m (fst _)); apply in_or_app; now left). clear I.
  revert I'. cbn [SqlConn.compile]. unfold on_table. destruct (get_table c tab) as [n|]; [|intros []]. destruct (visible c !! n) as [t|]; [|intros []].
  destruct (negb o && has_column t col); [intros []|]. destruct (match ty with Some ty => Some ty | None => match vs with [] => None | v :: _ => find_sqltype v end end); [|intros []].
  unfold add_steps. destruct (add_column t col s0) as [t'|]; [|intros []]. destruct (fill_steps aff t' col vs s e o) as [ts ok]. cbn [fst]. intros I.
  apply in_app_or in I as [I|I]; [|apply in_map_iff in I as (u & X & _); discriminate]. destruct (has_column t col); [destruct I|]. destruct I as [X|[]]. discriminate.
Qed.
(** after an exception in fill_column the deletion of the object (finish) stores the values
    written until then *)
Theorem C107_failed_refuted c n t col vs s e o tab : cursor_open c = true -> get_table c tab = Some n -> visible c !! n = Some t ->
  disk (calls c [Fill col vs s e o tab; Finish]) !! n = Some (fst (fill_column aff t col vs s e o)).
Proof.
  intros O G V. destruct (C107_fill c n t col vs s e o tab O G V) as [E _]. unfold SqlConn.calls. cbn [fold_left].
  change (visible (fst (do_call c (Fill col vs s e o tab))) !! n = Some (fst (fill_column aff t col vs s e o))). rewrite E. apply lookup_insert.
Qed.
(** after finish everything but set_table, commit and finish raises and changes nothing *)
Theorem C107_finished c0 ks k : (match k with Commit | Finish | SetTable _ => False | _ => True end) ->
  (exists ks' rest, ks = ks' ++ Finish :: rest) -> do_call (calls c0 ks) k = (calls c0 ks, false).
Proof.
  intros H (ks' & rest & ->). assert (C : cursor_open (calls c0 (ks' ++ Finish :: rest)) = false).
  { unfold SqlConn.calls. rewrite fold_left_app. cbn [fold_left]. set (c := fst (do_call _ Finish)). assert (C : cursor_open c = false) by reflexivity. clearbody c. clear -C.
    revert c C. induction rest as [|k rest IH]; intros c C; [exact C|]. cbn [fold_left]. apply IH. unfold SqlConn.do_call. rewrite C. destruct k; try exact C; reflexivity. }
  unfold SqlConn.do_call. rewrite C. destruct k; try contradiction; reflexivity.
Qed.
(** max(rowid) is the number of rows, None if there are none *)
Theorem C107_rows c tab n t : get_table c tab = Some n -> visible c !! n = Some t ->
  get_max_rowid c tab = Some (if Nat.eqb (List.length (t_rows t)) 0 then VNull else VInt (Z.of_nat (List.length (t_rows t)))).
Proof. intros G V. unfold get_max_rowid. rewrite G, V. destruct (t_rows t); reflexivity. Qed.
End C107.

(** a table with two rows, the second with a value: fill_column writes 1 and then fails *)
Definition keep107 (ty : string) (v : val) : val := v.
Definition t107 : table := Tab [("a", "INTEGER")] [∅; {["a" := VInt 5]}].
Definition c107 : conn := Conn {["calc" := t107]} None true (Some "calc").
Example case107 : fill_column keep107 t107 "a" [VInt 1; VInt 2] 1 true false = (Tab [("a", "INTEGER")] [{["a" := VInt 1]}; {["a" := VInt 5]}], false) /\
  disk (calls keep107 c107 [Fill "a" [VInt 1; VInt 2] 1 true false None; Finish]) !! "calc" = Some (Tab [("a", "INTEGER")] [{["a" := VInt 1]}; {["a" := VInt 5]}]).
Proof. split; vm_compute; reflexivity. Qed.
Example attach107 : add_column t107 "b" "float" = Some (Tab [("a", "INTEGER"); ("b", "REAL")] (t_rows t107)) /\ has_column t107 "b" = false /\
  List.length (fst (compile keep107 c107 (Attach "b" [VInt 1; VInt 2; VInt 3] (Some "float") 1 true false None))) = 4%nat.
Proof. repeat split; vm_compute; reflexivity. Qed.

Print Assumptions C107_fill. Print Assumptions C107_attach. Print Assumptions C107_add. Print Assumptions C107_create. Print Assumptions C107_insert.
Print Assumptions C107_default. Print Assumptions C107_other_tables. Print Assumptions C107_killed. Print Assumptions C107_lost. Print Assumptions C107_commit.
Print Assumptions C107_ddl_stored. Print Assumptions C107_attach_refuted. Print Assumptions C107_attach_open. Print Assumptions C107_failed_refuted.
Print Assumptions C107_finished. Print Assumptions C107_rows.
