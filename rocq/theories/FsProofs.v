From Coq Require Import Ascii String Lia.
From stdpp Require Import base gmap strings pretty list.
From Verif Require Import Comb Template Sql Fs.
Local Open Scope list_scope.

(** ** exec and stops *)
Lemma exec_bind {A B} (m : prog A) (k : A -> prog B) s :
  exec (bind m k) s = match exec m s with (s1, Some a) => exec (k a) s1 | (s1, None) => (s1, None) end.
Proof. revert s. induction m as [a| |f m IH|g IH]; intros s; simpl; auto. Qed.

Lemma stops_bind {A B} (m : prog A) (k : A -> prog B) s s' :
  s' ∈ stops (bind m k) s ->
  s' ∈ stops m s \/ exists a s1, exec m s = (s1, Some a) /\ s' ∈ stops (k a) s1.
Proof.
  revert s. induction m as [a| |f m IH|g IH]; intros s H; simpl in *.
  - right. eauto.
  - auto.
  - apply elem_of_cons in H. destruct H as [->|H]; [left; apply elem_of_list_here|].
    destruct (IH _ H) as [H1|H1]; [left; now apply elem_of_list_further|auto].
  - apply IH, H.
Qed.

Lemma exec_in_stops {A} (m : prog A) s : fst (exec m s) ∈ stops m s.
Proof.
  revert s. induction m as [a| |f m IH|g IH]; intros s; simpl; try apply elem_of_list_here.
  - apply elem_of_list_further, IH.
  - apply IH.
Qed.
Lemma exec_stop {A} (m : prog A) s s' o : exec m s = (s', o) -> s' ∈ stops m s.
Proof. intros H. pose proof (exec_in_stops m s) as Hs. rewrite H in Hs. exact Hs. Qed.
Lemma start_in_stops {A} (m : prog A) s : s ∈ stops m s.
Proof. revert s. induction m as [a| |f m IH|g IH]; intros s; simpl; auto; apply elem_of_list_here. Qed.

(** ** Relations kept by every effect *)
Definition rel {A} (R : st -> st -> Prop) (m : prog A) : Prop :=
  forall s s', s' ∈ stops m s -> R s s'.

Section Rel.
Context (R : st -> st -> Prop) `{!Reflexive R} `{!Transitive R}.

Lemma rel_ret {A} (a : A) : rel R (Ret a).
Proof. intros s s' H. apply elem_of_list_singleton in H as ->. reflexivity. Qed.
Lemma rel_fail {A} : rel R (Fail : prog A).
Proof. intros s s' H. apply elem_of_list_singleton in H as ->. reflexivity. Qed.
Lemma rel_bind {A B} (m : prog A) (k : A -> prog B) :
  rel R m -> (forall a, rel R (k a)) -> rel R (bind m k).
Proof.
  intros H1 H2 s s' H. apply stops_bind in H. destruct H as [H|(a & s1 & E & H)]; [auto|].
  transitivity s1; [eapply H1, exec_stop; eauto|eapply H2; eauto].
Qed.
Lemma rel_ask {A} (k : st -> prog A) : (forall s, rel R (k s)) -> rel R (Ask k).
Proof. intros H s s' H'. simpl in H'. eapply H; eauto. Qed.
Lemma rel_do f : (forall s, R s (f s)) -> rel R (do f).
Proof.
  intros H s s' H'. simpl in H'. apply elem_of_cons in H' as [->|H']; [reflexivity|].
  apply elem_of_list_singleton in H' as ->. apply H.
Qed.
Lemma rel_Do {A} f (k : prog A) : (forall s, R s (f s)) -> rel R k -> rel R (Do f k).
Proof.
  intros H Hk s s' H'. simpl in H'. apply elem_of_cons in H' as [->|H']; [reflexivity|].
  transitivity (f s); auto.
Qed.
Lemma rel_gets {A} (f : st -> A) : rel R (gets f).
Proof. apply rel_ask. intros s. apply rel_ret. Qed.
Lemma rel_when b m : rel R m -> rel R (when b m).
Proof. destruct b; [auto|intros _; apply rel_ret]. Qed.
Lemma rel_run_all l : (forall m, m ∈ l -> rel R m) -> rel R (run_all l).
Proof.
  induction l as [|m l IH]; intros H; simpl; [apply rel_ret|].
  apply rel_bind; [apply H, elem_of_list_here|intros _; apply IH; intros m' Hm; apply H; now right].
Qed.
Lemma rel_exec {A} (m : prog A) s s' o : rel R m -> exec m s = (s', o) -> R s s'.
Proof. intros H E. eapply H, exec_stop; eauto. Qed.
End Rel.

(** ** Paths *)
Lemma strip_spec p q r : strip p q = Some r <-> q = p ++ r.
Proof.
  revert q. induction p as [|a p IH]; intros q; simpl.
  - split; [intros [= ->]; reflexivity|intros ->; reflexivity].
  - destruct q as [|b q]; [split; discriminate|].
    destruct (String.eqb_spec a b) as [->|Hne].
    + rewrite IH. split; [intros ->; reflexivity|intros [= ->]; reflexivity].
    + split; [discriminate|]. intros [= H _]. congruence.
Qed.
Lemma strip_none p q : strip p q = None <-> forall r, q <> p ++ r.
Proof.
  split.
  - intros H r E. apply strip_spec in E. congruence.
  - intros H. destruct (strip p q) as [r|] eqn:E; [|reflexivity]. apply strip_spec in E. now apply H in E.
Qed.

Lemma subtree_spec s p r e : (r, e) ∈ subtree s p <-> fs s !! (p ++ r) = Some e.
Proof.
  unfold subtree. rewrite elem_of_list_omap. split.
  - intros ([q e'] & Hin & H). simpl in H. destruct (strip p q) as [r'|] eqn:E; [|discriminate].
    injection H as -> ->. apply strip_spec in E. subst q. now apply elem_of_map_to_list in Hin.
  - intros H. exists (p ++ r, e). split; [now apply elem_of_map_to_list|].
    simpl. rewrite (proj2 (strip_spec p (p ++ r) r)); reflexivity.
Qed.
Lemma subtree_nodup s p : NoDup ((subtree s p).*1).
Proof.
  unfold subtree. pose proof (NoDup_fst_map_to_list (fs s)) as H.
  induction (map_to_list (fs s)) as [|[q e] l IH]; simpl; [constructor|].
  simpl in H. apply NoDup_cons in H. destruct H as [Hq Hl].
  destruct (strip p q) as [r|] eqn:E; simpl; [|auto].
  constructor; [|auto]. intros Hin. apply elem_of_list_fmap in Hin. destruct Hin as [[r' e'] [-> Hin]].
  apply elem_of_list_omap in Hin. destruct Hin as [[q' e2] [Hin H2]]. simpl in H2.
  destruct (strip p q') as [r2|] eqn:E2; [|discriminate]. injection H2 as <- <-.
  apply strip_spec in E, E2. simpl in *. subst. apply Hq. apply elem_of_list_fmap. exists (p ++ r2, e2). auto.
Qed.
Lemma occupied_spec s p : occupied s p = false <-> forall r, fs s !! (p ++ r) = None.
Proof.
  unfold occupied. split.
  - intros H r. destruct (fs s !! (p ++ r)) as [e|] eqn:E; [|reflexivity].
    apply subtree_spec in E. destruct (subtree s p); [|discriminate]. inversion E.
  - intros H. destruct (subtree s p) as [|[r e] l] eqn:E; [reflexivity|].
    assert (Hin : (r, e) ∈ subtree s p) by (rewrite E; left).
    apply subtree_spec in Hin. rewrite H in Hin. discriminate.
Qed.

(** ** copy_tree *)
Lemma exec_put_entry p e s : exec (put_entry p e) s = (St (<[p := e]> (fs s)) (txn s), Some tt).
Proof.
  destruct e; simpl; unfold put; simpl; rewrite ?insert_insert; reflexivity.
Qed.
Lemma stops_put_entry p e s s' : s' ∈ stops (put_entry p e) s ->
  txn s' = txn s /\ forall q, q <> p -> fs s' !! q = fs s !! q.
Proof.
  destruct e; simpl; intros H; repeat (apply elem_of_cons in H as [->|H]);
    try (apply elem_of_nil in H; contradiction); simpl; auto;
    (split; [reflexivity|]); intros q Hq; rewrite ?lookup_insert_ne by congruence; auto.
Qed.

Lemma exec_copies dst l s :
  exec (run_all (map (fun re : path * entry => put_entry (dst ++ fst re) (snd re)) l)) s
  = (St (fold_left (fun m re => <[dst ++ fst re := snd re]> m) l (fs s)) (txn s), Some tt).
Proof.
  revert s. induction l as [|[r e] l IH]; intros s; simpl.
  - destruct s; reflexivity.
  - rewrite exec_bind, exec_put_entry. simpl. rewrite IH. reflexivity.
Qed.
Lemma stops_copies dst l s s' :
  s' ∈ stops (run_all (map (fun re : path * entry => put_entry (dst ++ fst re) (snd re)) l)) s ->
  txn s' = txn s /\ forall q, ~ under dst q -> fs s' !! q = fs s !! q.
Proof.
  revert s. induction l as [|[r e] l IH]; intros s H; simpl in H.
  - apply elem_of_list_singleton in H as ->. auto.
  - apply stops_bind in H. destruct H as [H|(u & s1 & E & H)].
    + apply stops_put_entry in H. destruct H as [H1 H2]. split; [assumption|].
      intros q Hq. apply H2. intros ->. apply Hq. now exists r.
    + simpl in E. rewrite exec_put_entry in E. injection E as <- _.
      apply IH in H. simpl in H. destruct H as [H1 H2]. split; [assumption|].
      intros q Hq. rewrite H2 by assumption. apply lookup_insert_ne. intros <-. apply Hq. now exists r.
Qed.
Lemma fold_copies (dst : path) (l : list (path * entry)) (m : gmap path entry) (q : path) :
  NoDup (l.*1) ->
  fold_left (fun m re => <[dst ++ fst re := snd re]> m) l m !! q
  = match strip dst q with
    | Some r => match List.find (fun re : path * entry => bool_decide (fst re = r)) l with
                | Some re => Some (snd re) | None => m !! q end
    | None => m !! q
    end.
Proof.
  revert m. induction l as [|[r e] l IH]; intros m Hn; simpl.
  - now destruct (strip dst q).
  - apply NoDup_cons in Hn. destruct Hn as [Hr Hn]. rewrite IH by assumption.
    destruct (strip dst q) as [r0|] eqn:E.
    + apply strip_spec in E. subst q.
      destruct (bool_decide_reflect (r = r0)) as [->|Hne].
      * destruct (List.find _ l) as [[r1 e1]|] eqn:Ef.
        -- apply List.find_some in Ef. destruct Ef as [Hin Hb]. apply bool_decide_eq_true in Hb. simpl in Hb. subst.
           exfalso. apply Hr. apply elem_of_list_fmap. exists (r0, e1). split; [reflexivity|now apply elem_of_list_In].
        -- simpl. now rewrite lookup_insert.
      * destruct (List.find _ l); [reflexivity|]. apply lookup_insert_ne. intros H. apply app_inv_head in H. congruence.
    + rewrite lookup_insert_ne; [reflexivity|]. intros <-. eapply strip_none in E. now apply E.
Qed.

Lemma find_subtree s p r :
  match List.find (fun re : path * entry => bool_decide (fst re = r)) (subtree s p) with
  | Some re => Some (snd re) | None => None end = fs s !! (p ++ r).
Proof.
  destruct (List.find _ _) as [[r1 e1]|] eqn:Ef.
  - apply List.find_some in Ef. destruct Ef as [Hin Hb]. apply bool_decide_eq_true in Hb. simpl in Hb. subst.
    apply elem_of_list_In, subtree_spec in Hin. now rewrite Hin.
  - destruct (fs s !! (p ++ r)) as [e|] eqn:E; [|reflexivity]. apply subtree_spec, elem_of_list_In in E.
    pose proof (List.find_none _ _ Ef _ E) as Hn. simpl in Hn. apply bool_decide_eq_false in Hn. contradiction.
Qed.

Lemma copy_tree_exec src dst s s' o :
  exec (copy_tree src dst) s = (s', o) ->
  (o = None /\ s' = s /\ exists r, is_Some (fs s !! (dst ++ r))) \/
  (o = Some tt /\ txn s' = txn s /\ (forall r, fs s !! (dst ++ r) = None) /\
   (forall r, fs s' !! (dst ++ r) = fs s !! (src ++ r)) /\
   (forall q, ~ under dst q -> fs s' !! q = fs s !! q)).
Proof.
  unfold copy_tree. simpl. destruct (occupied s dst) eqn:Eo; intros H.
  - left. injection H as <- <-. split; [reflexivity|]. split; [reflexivity|].
    unfold occupied in Eo. destruct (subtree s dst) as [|[r e] l] eqn:E; [discriminate|].
    exists r. exists e. apply subtree_spec. rewrite E. left.
  - right. rewrite exec_copies in H. injection H as <- <-. rewrite occupied_spec in Eo.
    split; [reflexivity|]. split; [reflexivity|]. split; [exact Eo|]. split.
    + intros r. simpl. rewrite fold_copies by apply subtree_nodup.
      rewrite (proj2 (strip_spec dst (dst ++ r) r) eq_refl).
      pose proof (find_subtree s src r) as Hf.
      destruct (List.find _ _); [exact Hf|]. rewrite <- Hf. apply Eo.
    + intros q Hq. simpl. rewrite fold_copies by apply subtree_nodup.
      rewrite (proj2 (strip_none dst q)); [reflexivity|]. intros r ->. apply Hq. now exists r.
Qed.
Lemma copy_tree_stops src dst s s' :
  s' ∈ stops (copy_tree src dst) s ->
  txn s' = txn s /\ (forall q, ~ under dst q -> fs s' !! q = fs s !! q) /\
  (forall q e, fs s !! q = Some e -> fs s' !! q = Some e).
Proof.
  unfold copy_tree. simpl. destruct (occupied s dst) eqn:Eo; intros H.
  - apply elem_of_list_singleton in H as ->. auto.
  - apply stops_copies in H. destruct H as [H1 H2]. split; [assumption|]. split; [assumption|].
    intros q e Hq. rewrite H2; [assumption|]. intros [r ->]. rewrite occupied_spec in Eo. rewrite Eo in Hq. discriminate.
Qed.

(** ** rm_tree *)
Lemma rm_tree_stops p s s' :
  s' ∈ stops (rm_tree p) s -> txn s' = txn s /\ (forall q, ~ under p q -> fs s' !! q = fs s !! q) /\
  (forall q, fs s' !! q = fs s !! q \/ fs s' !! q = None).
Proof.
  unfold rm_tree. simpl. generalize (subtree s p) as l. intros l. revert s.
  induction l as [|[r e] l IH]; intros s H; simpl in H.
  - apply elem_of_list_singleton in H as ->. auto.
  - apply elem_of_cons in H. destruct H as [->|H]; [auto|]. apply IH in H. simpl in H.
    destruct H as (H1 & H2 & H3). split; [assumption|]. split.
    + intros q Hq. rewrite H2 by assumption. apply lookup_delete_ne. intros <-. apply Hq. now exists r.
    + intros q. destruct (H3 q) as [E|E]; [|auto]. rewrite E.
      destruct (decide (q = p ++ r)) as [->|]; [rewrite lookup_delete; auto|rewrite lookup_delete_ne by congruence; auto].
Qed.
Lemma rm_tree_exec p s s' o :
  exec (rm_tree p) s = (s', o) -> o = Some tt /\ (forall r, fs s' !! (p ++ r) = None).
Proof.
  unfold rm_tree. simpl.
  assert (G : forall l s s' o, exec (run_all (map (fun re : path * entry => do (del (p ++ fst re))) l)) s = (s', o) ->
    o = Some tt /\ forall q, fs s' !! q = if bool_decide (q ∈ map (fun re => p ++ fst re) l) then None else fs s !! q).
  { clear. induction l as [|[r e] l IH]; intros s s' o H; simpl in H.
    - injection H as <- <-. split; [reflexivity|]. intros q. rewrite bool_decide_false; [reflexivity|]. simpl. set_solver.
    - apply IH in H. destruct H as [-> H]. split; [reflexivity|]. intros q. rewrite H. simpl.
      destruct (decide (q ∈ map (fun re : path * entry => p ++ fst re) l)) as [Hin|Hin].
      + rewrite !bool_decide_true; [reflexivity|set_solver|assumption].
      + rewrite bool_decide_false by assumption. destruct (decide (q = p ++ r)) as [->|Hne].
        * rewrite lookup_delete, bool_decide_true; [reflexivity|set_solver].
        * rewrite lookup_delete_ne by congruence. rewrite bool_decide_false; [reflexivity|].
          rewrite elem_of_cons. intros [?|?]; contradiction. }
  intros H. apply G in H. destruct H as [-> H]. split; [reflexivity|]. intros r. rewrite H.
  destruct (fs s !! (p ++ r)) as [e|] eqn:E; [|now destruct (bool_decide _)].
  rewrite bool_decide_true; [reflexivity|]. apply subtree_spec in E. apply elem_of_list_fmap. exists (r, e). auto.
Qed.

(** ** makedirs, file_write *)
Lemma makedirs_from_stops rest : forall pre s s',
  s' ∈ stops (makedirs_from pre rest) s ->
  txn s' = txn s /\
  (forall q e, fs s !! q = Some e -> fs s' !! q = Some e) /\
  (forall q, fs s' !! q = fs s !! q \/ (fs s !! q = None /\ fs s' !! q = Some EDir /\
     exists a b, rest = a ++ b /\ a <> [] /\ q = pre ++ a)).
Proof.
  induction rest as [|c rest IH]; intros pre s s' H; simpl in H.
  - destruct (is_dir s pre); simpl in H; apply elem_of_list_singleton in H as ->; auto.
  - destruct (fs s !! (pre ++ [c])) as [e0|] eqn:E.
    + apply IH in H. destruct H as (H1 & H2 & H3). split; [assumption|]. split; [assumption|].
      intros q. destruct (H3 q) as [Hq|(Hq & Hq2 & a & b & -> & Ha & ->)]; [auto|]. right. split; [assumption|]. split; [assumption|].
      exists (c :: a), b. split; [reflexivity|]. split; [discriminate|]. now rewrite <- app_assoc.
    + destruct (is_dir s pre); simpl in H; [|apply elem_of_list_singleton in H as ->; auto].
      apply elem_of_cons in H. destruct H as [->|H]; [auto|].
      apply IH in H. simpl in H. destruct H as (H1 & H2 & H3). split; [assumption|]. split.
      * intros q e Hq. apply H2. rewrite lookup_insert_ne; [assumption|]. intros <-. congruence.
      * intros q. destruct (decide (q = pre ++ [c])) as [->|Hne].
        -- right. split; [assumption|]. split; [apply H2; apply lookup_insert|].
           exists [c], rest. split; [reflexivity|]. split; [discriminate|reflexivity].
        -- destruct (H3 q) as [Hq|(Hq & Hq2 & a & b & -> & Ha & ->)].
           ++ left. rewrite Hq. apply lookup_insert_ne. congruence.
           ++ right. rewrite lookup_insert_ne in Hq by congruence. split; [assumption|]. split; [assumption|].
              exists (c :: a), b. split; [reflexivity|]. split; [discriminate|]. now rewrite <- app_assoc.
Qed.
Lemma makedirs_from_ok rest : forall pre s s' u,
  exec (makedirs_from pre rest) s = (s', Some u) -> fs s' !! (pre ++ rest) = Some EDir.
Proof.
  induction rest as [|c rest IH]; intros pre s s' u H; simpl in H.
  - rewrite app_nil_r. unfold is_dir in H. destruct (fs s !! pre) as [[]|] eqn:E; try discriminate.
    simpl in H. injection H as <- _. exact E.
  - replace (pre ++ c :: rest) with ((pre ++ [c]) ++ rest) by now rewrite <- app_assoc.
    destruct (fs s !! (pre ++ [c])); [eauto|]. destruct (is_dir s pre); simpl in H; [eauto|discriminate].
Qed.

Lemma file_write_stops p t s s' :
  s' ∈ stops (file_write p t) s -> txn s' = txn s /\ (forall q, q <> p -> fs s' !! q = fs s !! q).
Proof.
  simpl. destruct (is_dir s (parent p) && negb (is_dir s p)); simpl; intros H;
    repeat (apply elem_of_cons in H as [->|H]); try (apply elem_of_nil in H; contradiction); simpl; auto;
    (split; [reflexivity|]); intros q Hq; rewrite ?lookup_insert_ne by congruence; auto.
Qed.
Lemma file_write_exec p t s s' u :
  exec (file_write p t) s = (s', Some u) ->
  s' = St (<[p := EFile t]> (fs s)) (txn s) /\ is_dir s (parent p) = true /\ is_dir s p = false.
Proof.
  simpl. destruct (is_dir s (parent p)), (is_dir s p); simpl; intros H; try discriminate.
  injection H as <- _. unfold put. simpl. rewrite insert_insert. auto.
Qed.

(** ** backup *)
Lemma sapp_nil_inv a b c : (a ++ b = a ++ c)%string -> b = c.
Proof. induction a as [|x a IH]; simpl; [auto|]. intros [= H]. auto. Qed.
Lemma bak_name_inj name prefix n n' : bak_name name prefix n = bak_name name prefix n' -> n = n'.
Proof. unfold bak_name. intros H. apply sapp_nil_inv, sapp_nil_inv in H. eapply pretty_nat_inj, H. Qed.

Lemma find_free_some fuel s d name prefix : forall n k,
  find_free fuel s d name prefix n = Some k ->
  fs s !! (d ++ [bak_name name prefix k]) = None /\ n <= k /\
  forall j, n <= j < k -> is_Some (fs s !! (d ++ [bak_name name prefix j])).
Proof.
  induction fuel as [|f IH]; intros n k H; simpl in H; [discriminate|].
  destruct (fs s !! (d ++ [bak_name name prefix n])) eqn:E.
  - apply IH in H. destruct H as (H1 & H2 & H3). split; [assumption|]. split; [lia|].
    intros j Hj. destruct (decide (j = n)) as [->|]; [eauto|]. apply H3. lia.
  - injection H as <-. split; [assumption|]. split; [lia|]. intros j Hj. lia.
Qed.
Lemma find_free_none fuel s d name prefix : forall n,
  find_free fuel s d name prefix n = None ->
  forall j, n <= j < n + fuel -> is_Some (fs s !! (d ++ [bak_name name prefix j])).
Proof.
  induction fuel as [|f IH]; intros n H j Hj; [lia|]. simpl in H.
  destruct (fs s !! (d ++ [bak_name name prefix n])) eqn:E; [|discriminate].
  destruct (decide (j = n)) as [->|]; [eauto|]. eapply IH; eauto. lia.
Qed.
(** the bound on the loop is never reached *)
Lemma find_free_total s d name prefix :
  is_Some (find_free (S (size (fs s))) s d name prefix 0).
Proof.
  destruct (find_free _ _ _ _ _ _) as [k|] eqn:E; [eauto|]. exfalso.
  pose proof (find_free_none _ _ _ _ _ _ E) as H.
  set (l := map (fun j => d ++ [bak_name name prefix j]) (seq 0 (S (size (fs s))))).
  assert (Hl : NoDup l).
  { apply NoDup_fmap_2_strong; [|apply NoDup_seq]. intros x y _ _ Hxy. apply app_inv_head in Hxy.
    injection Hxy as Hxy. eapply bak_name_inj, Hxy. }
  assert (Hsub : list_to_set l ⊆ dom (fs s)).
  { intros p Hp. apply elem_of_list_to_set in Hp. apply elem_of_list_fmap in Hp. destruct Hp as (j & -> & Hj).
    apply elem_of_seq in Hj. apply elem_of_dom. apply H. lia. }
  apply subseteq_size in Hsub. rewrite size_list_to_set in Hsub by assumption.
  rewrite size_dom in Hsub. unfold l in Hsub. rewrite map_length, seq_length in Hsub. lia.
Qed.

Lemma backup_stops d name prefix s s' :
  s' ∈ stops (backup d name prefix) s ->
  txn s' = txn s /\
  (forall q e, fs s !! q = Some e -> fs s' !! q = Some e) /\
  (exists n, forall q, ~ under (d ++ [bak_name name prefix n]) q -> fs s' !! q = fs s !! q).
Proof.
  unfold backup. cbn [stops]. destruct (fs s !! (d ++ [name])) as [e0|].
  - destruct (find_free _ _ _ _ _ _) as [n|].
    + intros H. apply copy_tree_stops in H. destruct H as (H1 & H2 & H3). eauto.
    + intros H. apply elem_of_list_singleton in H as ->. split; [reflexivity|]. split; [auto|]. exists 0. auto.
  - intros H. apply elem_of_list_singleton in H as ->. split; [reflexivity|]. split; [auto|]. exists 0. auto.
Qed.

(** a file tree: entries exist only in existing directories *)
Definition wf (s : st) : Prop :=
  forall p c, is_Some (fs s !! (p ++ [c])) -> fs s !! p = Some EDir.
Lemma wf_below s p r : wf s -> r <> [] -> is_Some (fs s !! (p ++ r)) -> fs s !! p = Some EDir.
Proof.
  intros Hw. induction r as [|c r IH] using rev_ind; intros Hr H; [contradiction|].
  rewrite app_assoc in H. apply Hw in H. destruct r as [|c0 r]; [now rewrite app_nil_r in H|].
  apply IH; [discriminate|eauto].
Qed.
Lemma wf_free s p : wf s -> fs s !! p = None -> forall r, fs s !! (p ++ r) = None.
Proof.
  intros Hw Hp [|c r]; [now rewrite app_nil_r|].
  destruct (fs s !! (p ++ c :: r)) eqn:E; [|reflexivity].
  assert (fs s !! p = Some EDir) by (eapply wf_below; [eassumption| |rewrite E; eauto]; discriminate). congruence.
Qed.

Lemma backup_exec d name prefix s :
  wf s -> is_Some (fs s !! (d ++ [name])) ->
  exists n s', exec (backup d name prefix) s = (s', Some tt) /\
    let dst := d ++ [bak_name name prefix n] in
    fs s !! dst = None /\
    (forall j, j < n -> is_Some (fs s !! (d ++ [bak_name name prefix j]))) /\
    (forall r, fs s' !! (dst ++ r) = fs s !! (d ++ [name] ++ r)) /\
    (forall q, ~ under dst q -> fs s' !! q = fs s !! q) /\ txn s' = txn s.
Proof.
  intros Hw [e He]. unfold backup. cbn [exec]. rewrite He.
  destruct (find_free_total s d name prefix) as [n Hn]. rewrite Hn.
  apply find_free_some in Hn. destruct Hn as (H1 & _ & H3).
  destruct (exec (copy_tree (d ++ [name]) (d ++ [bak_name name prefix n])) s) as [s' o] eqn:E.
  exists n, s'. destruct (copy_tree_exec _ _ _ _ _ E) as [(-> & -> & r & Hr)|(-> & Ht & Hf & Hc & Ho)].
  - rewrite (wf_free s _ Hw H1) in Hr. destruct Hr. discriminate.
  - split; [reflexivity|]. simpl. split; [assumption|]. split; [intros; apply H3; lia|].
    split; [|auto]. intros r. rewrite Hc. now rewrite <- app_assoc.
Qed.
Lemma backup_ok d name prefix s s' u :
  exec (backup d name prefix) s = (s', Some u) -> is_Some (fs s !! (d ++ [name])) ->
  exists n, let dst := d ++ [bak_name name prefix n] in
    (forall r, fs s !! (dst ++ r) = None) /\
    (forall r, fs s' !! (dst ++ r) = fs s !! (d ++ [name] ++ r)) /\
    (forall q, ~ under dst q -> fs s' !! q = fs s !! q) /\ txn s' = txn s.
Proof.
  intros H [e He]. unfold backup in H. cbn [exec] in H. rewrite He in H.
  destruct (find_free _ _ _ _ _ _) as [n|] eqn:Ef; [|discriminate].
  exists n. destruct (copy_tree_exec _ _ _ _ _ H) as [(Hd & _)|(_ & Ht & Hf & Hc & Ho)]; [discriminate|].
  simpl. split; [assumption|]. split; [|auto]. intros r. rewrite Hc. now rewrite <- app_assoc.
Qed.
