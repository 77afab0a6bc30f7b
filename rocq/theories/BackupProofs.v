(** Proofs about sequences of backups. *)
From Coq Require Import Ascii String Lia.
From stdpp Require Import base gmap strings pretty list.
From Verif Require Import Comb Template Sql Fs FsProofs.
Local Open Scope list_scope.

(** What may happen between two looks at the file tree: the source may be changed
    in any way, and it may be backed up (completely or interrupted anywhere). *)
Inductive backup_history (d : path) (name prefix : string) (s : st) : st -> Prop :=
| bh_start : backup_history d name prefix s s
| bh_change s1 s2 : backup_history d name prefix s s1 ->
    (forall q, (forall r, q <> d ++ [name] ++ r) -> fs s2 !! q = fs s1 !! q) ->
    backup_history d name prefix s s2
| bh_backup s1 s2 : backup_history d name prefix s s1 ->
    s2 ∈ stops (backup d name prefix) s1 -> backup_history d name prefix s s2.

Lemma backup_copies d name prefix s :
  wf s -> is_Some (fs s !! (d ++ [name])) ->
  exists (n : nat) s', exec (backup d name prefix) s = (s', Some tt) /\
    let dst := d ++ [(name ++ prefix ++ pretty n)%string] in
    fs s !! dst = None /\
    (forall j, j < n -> is_Some (fs s !! (d ++ [(name ++ prefix ++ pretty j)%string]))) /\
    (forall r, fs s' !! (dst ++ r) = fs s !! (d ++ [name] ++ r)) /\
    (forall q, (forall r, q <> dst ++ r) -> fs s' !! q = fs s !! q) /\ txn s' = txn s.
Proof.
  intros Hw Hs. destruct (backup_exec d name prefix s Hw Hs) as (n & s' & E & H1 & H2 & H3 & H4 & H5).
  exists n, s'. split; [assumption|]. cbv zeta. unfold bak_name in *. split; [assumption|]. split; [assumption|]. split; [assumption|].
  split; [|assumption]. intros q Hq. apply H4. intros [r E2]. now apply (Hq r).
Qed.
Lemma backup_nothing d name prefix s :
  fs s !! (d ++ [name]) = None -> exec (backup d name prefix) s = (s, Some tt).
Proof. intros H. unfold backup. simpl. now rewrite H. Qed.
Lemma backup_keeps d name prefix s s' q e :
  s' ∈ stops (backup d name prefix) s -> fs s !! q = Some e -> fs s' !! q = Some e.
Proof. intros H. apply backup_stops in H. apply H. Qed.

Lemma pretty_nat_nonempty (n : nat) : pretty n <> ""%string.
Proof.
  intros E. pose proof (pretty_nat_inj n) as _.
  assert (H : forall x : N, pretty x <> ""%string).
  { intros x. unfold pretty, pretty_N. case_decide as Hx; [discriminate|].
    assert (G : forall y t, t <> ""%string -> pretty_N_go y t <> ""%string).
    { intros y. induction (N.lt_wf_0 y) as [y _ IH]. intros t Ht.
      destruct (decide (0 < y)%N) as [Hy|Hy].
      - rewrite pretty_N_go_step by assumption. apply IH; [apply N.div_lt; lia|discriminate].
      - assert (y = 0%N) by lia. subst. now rewrite pretty_N_go_0. }
    rewrite pretty_N_go_step by lia. apply G. discriminate. }
  now apply (H (N.of_nat n)).
Qed.
Lemma app_len (a b : string) : String.length (a ++ b) = String.length a + String.length b.
Proof. induction a as [|x a IH]; [reflexivity|]. exact (f_equal S IH). Qed.
Lemma bak_name_ne name prefix n : bak_name name prefix n <> name.
Proof.
  intros E. apply (f_equal String.length) in E. unfold bak_name in E. rewrite !app_len in E.
  assert (String.length (pretty n) = 0) as H by lia. pose proof (pretty_nat_nonempty n).
  destruct (pretty n); [contradiction|discriminate].
Qed.
Lemma under_same_len (d : path) x y r r' : d ++ [x] ++ r = d ++ [y] ++ r' -> x = y.
Proof. intros E. apply app_inv_head in E. now injection E. Qed.

(** What the interrupted backup leaves untouched, with everything below an
    existing entry. *)
Lemma backup_stops_sibling d name prefix s s' x :
  s' ∈ stops (backup d name prefix) s -> is_Some (fs s !! (d ++ [x])) ->
  forall r, fs s' !! (d ++ [x] ++ r) = fs s !! (d ++ [x] ++ r).
Proof.
  intros H [e Hx] r. unfold backup in H. cbn [stops] in H.
  destruct (fs s !! (d ++ [name])); [|apply elem_of_list_singleton in H as ->; reflexivity].
  destruct (find_free _ s d name prefix 0) as [n|] eqn:Hff; [|apply elem_of_list_singleton in H as ->; reflexivity].
  destruct (find_free_some _ _ _ _ _ _ _ Hff) as (F1 & _).
  assert (Hne : x <> bak_name name prefix n) by (intros ->; congruence).
  apply copy_tree_stops in H. destruct H as (_ & H & _). apply H. intros [r' E]. rewrite <- app_assoc in E.
  apply under_same_len in E. contradiction.
Qed.

Lemma backups_survive d name prefix s s1 s2 :
  is_Some (fs s !! (d ++ [name])) ->
  exec (backup d name prefix) s = (s1, Some tt) ->
  backup_history d name prefix s1 s2 ->
  exists n : nat, fs s !! (d ++ [(name ++ prefix ++ pretty n)%string]) = None /\
    forall r, fs s2 !! (d ++ [(name ++ prefix ++ pretty n)%string] ++ r) = fs s !! (d ++ [name] ++ r).
Proof.
  intros [e0 Hs] H Hh. destruct (backup_ok _ _ _ _ _ _ H ltac:(eauto)) as (n & H1 & H2 & _). exists n.
  change (name ++ prefix ++ pretty n)%string with (bak_name name prefix n).
  split; [specialize (H1 []); now rewrite app_nil_r in H1|].
  induction Hh as [|s3 s4 _ IH Hc|s3 s4 _ IH Hb]; intros r.
  - rewrite <- H2, <- app_assoc. reflexivity.
  - rewrite Hc; [apply IH|]. intros r' E. apply under_same_len in E. now apply bak_name_ne in E.
  - rewrite <- IH. eapply backup_stops_sibling; [exact Hb|].
    specialize (IH []). rewrite app_nil_r in IH. rewrite app_nil_r in IH. rewrite IH, Hs. eauto.
Qed.
