(** Proofs about failing calls of write_input. *)
From Coq Require Import Ascii String ZArith Lia.
From stdpp Require Import base gmap strings pretty list.
From Verif Require Import Comb Template TemplateSpec Sql SqlSpec SqlProofs Fs FsProofs BackupProofs Batch BatchSpec BatchFileSpec BatchProofs BatchInv BatchRows BatchFiles BatchFiles2 BatchFiles3.
Local Open Scope string_scope.
Local Open Scope list_scope.

Section Fail.
Variable aff : string -> val -> val.
Hypothesis aff_int : forall z, aff "INTEGER" (VInt z) = VInt z.
Variable root : path.
Variable db_name : string.
Notation db := (dbfn root db_name).
Notation stored := (stored root db_name).
Notation write c := (write_input aff root db_name c).

(** append to a table that is not called calc *)
Lemma other_table_fails c f t :
  reach aff root db_name f -> call_ok db_name c -> c_machines c <> [] -> c_params c <> [] ->
  c_w c = false -> c_excl c = true -> c_table c <> "calc" ->
  stored f (c_table c) t -> (forall t', ~ stored f "calc" t') ->
  snd (exec (write c) (St f None)) = None.
Proof.
  intros Hreach Hok Hms Hps Hw Hex Htab Hst Hno.
  destruct (exec (write c) (St f None)) as [s' [[]|]] eqn:H; [exfalso|reflexivity].
  assert (Hreach' : reach aff root db_name (fs s')) by (eapply r_killed; eauto; eapply exec_stop; eauto).
  destruct (append_revision aff root db_name aff_int f c s' t Hreach Hok Hms Hps Hw Hst H) as (m & t' & Hst' & (i0 & Hi0) & Hmax & Hn & Hnew).
  pose proof (phases_exec aff root db_name c (St f None) s' tt eq_refl H) as (new' & tb0 & rv & mi & s1 & E1 & F1 & X1 & Hnw & Hnum & recs0 & s3 & recs & E3 & E4).
  pose proof (all_machines_result _ _ _ _ _ _ _ E3) as Hres.
  destruct Hres as [[_ [?|?]]|(_ & z & -> & _)]; [contradiction|contradiction|].
  destruct (numbers_reach aff aff_int root db_name c f new' tb0 rv z (nrows t) (m + 1)%Z Hreach Hnw Hnum) as [_ ->].
  { intros t1 _ Ht1. destruct Hst as (tb1 & A & B), Ht1 as (tb2 & C & D). rewrite A in C. injection C as <-. rewrite B in D. injection D as <-.
    split; [reflexivity|]. exists m. eauto. }
  { intros [?|Hf]; [congruence|]. destruct Hst as (tb1 & A & _). congruence. }
  destruct Hst' as (tb & Hf & Ht).
  pose proof (reach_good aff root db_name aff_int _ Hreach' tb Hf _ t' Ht) as [G1 G2 G3 G4 _].
  assert (Hm0 : (0 < m + 1)%Z).
  { assert (0 < nrows t) by (pose proof (cell_at_lt _ _ _ _ Hi0); lia).
    destruct Hst as (tb1 & A & B). pose proof (reach_good aff root db_name aff_int _ Hreach tb1 A _ t B) as [_ _ _ (_ & Z0 & _) _].
    assert (0 <= m)%Z by (apply (Hmax 0 0%Z); now apply Z0). lia. }
  assert (Hx' : txn s' = None).
  { apply write_input_exec in H; [apply H|assumption|reflexivity]. }
  destruct (db_phase_excl aff root db_name c _ _ _ _ _ _ tb (ok_excl _ _ Hok) Hex Hm0 E4 Hf Hx') as (t1 & Ht1 & _).
  { unfold tab_of. rewrite Ht. simpl. apply (ctype_has t' "revision" "INTEGER" G2). discriminate. }
  apply success in H; [|assumption].
  destruct H as (new2 & tb2 & tb3 & t3 & rv3 & mi3 & h3 & Hnew3 & _ & Hf3 & _ & _ & Hoth & _).
  rewrite Hf in Hf3. injection Hf3 as <-. rewrite Hoth in Ht1 by congruence.
  destruct Hnew3 as [(_ & -> & _)|(_ & _ & Hf0)]; [now rewrite lookup_empty in Ht1|].
  apply (Hno t1). exists tb2. auto.
Qed.

(** append to an empty table *)
Lemma empty_table_stuck c f t :
  reach aff root db_name f -> call_ok db_name c -> c_w c = false ->
  stored f (c_table c) t -> nrows t = 0 ->
  snd (exec (write c) (St f None)) = None /\
  forall s, s ∈ stops (write c) (St f None) -> txn s = None /\ stored (fs s) (c_table c) t.
Proof.
  intros Hreach Hok Hw (tb & Hf & Ht) Hn.
  pose proof (reach_good aff root db_name aff_int _ Hreach tb Hf _ t Ht) as [G1 G2 _ _ _].
  assert (Hno : forall rv mi, ~ numbers c false tb rv mi).
  { intros rv mi (t' & Ht' & _ & _ & H). rewrite Ht in Ht'. injection Ht' as <-.
    rewrite (ctype_has t "revision" "INTEGER" G2) in H by discriminate. destruct H as (r & H & _).
    apply max_int_some in H. destruct H as [H _]. apply column_in in H. destruct H as [i Hi]. apply cell_at_lt in Hi. lia. }
  split.
  - destruct (exec (write c) (St f None)) as [s' [u|]] eqn:H; [exfalso|reflexivity].
    apply phases_exec in H; [|reflexivity]. destruct H as (new & tb0 & rv & mi & s1 & _ & _ & _ & Hnew & Hnum & _).
    destruct Hnew as [(_ & _ & [?|?])|(-> & _ & Hf')]; [simpl in *; congruence|congruence|]. simpl in Hf'. rewrite Hf in Hf'. injection Hf' as <-.
    now apply Hno in Hnum.
  - intros s H. apply phases_stops in H; [|reflexivity].
    destruct H as [H|(new & tb0 & rv & mi & s1 & _ & _ & _ & Hnew & Hnum & _)].
    + apply prepare_stops in H. destruct H as [X1 [H|[[H _]|[[H|H] _]]]]; simpl in *; try congruence.
      split; [assumption|]. exists tb. split; [congruence|assumption].
    + destruct Hnew as [(_ & _ & [?|?])|(-> & _ & Hf')]; [simpl in *; congruence|congruence|]. simpl in Hf'. rewrite Hf in Hf'. injection Hf' as <-.
      now apply Hno in Hnum.
Qed.
End Fail.
