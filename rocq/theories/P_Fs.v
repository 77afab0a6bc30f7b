(** C05: common.backup. *)
From Coq Require Import Ascii String Lia.
From stdpp Require Import base gmap strings pretty list.
From Verif Require Import Comb Template Sql Fs FsProofs BackupProofs.
Local Open Scope string_scope.
Local Open Scope list_scope.

(** In every file tree (an entry lies in a directory), backing up an existing
    d/name succeeds, makes one new entry d/<name><prefix><n> with the smallest
    free n, with the content of the source, and changes nothing else. *)
Theorem C05_backup_copies_to_smallest_free_name d name prefix s :
  wf s -> is_Some (fs s !! (d ++ [name])) ->
  exists (n : nat) s', exec (backup d name prefix) s = (s', Some tt) /\
    let dst := d ++ [(name ++ prefix ++ pretty n)%string] in
    fs s !! dst = None /\
    (forall j, j < n -> is_Some (fs s !! (d ++ [(name ++ prefix ++ pretty j)%string]))) /\
    (forall r, fs s' !! (dst ++ r) = fs s !! (d ++ [name] ++ r)) /\
    (forall q, (forall r, q <> dst ++ r) -> fs s' !! q = fs s !! q) /\ txn s' = txn s.
Proof. exact (backup_copies d name prefix s). Qed.
Print Assumptions C05_backup_copies_to_smallest_free_name.

(** Nothing to back up: nothing happens. *)
Theorem C05_backup_of_nothing d name prefix s :
  fs s !! (d ++ [name]) = None -> exec (backup d name prefix) s = (s, Some tt).
Proof. exact (backup_nothing d name prefix s). Qed.
Print Assumptions C05_backup_of_nothing.

(** Wherever a backup is interrupted, everything that existed is still there. *)
Theorem C05_backup_never_overwrites d name prefix s s' q e :
  s' ∈ stops (backup d name prefix) s -> fs s !! q = Some e -> fs s' !! q = Some e.
Proof. exact (backup_keeps d name prefix s s' q e). Qed.
Print Assumptions C05_backup_never_overwrites.

(** After a backup, any number of further backups (complete or interrupted) and
    arbitrary changes of the source: the copy is still there with the old content. *)
Theorem C05_backups_survive d name prefix s s1 s2 :
  is_Some (fs s !! (d ++ [name])) ->
  exec (backup d name prefix) s = (s1, Some tt) ->
  backup_history d name prefix s1 s2 ->
  exists n : nat, fs s !! (d ++ [(name ++ prefix ++ pretty n)%string]) = None /\
    forall r, fs s2 !! (d ++ [(name ++ prefix ++ pretty n)%string] ++ r) = fs s !! (d ++ [name] ++ r).
Proof. exact (backups_survive d name prefix s s1 s2). Qed.
Print Assumptions C05_backups_survive.

(** A tree with a directory, two files and one earlier backup. *)
Definition ex_tree : gmap path entry :=
  {[ ([] : path) := EDir; ["a"] := EDir; ["a"; "x"] := EFile (list_ascii_of_string "hello");
     ["a"; "sub"] := EDir; ["a.0"] := EFile [] ]}.
Definition ex_st : st := St ex_tree None.
Example C05_wf : wf ex_st.
Proof.
  intros p c [e H]. simpl in H. unfold ex_tree in H.
  rewrite !lookup_insert_Some, lookup_singleton_Some in H.
  assert (G : p ++ [c] = [] \/ p ++ [c] = ["a"] \/ p ++ [c] = ["a"; "x"] \/ p ++ [c] = ["a"; "sub"] \/ p ++ [c] = ["a.0"]) by naive_solver.
  assert (p = [] \/ p = ["a"]) as [-> | ->]; [|vm_compute; reflexivity..].
  destruct p as [|x [|y [|z p]]]; simpl in G; [auto|..]; right.
  - destruct G as [G|[G|[G|[G|G]]]]; try discriminate; injection G as -> _; reflexivity.
  - destruct G as [G|[G|[G|[G|G]]]]; discriminate.
  - destruct G as [G|[G|[G|[G|G]]]]; try discriminate; destruct p; discriminate.
Qed.
Example C05_case : is_Some (fs ex_st !! ([] ++ ["a"])) /\
  exec (backup [] "a" ".") ex_st = (fst (exec (backup [] "a" ".") ex_st), Some tt) /\
  fs (fst (exec (backup [] "a" ".") ex_st)) !! ["a.1"; "x"] = Some (EFile (list_ascii_of_string "hello")).
Proof. split; [vm_compute; eauto|]. split; vm_compute; reflexivity. Qed.
