(** C50: HDF5 dict files. *)
From Coq Require Import List Bool Ascii String.
From Verif Require Import H5 H5Spec H5Proofs.
Import ListNotations.
Local Open Scope list_scope.

(** C50: writing a dict to a new file (or with mode 'w') works exactly when its keys name different
    places, none inside another; reading gives the values back under the names with a leading slash,
    and nothing else. *)
Theorem C50_round_trip :
  forall other bytes text (enc : text -> bytes) dec, (forall s, dec (enc s) = Some s) ->
  forall f (d : list (string * value other bytes text)), made enc f -> Forall (fun kv => not_bytes (snd kv)) d ->
  let r := write_h5 other bytes text enc W f d in
  (snd r = true <-> writable (map fst d)) /\
  (snd r = true -> exists back, read_h5 other bytes text dec (fst r) = Some back /\
     (forall k v, In (k, v) d -> dget (name k) back = Some v) /\
     (forall k v, dget k back = Some v -> exists k', In (k', v) d /\ k = name k')).
Proof.
  intros other bytes text enc dec C f d M NB r. pose proof (made_sane _ _ _ enc f M) as S.
  assert (RB : forall k v, In (k, v) d -> readback dec v = Some v).
  { intros k v I. rewrite Forall_forall in NB. specialize (NB _ I). destruct v; [reflexivity | contradiction | reflexivity]. }
  assert (Rd : readable dec d).
  { apply Forall_forall. intros [k v] I. cbn. rewrite (RB k v I). discriminate. }
  split.
  - unfold r. rewrite (write_ok _ _ _ enc dec W f d [] S eq_refl). split; [tauto|].
    intro H. split; [exact H|]. intros k k' _ D. exact (fun _ => D eq_refl).
  - intro OK. destruct (append_spec _ _ _ enc dec C W f d [] S eq_refl Rd) as (back & B & done & rest & E & H1 & _ & G).
    fold r in B, H1. exists back. split; [exact B|]. rewrite (H1 OK), app_nil_r in E. subst done. split.
    + intros k v I. apply G. right. exists k, v. split; [exact I|]. split; [reflexivity | exact (RB k v I)].
    + intros k v D. apply G in D. destruct D as [D|(k0 & v0 & I & <- & D)]; [discriminate|].
      rewrite (RB k0 v0 I) in D. injection D as ->. exists k0. auto.
Qed.

(** C50: append mode.  The call succeeds exactly when the new keys can be in one file together with those
    that are there; if it raises, it does so at the first key that cannot, and the items before it are in
    the file.  Reading then gives the old content and the written items. *)
Theorem C50_append :
  forall other bytes text (enc : text -> bytes) dec, (forall s, dec (enc s) = Some s) ->
  forall t (d : list (string * value other bytes text)) old, made enc (Some t) ->
  read_h5 other bytes text dec (Some t) = Some old -> readable dec d ->
  let r := write_h5 other bytes text enc A (Some t) d in
  (snd r = true <-> writable (map fst d) /\ (forall k k', In k (map fst d) -> dget k' old <> None -> ~ clash k k')) /\
  exists now, read_h5 other bytes text dec (fst r) = Some now /\
  exists done rest, d = done ++ rest /\ (snd r = true -> rest = []) /\
    (snd r = false -> exists k v rest', rest = (k, v) :: rest' /\
       (comps k = [] \/ exists k' v', dget k' now = Some v' /\ clash k k')) /\
    (forall k v, dget k now = Some v <->
       dget k old = Some v \/ exists k0 v0, In (k0, v0) done /\ name k0 = k /\ readback dec v0 = Some v).
Proof.
  intros other bytes text enc dec C t d old M B Rd r. pose proof (made_sane _ _ _ enc _ M) as S. split.
  - exact (write_ok _ _ _ enc dec A (Some t) d old S B).
  - exact (append_spec _ _ _ enc dec C A (Some t) d old S B Rd).
Qed.

(** C50: no number of calls in append mode, raising or not, changes a stored value. *)
Theorem C50_append_only :
  forall other bytes text (enc : text -> bytes) dec t (ds : list (list (string * value other bytes text))) old now,
  made enc (Some t) -> read_h5 other bytes text dec (Some t) = Some old ->
  read_h5 other bytes text dec (appends enc (Some t) ds) = Some now ->
  forall k v, dget k old = Some v -> dget k now = Some v.
Proof.
  intros other bytes text enc dec t ds old now M B N k v H. pose proof (made_sane _ _ _ enc _ M) as S.
  apply (read_fget _ _ _ dec (Some t) old S B) in H. destruct H as (Nk & s & G & L).
  apply (read_fget _ _ _ dec _ now (appends_sane _ _ _ enc ds _ S) N). split; [exact Nk|].
  exists s. split; [|exact L]. apply appends_persist; assumption.
Qed.

(** C50: read, update, write with mode 'w': the file holds the updated dict, if the keys of the update are
    written with the leading slash and can be in one file with the old ones. *)
Theorem C50_update :
  forall other bytes text (enc : text -> bytes) dec, (forall s, dec (enc s) = Some s) ->
  forall t (new : list (string * value other bytes text)) old, made enc (Some t) ->
  read_h5 other bytes text dec (Some t) = Some old ->
  NoDup (map fst new) -> Forall (fun kv => not_bytes (snd kv)) new -> Forall (fun kv => name (fst kv) = fst kv) new ->
  writable (map fst (update old new)) ->
  let r := write_h5 other bytes text enc W (Some t) (update old new) in
  snd r = true /\ exists back, read_h5 other bytes text dec (fst r) = Some back /\
  forall k, dget k back = match dget k new with Some v => Some v | None => dget k old end.
Proof.
  intros other bytes text enc dec C t new old M B N NB NN Wr r.
  pose proof (made_sane _ _ _ enc _ M) as S.
  pose proof (update_get new N old) as U.
  assert (NU : NoDup (map fst (update old new))) by (apply writable_nodup; exact Wr).
  assert (KN : forall k v, In (k, v) (update old new) -> name k = k /\ not_bytes v).
  { intros k v I. apply (in_dget _ _ _ NU) in I. rewrite U in I. destruct (dget k new) as [w|] eqn:D.
    - injection I as ->. apply dget_in in D. rewrite Forall_forall in NB, NN. split; [apply (NN _ D) | apply (NB _ D)].
    - apply (read_fget _ _ _ dec (Some t) old S B) in I. destruct I as (Nk & s & _ & L). split; [exact Nk|].
      destruct s as [b|x]; cbn in L; [destruct (dec b); [|discriminate]|]; injection L as <-; exact I. }
  assert (F : Forall (fun kv => not_bytes (snd kv)) (update old new)).
  { apply Forall_forall. intros [k v] I. apply (KN k v I). }
  destruct (C50_round_trip other bytes text enc dec C (Some t) (update old new) M F) as [OK RT].
  fold r in OK, RT. pose proof (proj2 OK Wr) as T. split; [exact T|].
  destruct (RT T) as (back & Rb & G1 & G2). exists back. split; [exact Rb|]. intro k. rewrite <- U.
  destruct (dget k (update old new)) as [v|] eqn:D.
  - apply dget_in in D. rewrite <- (proj1 (KN k v D)). apply G1. exact D.
  - destruct (dget k back) as [v|] eqn:D'; [|reflexivity]. apply G2 in D'. destruct D' as (k' & I & E).
    rewrite (proj1 (KN k' v I)) in E. subst k'. apply (in_dget _ _ _ NU) in I. congruence.
Qed.

(** ** What goes wrong *)

(** text is utf-8 in the examples: here ascii strings, everything readable *)
Definition ex_write := write_h5 nat string string (fun s => s).
Definition ex_read := read_h5 nat string string Some.

(** C50: bytes come back as text. *)
Theorem C50_bytes_refuted :
  exists (d : list (string * value nat string string)) back, writable (map fst d) /\
  ex_read (fst (ex_write W None d)) = Some back /\ dget (name "a") d <> dget (name "a") back /\
  d = [("/a", Bytes "xy")]%string /\ back = [("/a", Str "xy")]%string.
Proof.
  exists [("/a", Bytes "xy")]%string, [("/a", Str "xy")]%string. split.
  - split; repeat constructor; discriminate.
  - split; [reflexivity|]. split; [discriminate|]. auto.
Qed.

(** C50: with an old key written without its leading slash, the recipe of the docs (read, update, write
    with mode 'w') raises; the old value stays and the new keys after it are not written. *)
Theorem C50_update_without_slash_refuted :
  exists t (old new : list (string * value nat string string)),
  made (fun s => s) (Some t) /\ ex_read (Some t) = Some old /\ old = [("/b", Other 1); ("/a", Other 2)]%string /\
  new = [("b", Other 5); ("/c", Other 3)]%string /\
  let r := ex_write W (Some t) (update old new) in
  snd r = false /\ ex_read (fst r) = Some old.
Proof.
  eexists. exists [("/b", Other 1); ("/a", Other 2)]%string, [("b", Other 5); ("/c", Other 3)]%string. split.
  - exact (made_write (fun s : string => s) W None [("/b", Other 1); ("/a", Other 2)]%string (made_new _)).
  - repeat split.
Qed.

(** C50: a dict with nested names, written, extended, and read. *)
Example C50_case :
  let d : list (string * value nat string string) := [("/a/b/d1", Other 1); ("a/c", Str "text"); ("x", Other 3)]%string in
  writable (map fst d) /\
  ex_read (fst (ex_write W None d)) = Some [("/a/b/d1", Other 1); ("/a/c", Str "text"); ("/x", Other 3)]%string /\
  snd (ex_write A (fst (ex_write W None d)) [("/new", Other 4); ("/x", Other 5); ("/y", Other 6)]%string) = false /\
  ex_read (fst (ex_write A (fst (ex_write W None d)) [("/new", Other 4); ("/x", Other 5); ("/y", Other 6)]%string))
    = Some [("/a/b/d1", Other 1); ("/a/c", Str "text"); ("/x", Other 3); ("/new", Other 4)]%string.
Proof.
  cbv zeta. split; [|vm_compute; repeat split].
  split; [repeat constructor; discriminate|].
  repeat constructor; intros [(r & E)|(r & E)]; vm_compute in E; discriminate.
Qed.

Print Assumptions C50_round_trip.
Print Assumptions C50_append.
Print Assumptions C50_append_only.
Print Assumptions C50_update.
Print Assumptions C50_bytes_refuted.
Print Assumptions C50_update_without_slash_refuted.
