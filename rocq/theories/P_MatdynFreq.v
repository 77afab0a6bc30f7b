(** C83: frequency files of matdyn.x. *)
From Coq Require Import Ascii String List Arith ZArith Bool Lia.
From Verif Require Import Comb CombProofs ArrayIO ArrayIOProofs Regex RegexProofs Decimal P_Decimal MatdynFreq MatdynFreqSpec MatdynFreqProofs.
Import ListNotations.
Local Open Scope list_scope.
Local Open Scope nat_scope.
Local Notation length := List.length.

Lemma skip_skip {A} (l : list A) : forall a b, skipn a (skipn b l) = skipn (b + a) l.
Proof. induction l as [|x l IH]; intros a b; [now rewrite !skipn_nil|]. destruct b; [reflexivity|]. cbn [skipn Nat.add]. apply IH. Qed.
Lemma firstn_split {A} (l : list A) : forall a b, firstn (a + b) l = firstn a l ++ firstn b (skipn a l).
Proof. induction l as [|x l IH]; intros a b; [now rewrite skipn_nil, !firstn_nil|]. destruct a; [reflexivity|]. cbn [firstn skipn Nat.add app]. now rewrite IH. Qed.
Lemma ext_error {B} : forall (l l' : list B), (forall i, nth_error l i = nth_error l' i) -> l = l'.
Proof.
  induction l as [|x l IH]; intros [|y l'] H; [reflexivity|specialize (H 0); discriminate|specialize (H 0); discriminate|]. pose proof (H 0) as E. injection E as ->. f_equal. apply IH. intros i. exact (H (S i)).
Qed.
Lemma read_lines {A} (float : pstr -> option A) h rest nbnd nks items : header_line h nbnd nks -> opt_map float (words_of rest) = Some items ->
  read_matdyn_freq float (h :: rest) = fill_all items (3 + nbnd) (seq 0 (length items / (3 + nbnd))) (rows nks (kq items nbnd) 0, rows nks (fq items nbnd) 0).
Proof. intros H E. unfold read_matdyn_freq. rewrite (header_read h nbnd nks H), split_join, E. unfold rows. now rewrite Nat.sub_0_r. Qed.
(** Whatever the number of words: complete points, the rest uninitialised; too many points raise. *)
Theorem C83_rows {A} (float : pstr -> option A) h rest nbnd nks items : header_line h nbnd nks -> opt_map float (words_of rest) = Some items ->
  let n := length items / (3 + nbnd) in
  (nks < n -> read_matdyn_freq float (h :: rest) = None) /\
  (n <= nks -> exists ks fs, read_matdyn_freq float (h :: rest) = Some (ks, fs) /\ length ks = nks /\ length fs = nks /\
     (forall i, i < n -> exists k f, nth_error ks i = Some (Some k) /\ nth_error fs i = Some (Some f) /\ length k = 3 /\ length f = nbnd /\ firstn (3 + nbnd) (skipn (i * (3 + nbnd)) items) = k ++ f) /\
     (forall i, n <= i < nks -> nth_error ks i = Some None /\ nth_error fs i = Some None)).
Proof.
  intros H E n. rewrite (read_lines float h rest nbnd nks items H E). fold n. split; intros L; [now apply fill_over|]. rewrite (fill_rows items nbnd nks n 0) by lia. cbn [Nat.add].
  eexists _, _. split; [reflexivity|]. assert (LE : forall f : nat -> list A, length (rows nks f n) = nks) by (intros f; unfold rows; rewrite app_length, map_length, seq_length, repeat_length; lia).
  split; [apply LE|]. split; [apply LE|]. split.
  - intros i I. exists (kq items nbnd i), (fq items nbnd i).
    assert (G : forall f : nat -> list A, nth_error (rows nks f n) i = Some (Some (f i))).
    { intros f. unfold rows. rewrite nth_error_app1 by (rewrite map_length, seq_length; exact I). rewrite nth_error_map. rewrite (nth_error_nth' _ 0) by now rewrite seq_length. rewrite seq_nth by exact I. reflexivity. }
    split; [apply G|]. split; [apply G|]. unfold kq, fq, row. set (st := 3 + nbnd) in *. assert (B : i * st + st <= length items).
    { pose proof (Nat.div_mod_eq (length items) st) as DM. fold n in DM. nia. }
    replace (i * st + 3 - i * st) with 3 by lia. replace (i * st + st - (i * st + 3)) with nbnd by (unfold st; lia).
    split; [rewrite firstn_length, skipn_length; unfold st in *; lia|]. split; [rewrite firstn_length, skipn_length; unfold st in *; lia|].
    replace (skipn (i * st + 3) items) with (skipn 3 (skipn (i * st) items)) by apply skip_skip. apply (firstn_split (skipn (i * st) items) 3 nbnd).
  - intros i I. assert (G : forall f : nat -> list A, nth_error (rows nks f n) i = Some None).
    { intros f. unfold rows. rewrite nth_error_app2 by (rewrite map_length, seq_length; lia). rewrite map_length, seq_length. apply nth_error_repeat. lia. }
    split; apply G.
Qed.
(** A file with all the points announced is read in full, whatever its line breaks. *)
Theorem C83_complete {A} (float : pstr -> option A) h rest nbnd pts items : header_line h nbnd (length pts) -> opt_map float (words_of rest) = Some items -> points nbnd pts items ->
  read_matdyn_freq float (h :: rest) = Some (map (fun p => Some (fst p)) pts, map (fun p => Some (snd p)) pts).
Proof.
  intros H E [F ->]. assert (LI : length (concat (map (fun kf : list A * list A => fst kf ++ snd kf) pts)) = length pts * (3 + nbnd)).
  { clear -F. induction F as [|p pts [A1 A2] F IH]; [reflexivity|]. cbn [map concat length]. rewrite !app_length, IH. lia. }
  rewrite (read_lines float h rest nbnd (length pts) _ H E). rewrite LI, Nat.div_mul by lia. rewrite (fill_rows _ nbnd (length pts) (length pts) 0) by lia. cbn [Nat.add]. unfold rows. rewrite Nat.sub_diag. cbn [repeat]. rewrite !app_nil_r. clear H E LI.
  set (items := concat (map (fun kf : list A * list A => fst kf ++ snd kf) pts)).
  assert (G : forall i p, nth_error pts i = Some p -> exists t, skipn (i * (3 + nbnd)) items = (fst p ++ snd p) ++ t /\ length (fst p) = 3 /\ length (snd p) = nbnd).
  { unfold items. clear items. induction F as [|q pts [A1 A2] F IH]; intros [|i] p Hp; try discriminate; cbn [nth_error] in Hp.
    - injection Hp as ->. cbn [map concat skipn Nat.mul]. eexists. split; [reflexivity|]. auto.
    - destruct (IH i p Hp) as (t & SK & B). exists t. split; [|exact B]. rewrite <- SK. cbn [map concat]. replace (S i * (3 + nbnd)) with (length (fst q ++ snd q) + i * (3 + nbnd)) by (rewrite app_length; lia). rewrite skipn_app. rewrite skipn_all2 by lia. cbn [app]. f_equal. lia. }
  assert (M : forall (sel : list A * list A -> list A) (f : nat -> list A), (forall i p, nth_error pts i = Some p -> f i = sel p) -> map (fun j => Some (f j)) (seq 0 (length pts)) = map (fun p => Some (sel p)) pts).
  { intros sel f Hf. apply ext_error. intros i. rewrite !nth_error_map. destruct (nth_error pts i) as [p|] eqn:Ep.
    - assert (I : i < length pts) by (apply nth_error_Some; congruence). rewrite (nth_error_nth' _ 0) by now rewrite seq_length. rewrite seq_nth by exact I. cbn [option_map Nat.add]. now rewrite (Hf i p Ep).
    - apply nth_error_None in Ep. replace (nth_error (seq 0 (length pts)) i) with (@None nat); [reflexivity|]. symmetry. apply nth_error_None. now rewrite seq_length. }
  f_equal. f_equal.
  - apply (M (@fst _ _)). intros i p Hp. destruct (G i p Hp) as (t & SK & L1 & L2). unfold kq, row. rewrite SK. replace (i * (3 + nbnd) + 3 - i * (3 + nbnd)) with 3 by lia. rewrite <- app_assoc. rewrite <- L1. rewrite firstn_app, firstn_all, Nat.sub_diag. cbn [firstn]. apply app_nil_r.
  - apply (M (@snd _ _)). intros i p Hp. destruct (G i p Hp) as (t & SK & L1 & L2). unfold fq, row. replace (i * (3 + nbnd) + (3 + nbnd) - (i * (3 + nbnd) + 3)) with nbnd by lia.
    replace (skipn (i * (3 + nbnd) + 3) items) with (skipn 3 (skipn (i * (3 + nbnd)) items)) by apply skip_skip. rewrite SK, <- app_assoc. rewrite <- L1 at 1. rewrite skipn_app, skipn_all, Nat.sub_diag. cbn [app skipn].
    rewrite <- L2. rewrite firstn_app, firstn_all, Nat.sub_diag. cbn [firstn]. apply app_nil_r.
Qed.
(** Fewer points than announced: no error, the rows left are whatever was in memory. *)
Theorem C83_truncated_refuted {A} (float : pstr -> option A) h rest nbnd nks items : header_line h nbnd nks -> opt_map float (words_of rest) = Some items -> length items < nks * (3 + nbnd) ->
  exists ks fs i, read_matdyn_freq float (h :: rest) = Some (ks, fs) /\ i < nks /\ nth_error ks i = Some None /\ nth_error fs i = Some None.
Proof.
  intros H E L. assert (D : length items / (3 + nbnd) < nks) by (apply Nat.div_lt_upper_bound; lia). destruct (C83_rows float h rest nbnd nks items H E) as [_ [ks (fs & R & _ & _ & _ & U)]]; [lia|].
  exists ks, fs, (length items / (3 + nbnd)). destruct (U (length items / (3 + nbnd))) as [U1 U2]; [lia|]. auto.
Qed.
(** A full point too many raises, part of a point is ignored. *)
Theorem C83_excess {A} (float : pstr -> option A) h rest nbnd nks items : header_line h nbnd nks -> opt_map float (words_of rest) = Some items -> (nks + 1) * (3 + nbnd) <= length items ->
  read_matdyn_freq float (h :: rest) = None.
Proof. intros H E L. apply (C83_rows float h rest nbnd nks items H E). assert (nks + 1 <= length items / (3 + nbnd)); [|lia]. apply Nat.div_le_lower_bound; lia. Qed.
Theorem C83_leftover {A} (float : pstr -> option A) h h' rest rest' nbnd nks items extra : header_line h nbnd nks -> header_line h' nbnd nks -> opt_map float (words_of rest) = Some items -> opt_map float (words_of rest') = Some (items ++ extra) ->
  length items = nks * (3 + nbnd) -> length extra < 3 + nbnd -> read_matdyn_freq float (h' :: rest') = read_matdyn_freq float (h :: rest).
Proof.
  intros H H' E E' L X. rewrite (read_lines float h rest nbnd nks items H E), (read_lines float h' rest' nbnd nks _ H' E'). rewrite app_length, L.
  rewrite Nat.div_mul by lia. replace ((nks * (3 + nbnd) + length extra) / (3 + nbnd)) with nks by (symmetry; rewrite Nat.add_comm, Nat.div_add by lia; rewrite Nat.div_small by lia; reflexivity).
  rewrite !(fill_rows _ nbnd nks nks 0) by lia. cbn [Nat.add]. unfold rows. f_equal. f_equal; f_equal; apply map_ext_in; intros j J; apply in_seq in J; f_equal; unfold kq, fq, row.
  - rewrite skipn_app, firstn_app, skipn_length. replace (j * (3 + nbnd) + 3 - j * (3 + nbnd) - (length items - j * (3 + nbnd))) with 0 by nia. cbn [firstn]. apply app_nil_r.
  - rewrite skipn_app, firstn_app, skipn_length. replace (j * (3 + nbnd) + (3 + nbnd) - (j * (3 + nbnd) + 3) - (length items - (j * (3 + nbnd) + 3))) with 0 by nia. cbn [firstn]. apply app_nil_r.
Qed.
(** A word which is no number, such as two numbers printed without a blank in between, raises. *)
Theorem C83_unreadable {A} (float : pstr -> option A) h rest nbnd nks w : header_line h nbnd nks -> In w (words_of rest) -> float w = None -> read_matdyn_freq float (h :: rest) = None.
Proof.
  intros H I W. unfold read_matdyn_freq. rewrite (header_read h nbnd nks H), split_join. replace (opt_map float (words_of rest)) with (@None (list A)); [reflexivity|]. symmetry. clear -I W. induction (words_of rest) as [|x l IH]; [easy|].
  cbn [opt_map]. destruct I as [->|I]; [now rewrite W|]. rewrite IH by exact I. now destruct (float x).
Qed.
Example C83_case : header_line (text "&plot nbnd=   2, nks=   2 /") 2 2 /\
  let rest := [text "  0 0 0"; text " 15 25"; text "  5 0 -2"; text " 35"; text " 45"] in
  exists items, opt_map read_int (words_of rest) = Some items /\ length items = 10 /\ read_float (text "-0.037500-0.037500") = None /\ read_float (text "871.5931********") = None /\
  (exists pts, length pts = 2 /\ points 2 pts items /\ read_matdyn_freq read_int (text "&plot nbnd=   2, nks=   2 /" :: rest) = Some (map (fun p => Some (fst p)) pts, map (fun p => Some (snd p)) pts)) /\
  length (firstn 9 items) < 2 * (3 + 2).
Proof.
  assert (H : header_line (text "&plot nbnd=   2, nks=   2 /") 2 2).
  { exists (text "&plot"), " "%char, [], (text "   "), [], (text " "), [], (text "   "), (text " "), []. split; [reflexivity|].
    assert (B : forall g, forallb (fun c => is_space c && negb (Ascii.eqb c "010")) g = true -> inline_blank g).
    { intros g F c C. apply forallb_forall with (x := c) in F; [|exact C]. apply andb_true_iff in F as [F1 F2]. split; [exact F1|]. intros ->. discriminate F2. }
    split; [intros I; cbn in I; repeat (destruct I as [I|I]; [discriminate I|]); exact I|]. repeat (split; [apply B; reflexivity|]). intros c []. }
  split; [exact H|]. intros rest. eexists. split; [vm_compute; reflexivity|]. split; [reflexivity|]. split; [vm_compute; reflexivity|]. split; [vm_compute; reflexivity|]. split; [|cbn; lia].
  eexists [(_ :: _ :: _ :: nil, _ :: _ :: nil); (_ :: _ :: _ :: nil, _ :: _ :: nil)]. split; [reflexivity|]. split; [split; [repeat constructor|reflexivity]|]. vm_compute. reflexivity.
Qed.
Print Assumptions C83_rows.
Print Assumptions C83_complete.
Print Assumptions C83_truncated_refuted.
Print Assumptions C83_excess.
Print Assumptions C83_leftover.
Print Assumptions C83_unreadable.
