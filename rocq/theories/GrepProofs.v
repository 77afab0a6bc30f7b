From Coq Require Import Ascii String List Arith Bool Lia ZArith DecimalString.
From Verif Require Import Comb CombProofs Template ArrayIO ArrayIOProofs Grep.
Import ListNotations.
Local Open Scope list_scope.
Local Notation length := List.length.
Lemma prefix_sep c : forall pat s b, ~ In c pat -> is_prefix pat (s ++ c :: b) = is_prefix pat s.
Proof.
  induction pat as [|x pat IH]; intros s b N; [reflexivity|]. destruct s as [|y s]; cbn.
  - destruct (Ascii.eqb_spec x c); [exfalso; apply N; now left|reflexivity].
  - rewrite IH; [reflexivity|]. intros I. apply N. now right.
Qed.
Lemma contains_sep c pat : ~ In c pat -> pat <> [] -> forall a b, contains pat (a ++ c :: b) = contains pat a || contains pat b.
Proof.
  intros N P. induction a as [|x a IH]; intros b.
  - cbn [app contains]. pose proof (prefix_sep c pat [] b N) as E. cbn [app] in E. rewrite E. destruct pat; [congruence|]. reflexivity.
  - cbn [app contains]. rewrite IH. pose proof (prefix_sep c pat (x :: a) b N) as E. cbn [app] in E. rewrite E. now rewrite orb_assoc.
Qed.
Lemma contains_join pat items : ~ In " "%char pat -> pat <> [] -> Forall (fun w => contains pat w = false) items ->
  contains pat (join (text " ") items) = false.
Proof.
  intros N P. induction 1 as [|x xs Hx H IH]; [destruct pat; [congruence|reflexivity]|]. destruct xs as [|y ys]; [exact Hx|].
  change (join (text " ") (x :: y :: ys)) with (x ++ " "%char :: join (text " ") (y :: ys)). rewrite contains_sep by assumption.
  now rewrite Hx, IH.
Qed.
Lemma prefix_more p q : forall s, is_prefix (p ++ q) s = true -> is_prefix p s = true.
Proof.
  induction p; intros s H; [reflexivity|]. destruct s; [discriminate|]. cbn in *. apply andb_true_iff in H. destruct H as [A B].
  rewrite A. cbn. now apply IHp.
Qed.
Lemma contains_more p q : forall s, contains p s = false -> contains (p ++ q) s = false.
Proof.
  induction s as [|c s IH]; cbn; intros H; apply orb_false_iff in H; destruct H as [A B].
  - rewrite orb_false_r. destruct (is_prefix (p ++ q) []) eqn:E; [|reflexivity]. apply prefix_more in E. congruence.
  - rewrite (IH B), orb_false_r. destruct (is_prefix (p ++ q) (c :: s)) eqn:E; [|reflexivity]. apply prefix_more in E. congruence.
Qed.
Lemma prefix_in p : forall s c, is_prefix (c :: p) s = true -> In c s.
Proof. destruct s; cbn; intros c H; [discriminate|]. apply andb_true_iff in H. destruct H as [A _]. apply Ascii.eqb_eq in A. now left. Qed.
Lemma contains_first c p : forall s, ~ In c s -> contains (c :: p) s = false.
Proof.
  induction s as [|x s IH]; intros N; [reflexivity|]. cbn [contains]. rewrite IH by (intros I; apply N; now right).
  rewrite orb_false_r. destruct (is_prefix (c :: p) (x :: s)) eqn:E; [|reflexivity]. apply prefix_in in E. contradiction.
Qed.
Lemma contains_prefix p : forall s, is_prefix p s = true -> contains p s = true.
Proof. destruct s; cbn [contains]; intros ->; reflexivity. Qed.
Lemma contains_not_prefix p s : contains p s = false -> is_prefix p s = false.
Proof. destruct (is_prefix p s) eqn:E; [|reflexivity]. apply contains_prefix in E. congruence. Qed.
(** Integers contain digits and a sign only. *)
Definition plain_char (c : ascii) : Prop := c <> "I"%char /\ c <> "T"%char.
Lemma uint_plain d : Forall plain_char (list_ascii_of_string (NilEmpty.string_of_uint d)).
Proof. induction d; cbn; constructor; try assumption; split; discriminate. Qed.
Lemma nz_plain d : Forall plain_char (list_ascii_of_string (NilZero.string_of_uint d)).
Proof. destruct d; try apply uint_plain. cbn. constructor; [split; discriminate|constructor]. Qed.
Lemma show_plain z : Forall plain_char (show_int z).
Proof. unfold show_int, text. destruct (Z.to_int z); cbn; [apply nz_plain|]. constructor; [split; discriminate|apply nz_plain]. Qed.
Lemma show_no_item z : contains (text "ITEM") (show_int z) = false.
Proof. apply contains_first. intros I. pose proof (show_plain z) as H. rewrite Forall_forall in H. destruct (H _ I) as [A _]. now apply A. Qed.
Lemma split_plain items : Forall (fun x => x <> [] /\ Forall (fun a => is_space a = false) x) items -> split_ws [] (join (text " ") items) = items.
Proof. intros H. assert (E := str2seq_seq2str_default items H). injection E as E. exact E. Qed.
(** grep -A n PAT | egrep -v: the kept lines among the n lines behind each match. *)
Section AFTER.
  Variables (n : nat) (pat : pstr) (keep : pstr -> bool).
  Hypothesis dashes : keep ["-"; "-"]%char = false.
  Hypothesis marks : forall l, contains pat l = true -> keep l = false.
  Fixpoint behind (k : nat) (lines : list pstr) : list pstr :=
    match lines with
    | [] => []
    | l :: rest => if contains pat l then behind n rest
                   else match k with S k' => (if keep l then [l] else []) ++ behind k' rest | O => behind O rest end
    end.
  Lemma grep_behind : forall lines k old gap, List.filter keep (grep_A n pat k old gap lines) = behind k lines.
  Proof.
    induction lines as [|l lines IH]; intros k old gap; [reflexivity|]. cbn [grep_A behind]. destruct (contains pat l) eqn:E.
    - rewrite filter_app. cbn [List.filter]. rewrite (marks l E), IH.
      destruct (old && gap); cbn [List.filter app]; [rewrite dashes|]; reflexivity.
    - destruct k; [apply IH|]. cbn [List.filter]. rewrite IH. destruct (keep l); reflexivity.
  Qed.
  Lemma behind_skip : forall pre rest, Forall (fun l => contains pat l = false) pre -> behind 0 (pre ++ rest) = behind 0 rest.
  Proof. induction 1 as [|l pre H _ IH]; [reflexivity|]. cbn [app behind]. rewrite H. exact IH. Qed.
  Lemma behind_take : forall ls rest, Forall (fun l => contains pat l = false /\ keep l = true) ls ->
    behind (length ls) (ls ++ rest) = ls ++ behind 0 rest.
  Proof. induction 1 as [|l ls [H K] _ IH]; [reflexivity|]. cbn [app behind length]. rewrite H, K. cbn [app]. now rewrite IH. Qed.
  Lemma behind_take_k k ls rest : k = length ls -> Forall (fun l => contains pat l = false /\ keep l = true) ls ->
    behind k (ls ++ rest) = ls ++ behind 0 rest.
  Proof. intros ->. apply behind_take. Qed.
  Lemma behind_mark l rest k : contains pat l = true -> behind k (l :: rest) = behind n rest.
  Proof. intros H. cbn [behind]. now rewrite H. Qed.
End AFTER.
(** grep -c, -m1 *)
Lemma grep_c_app pat a b : grep_c pat (a ++ b) = grep_c pat a + grep_c pat b.
Proof. unfold grep_c. now rewrite filter_app, app_length. Qed.
Lemma grep_c_none pat ls : Forall (fun l => contains pat l = false) ls -> grep_c pat ls = 0.
Proof. unfold grep_c. induction 1 as [|l ls H _ IH]; [reflexivity|]. cbn. now rewrite H. Qed.
Lemma grep_m1_skip pat pre rest : Forall (fun l => contains pat l = false) pre -> grep_m1 pat (pre ++ rest) = grep_m1 pat rest.
Proof. unfold grep_m1. induction 1 as [|l ls H _ IH]; [reflexivity|]. cbn. rewrite H. exact IH. Qed.
(** sed 's/.*KEY//' *)
Lemma after_last_none key : forall s, contains key s = false -> after_last key s = None.
Proof.
  induction s as [|c s IH]; cbn [contains after_last]; intros H; apply orb_false_iff in H; destruct H as [A B]; [now rewrite A|].
  now rewrite IH, A.
Qed.
Lemma after_last_more key r : forall p s, after_last key s = Some r -> after_last key (p ++ s) = Some r.
Proof. induction p as [|c p IH]; intros s H; [exact H|]. cbn [app after_last]. now rewrite IH. Qed.
(** reading rows of words *)
Lemma opt_map_app {A B} (f : A -> option B) : forall a b x y, opt_map f a = Some x -> opt_map f b = Some y -> opt_map f (a ++ b) = Some (x ++ y).
Proof.
  induction a; intros b x y Ha Hb; cbn in *; [injection Ha as <-; exact Hb|]. destruct (f a); [|discriminate].
  destruct (opt_map f a0) eqn:E; [|discriminate]. injection Ha as <-. now rewrite (IHa b l y eq_refl Hb).
Qed.
