(** Lemmas for P_PwStart.v *)
From Coq Require Import Ascii String List Arith Bool Reals ZArith Lia.
From Verif Require Import Comb CombProofs Template TemplateProofs TemplateSpec ArrayIO ArrayIOProofs Grep GrepProofs Regex RegexProofs CifProofs PdbProofs MatdynFreqProofs Lammps LammpsProofs PwOut PwOutSpec PwOutProofs PwStart PwStartSpec.
Import ListNotations.
Local Open Scope list_scope.
Local Open Scope nat_scope.
Local Notation length := List.length.

Lemma in_order_texts ws : forall l, in_order ws l = true <-> texts_in_order ws l.
Proof.
  intros l. rewrite order_iff. revert l. induction ws as [|w ws IH]; intros l; [reflexivity|]. split.
  - intros (p & t & -> & C). exists p, t. split; [reflexivity|now apply IH].
  - intros (p & t & -> & C). exists p, t. split; [reflexivity|now apply IH].
Qed.
Lemma site_iff l : site_head l = true <-> site_title l. Proof. apply in_order_texts. Qed.
Lemma axes_iff l : axes_head l = true <-> axes_title l.
Proof. unfold axes_head, axes_title. now rewrite orb_true_iff, !in_order_texts. Qed.
(** ** grep -m1 -A and tail *)
Lemma m1_table {A} p title (row : pstr -> A -> Prop) rows lines n : (forall l, p l = true <-> title l) -> table title row rows lines -> n = length rows ->
  exists body, Forall2 row body rows /\ tail n (m1_after n p lines) = body.
Proof.
  intros P (a & t & body & b & -> & T & NT & F) ->. exists body. split; [exact F|]. assert (L := f2_len F).
  assert (M : m1_after (length rows) p (a ++ t :: body ++ b) = t :: body).
  { induction a as [|x a IH]; cbn [app m1_after].
    - rewrite (proj2 (P t) T). f_equal. rewrite <- L. rewrite firstn_app, Nat.sub_diag, firstn_all. cbn [firstn]. apply app_nil_r.
    - destruct (p x) eqn:E; [apply P in E; exfalso; apply (NT x); [now left|exact E]|]. apply IH. intros l I. apply NT. now right. }
  unfold tail. rewrite M. cbn [length]. rewrite <- L. now replace (S (length body) - length body) with 1 by lia.
Qed.
Lemma m1_broken {A} p title (row : pstr -> A -> Prop) rows t lines n : (forall l, p l = true <-> title l) -> broken_table title row rows t lines -> length rows < n ->
  exists body, Forall2 row body rows /\ tail n (m1_after n p lines) = t :: body.
Proof.
  intros P (a & body & -> & T & NT & F) LT. exists body. split; [exact F|]. assert (L := f2_len F).
  assert (M : m1_after n p (a ++ t :: body) = t :: body).
  { induction a as [|x a IH]; cbn [app m1_after].
    - rewrite (proj2 (P t) T). f_equal. apply firstn_all2. lia.
    - destruct (p x) eqn:E; [apply P in E; exfalso; apply (NT x); [now left|exact E]|]. apply IH. intros l I. apply NT. now right. }
  unfold tail. rewrite M. cbn [length]. now replace (S (length body) - n) with 0 by lia.
Qed.
Lemma m1_none p lines n : (forall l, In l lines -> p l = false) -> m1_after n p lines = [].
Proof. induction lines as [|l lines IH]; intros H; [reflexivity|]. cbn [m1_after]. rewrite H by now left. apply IH. intros x I. apply H. now right. Qed.
(** ** sed *)
Lemma split_trail t : all is_space t -> forall s acc, split_ws acc (s ++ t) = split_ws acc s.
Proof.
  intros T s. induction s as [|c s IH]; intros acc.
  - cbn [app]. induction T as [|c t H _ IHt] in acc |- *; [reflexivity|]. cbn [split_ws]. rewrite H. destruct acc as [|a acc]; [apply IHt|]. rewrite IHt. reflexivity.
  - cbn [app split_ws]. destruct (is_space c); [destruct acc; now rewrite IH|apply IH].
Qed.
Lemma no_prefix1 a (q : pstr) : ~ In a q -> forall u1 u2, u1 <> [] -> [a] ++ q = u1 ++ u2 -> is_prefix [a] u2 = false.
Proof.
  intros N u1 u2 NE E. destruct u1 as [|x u1]; [congruence|]. cbn in E. injection E as _ E. destruct (is_prefix [a] u2) eqn:P; [|reflexivity]. apply is_prefix_spec in P as [z ->]. exfalso. apply N. rewrite E. apply in_or_app. right. now left.
Qed.
Lemma sed_paren p inner t : no_bracket inner -> (forall c, In c t -> c = " "%char) -> sed_1 paren_re (p ++ text "(" ++ inner ++ text ")" ++ t) = inner ++ t.
Proof.
  intros NB T. unfold sed_1, re_match.
  assert (NT : forall c, In c t -> c <> "("%char /\ c <> ")"%char) by (intros c I; rewrite (T c I); split; discriminate).
  assert (H : m paren_re (p ++ text "(" ++ inner ++ text ")" ++ t) [] (fun s c => Some (s, c)) = Some (t, [(1, inner)])).
  { unfold paren_re. apply dots_last; [discriminate| |].
    - apply (no_prefix1 "("%char). intros I. apply in_app_or in I as [I|I]; [now apply NB in I|]. destruct I as [I|I]; [discriminate I|now apply NT in I].
    - rewrite seq_m. set (s := inner ++ text ")" ++ t).
      change (m dots s [] (fun s' c' => m (Lit (text ")")) s' ((1, firstn (length s - length s') s) :: c') (fun s c => Some (s, c))) = Some (t, [(1, inner)])).
      rewrite dots_m. set (f := fun s0 => m (Lit (text ")")) s0 [(1, firstn (length s - length s0) s)] (fun s c => Some (s, c))).
      assert (V : f (text ")" ++ t) = Some (t, [(1, inner)])).
      { unfold f. rewrite lit_match by discriminate. do 2 f_equal. f_equal. f_equal. unfold s. apply taken. }
      unfold s at 1. rewrite longest_app. cbn [app text list_ascii_of_string longest]. rewrite (longest_none t).
      + cbn [orelse]. rewrite app_nil_r. change (f (text ")" ++ t)) with (f (")"%char :: t)) in V. etransitivity; [apply (f_equal (fun z => orelse z _)); exact V|reflexivity].
      + intros u1 u2 ->. rewrite app_nil_r. unfold f. apply lit_fail; [discriminate|]. destruct (is_prefix (text ")") u2) eqn:P; [|exact P]. apply is_prefix_spec in P as [z ->]. exfalso. apply (NT ")"%char); [rewrite in_app_iff; right; now left|reflexivity]. }
  rewrite H. cbn. reflexivity.
Qed.
Lemma points_last (q : pstr) : ~ with_text (text "points=") q -> forall u1 u2, u1 <> [] -> text "points=" ++ q = u1 ++ u2 -> is_prefix (text "points=") u2 = false.
Proof.
  intros N u1 u2 NE E. destruct (is_prefix (text "points=") u2) eqn:P; [exfalso|reflexivity]. apply is_prefix_spec in P as [z ->].
  destruct u1 as [|a1 u1]; [congruence|]. injection E as <- E.
  destruct u1 as [|a1 u1]; [discriminate E|]. injection E as <- E.
  destruct u1 as [|a1 u1]; [discriminate E|]. injection E as <- E.
  destruct u1 as [|a1 u1]; [discriminate E|]. injection E as <- E.
  destruct u1 as [|a1 u1]; [discriminate E|]. injection E as <- E.
  destruct u1 as [|a1 u1]; [discriminate E|]. injection E as <- E.
  destruct u1 as [|a1 u1]; [discriminate E|]. injection E as <- E.
  apply N. exists u1, z. exact E.
Qed.
Lemma digits_not_p n : forall c, In c (show_int (Z.of_nat n)) -> c <> "p"%char.
Proof. intros c I ->. pose proof (nat_digits n) as F. unfold all in F. rewrite Forall_forall in F. now apply F in I. Qed.
(** a text that begins with p is not in a sequence that has no p *)
Lemma text_behind (w a b : pstr) : (forall c, In c a -> Some c <> hd_error w) -> w <> [] -> with_text w (a ++ b) -> with_text w b.
Proof.
  intros N NE (u & v & E). revert a N E. induction u as [|x u IH]; intros a N E.
  - destruct a as [|y a]; [exists [], v; exact E|]. destruct w as [|z w]; [congruence|]. cbn in E. injection E as -> _. exfalso. now apply (N z (or_introl eq_refl)).
  - destruct a as [|y a]; [exists (x :: u), v; exact E|]. cbn in E. injection E as _ E. apply (IH a); [intros c I; apply N; now right|exact E].
Qed.
Lemma span_blank t : exists g t', t = g ++ t' /\ all is_space g /\ stops is_space t'.
Proof. induction t as [|c t (g & t' & -> & G & S)]; [exists [], []; repeat split; constructor|]. destruct (is_space c) eqn:E; [exists (c :: g), t'; repeat split; [constructor; assumption|exact S]|exists [], (c :: g ++ t'); repeat split; [constructor|exact E]]. Qed.
Lemma sed_points p g n t : (forall c, In c g -> c = " "%char) -> match t with [] => True | c :: _ => c = " "%char end -> ~ with_text (text "points=") t ->
  sed_1 points_re (p ++ text "points=" ++ g ++ show_int (Z.of_nat n) ++ t) = show_int (Z.of_nat n).
Proof.
  intros G T NT. unfold sed_1, re_match.
  assert (H : m points_re (p ++ text "points=" ++ g ++ show_int (Z.of_nat n) ++ t) [] (fun s c => Some (s, c)) = Some ([], [(1, show_int (Z.of_nat n))])).
  { unfold points_re. apply dots_last; [discriminate| |].
    - apply points_last. intros X. rewrite app_assoc in X. apply text_behind in X; [now apply NT in X| |discriminate]. intros c I. apply in_app_or in I as [I|I]; cbn; [rewrite (G c I); discriminate|]. apply digits_not_p in I. congruence.
    - rewrite seq_m. apply star_some; [now apply blank_space|apply digit_stop|]. rewrite seq_m. apply group_some; [apply show_nonempty|apply nat_digits|destruct t as [|c t]; [exact I|cbn in T |- *; now rewrite T]|].
      rewrite seq_m.
      destruct (span_blank t) as (g' & t' & -> & G' & S'). apply star_some; [exact G'|exact S'|]. rewrite dots_m. now apply longest_some. }
  rewrite H. cbn. apply app_nil_r.
Qed.

(** a text with a letter that comes only there *)
Lemma letter_last w k a q : nth_error w k = Some a -> (forall j, j <> k -> nth_error w j <> Some a) -> ~ In a q -> forall u1 u2, u1 <> [] -> w ++ q = u1 ++ u2 -> is_prefix w u2 = false.
Proof.
  intros K U N u1 u2 NE E. destruct (is_prefix w u2) eqn:P; [exfalso|reflexivity]. apply is_prefix_spec in P as [z ->].
  assert (L : k < length w) by (apply nth_error_Some; congruence).
  assert (Q : nth_error (u1 ++ w ++ z) (length u1 + k) = Some a) by (rewrite nth_error_app2 by lia; replace (length u1 + k - length u1) with k by lia; rewrite nth_error_app1 by exact L; exact K).
  rewrite <- E in Q. assert (0 < length u1) by (destruct u1; [congruence|cbn; lia]). destruct (le_lt_dec (length w) (length u1 + k)) as [B|B].
  - rewrite nth_error_app2 in Q by exact B. apply N. exact (nth_error_In _ _ Q).
  - rewrite nth_error_app1 in Q by exact B. apply (U (length u1 + k)); [lia|exact Q].
Qed.
Lemma numeric_float x : (forall c, In c x -> In c (text "0123456789.")) -> all float_char x.
Proof. intros H. apply Forall_forall. intros c I. apply H in I. cbn in I. repeat (destruct I as [<-|I]; [reflexivity|]). contradiction. Qed.
Lemma numeric_not x a : (forall c, In c x -> In c (text "0123456789.")) -> existsb (Ascii.eqb a) (text "0123456789.") = false -> ~ In a x.
Proof. intros H E I. apply H in I. assert (T : existsb (Ascii.eqb a) (text "0123456789.") = true) by (apply existsb_exists; exists a; split; [exact I|apply Ascii.eqb_refl]). congruence. Qed.
Lemma numeric_word x : (forall c, In c x -> In c (text "0123456789.")) -> Forall (fun c => is_space c = false) x.
Proof. intros H. apply Forall_forall. intros c I. apply H in I. cbn in I. repeat (destruct I as [<-|I]; [reflexivity|]). contradiction. Qed.
Lemma sed_temp p g1 g2 x g3 q : x <> [] -> (forall c, In c x -> In c (text "0123456789.")) -> (forall c, In c (g1 ++ g2 ++ g3 ++ q) -> c = " "%char) ->
  sed_1 temp_re (p ++ text "temperature" ++ g1 ++ text "=" ++ g2 ++ x ++ g3 ++ text "K" ++ q) = x ++ q.
Proof.
  intros NE X B.
  assert (B1 : forall c, In c g1 -> c = " "%char) by (intros c I; apply B; rewrite !in_app_iff; tauto).
  assert (B2 : forall c, In c g2 -> c = " "%char) by (intros c I; apply B; rewrite !in_app_iff; tauto).
  assert (B3 : forall c, In c g3 -> c = " "%char) by (intros c I; apply B; rewrite !in_app_iff; tauto).
  assert (B4 : forall c, In c q -> c = " "%char) by (intros c I; apply B; rewrite !in_app_iff; tauto).
  assert (NB : forall g a, (forall c, In c g -> c = " "%char) -> a <> " "%char -> ~ In a g) by (intros g a H N I; apply H in I; congruence).
  unfold sed_1, re_match.
  assert (H : m temp_re (p ++ text "temp" ++ (text "erature" ++ g1) ++ text "=" ++ g2 ++ x ++ g3 ++ text "K" ++ q) [] (fun s c => Some (s, c)) = Some (q, [(1, x)])).
  { unfold temp_re. apply dots_last; [discriminate| |].
    - apply (letter_last (text "temp") 2 "m"%char); [reflexivity|intros [|[|[|[|[|j]]]]] N; cbn; congruence|].
      rewrite !in_app_iff. intros [[I|I]|[I|[I|[I|[I|[I|I]]]]]]; try (revert I; apply NB; [assumption|discriminate]); try (cbv in I; intuition discriminate). revert I. now apply numeric_not.
    - apply dots_last; [discriminate| |].
      + apply eq_last. rewrite !in_app_iff. intros [I|[I|[I|[I|I]]]]; try (revert I; apply NB; [assumption|discriminate]); try (cbv in I; intuition discriminate). revert I. now apply numeric_not.
      + rewrite seq_m. apply star_some; [now apply blank_space|apply (stops_app is_space x); [exact NE|]; apply (stops_first float_char); [apply not_cases; reflexivity|now apply numeric_float|exact NE]|].
        rewrite seq_m. change (m (Group 1 float_re) ?s ?c ?k) with (m float_re s c (fun s' c' => k s' ((1, firstn (length s - length s') s) :: c'))).
        apply float_match; [exact NE|now apply numeric_float|destruct g3 as [|c g3]; [reflexivity|cbn; now rewrite (B3 c (or_introl eq_refl))]|]. rewrite taken. rewrite seq_m. apply star_some; [now apply blank_space|reflexivity|]. now rewrite lit_match by discriminate. }
  replace (p ++ text "temperature" ++ g1 ++ text "=" ++ g2 ++ x ++ g3 ++ text "K" ++ q) with (p ++ text "temp" ++ (text "erature" ++ g1) ++ text "=" ++ g2 ++ x ++ g3 ++ text "K" ++ q) by (rewrite <- !app_assoc; reflexivity).
  rewrite H. cbn. reflexivity.
Qed.
Lemma sed_step p g1 g2 x g3 t : blanks g1 -> blanks g2 -> blanks g3 -> x <> [] -> (forall c, In c x -> In c (text "0123456789.")) -> (forall c, In c t -> ~ In c (text "apu")) ->
  sed_1 step_re (p ++ text "step" ++ g1 ++ text "=" ++ g2 ++ x ++ g3 ++ text "a.u." ++ t) = x ++ g3.
Proof.
  intros [N1 B1] [N2 B2] [N3 B3] NE X T.
  assert (NB : forall g a, (forall c, In c g -> c = " "%char) -> a <> " "%char -> ~ In a g) by (intros g a H N I; apply H in I; congruence).
  unfold sed_1, re_match.
  assert (H : m step_re (p ++ text "step" ++ g1 ++ text "=" ++ g2 ++ x ++ g3 ++ text "a.u." ++ t) [] (fun s c => Some (s, c)) = Some ([], [(1, x ++ g3)])).
  { unfold step_re. apply dots_last; [discriminate| |].
    - apply (letter_last (text "step") 3 "p"%char); [reflexivity|intros [|[|[|[|[|j]]]]] N; cbn; congruence|].
      rewrite !in_app_iff. intros [I|[I|[I|[I|[I|[I|I]]]]]]; try (revert I; apply NB; [assumption|discriminate]); try (cbv in I; intuition discriminate); [revert I; now apply numeric_not|]. apply T in I. apply I. cbn. tauto.
    - rewrite seq_m. apply plus_some; [exact N1|now apply blank_space|reflexivity|]. rewrite seq_m, lit_match by discriminate.
      rewrite seq_m. apply plus_some; [exact N2|now apply blank_space|apply (stops_app is_space x); [exact NE|]; apply (stops_first float_char); [apply not_cases; reflexivity|now apply numeric_float|exact NE]|].
      rewrite seq_m. set (s := x ++ g3 ++ text "a.u." ++ t). set (r := Seq (Lit (text "a")) (Seq (Chr any) (Seq (Lit (text "u")) (Seq (Chr any) dots)))).
      change (m dots s [] (fun s' c' => m r s' ((1, firstn (length s - length s') s) :: c') (fun s c => Some (s, c))) = Some ([], [(1, x ++ g3)])).
      rewrite dots_m.
      set (f := fun s0 => m r s0 [(1, firstn (length s - length s0) s)] (fun s c => Some (s, c))).
      assert (V : f (text "a.u." ++ t) = Some ([], [(1, x ++ g3)])).
      { unfold f, r. replace (firstn (length s - length (text "a.u." ++ t)) s) with (x ++ g3) by (unfold s; rewrite (app_assoc x); symmetry; apply taken).
        change (text "a.u." ++ t) with (text "a" ++ (text ".u." ++ t)). rewrite seq_m, lit_match by discriminate. rewrite seq_m. cbn [m text list_ascii_of_string app any].
        change (m (Seq (Lit (text "u")) (Seq (Chr any) dots)) (text "u" ++ (text "." ++ t)) [(1, x ++ g3)] (fun s c => Some (s, c)) = Some ([], [(1, x ++ g3)])).
        rewrite seq_m, lit_match by discriminate. rewrite seq_m. cbn [m text list_ascii_of_string app any]. change (m dots t [(1, x ++ g3)] (fun s c => Some (s, c)) = Some ([], [(1, x ++ g3)])). rewrite dots_m. now apply longest_some. }
      assert (FA : forall s0, ~ In "a"%char s0 -> f s0 = None).
      { intros s0 N. unfold f, r. rewrite seq_m. apply lit_fail; [discriminate|]. destruct (is_prefix (text "a") s0) eqn:P; [|reflexivity]. apply is_prefix_spec in P as [z ->]. exfalso. apply N. now left. }
      change (longest s [] f = Some ([], [(1, x ++ g3)])). clearbody f. unfold s. replace (x ++ g3 ++ text "a.u." ++ t) with ((x ++ g3) ++ text "a.u." ++ t) by now rewrite <- app_assoc. rewrite longest_app.
      replace (longest (text "a.u." ++ t) [] f) with (@Some (pstr * caps) ([], [(1, x ++ g3)])); [reflexivity|].
      symmetry. change (text "a.u." ++ t) with ("a"%char :: (text ".u." ++ t)) in V |- *. cbn [longest]. rewrite (longest_none (text ".u." ++ t)).
      + rewrite app_nil_r. cbn [orelse]. exact V.
      + intros u1 u2 E. rewrite app_nil_r. apply FA. intros I. assert (J : In "a"%char (text ".u." ++ t)) by (rewrite E, in_app_iff; now right). apply in_app_or in J as [J|J]; [cbv in J; intuition discriminate|]. apply T in J. apply J. now left. }
  rewrite H. cbn. apply app_nil_r.
Qed.
