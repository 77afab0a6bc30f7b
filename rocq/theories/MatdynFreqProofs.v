From Coq Require Import Ascii String List Arith ZArith Bool Lia DecimalString.
From Verif Require Import Comb CombProofs ArrayIO ArrayIOProofs Regex RegexProofs PdbProofs CifProofs MatdynFreq MatdynFreqSpec.
Import ListNotations.
Local Open Scope list_scope.
Local Open Scope nat_scope.
Local Notation length := List.length.

(** ** Matching forward *)
Lemma seq_m {A} x y s c (k : pstr -> caps -> option A) : m (Seq x y) s c k = m x s c (fun s c => m y s c k).
Proof. reflexivity. Qed.
Lemma star_some {A} p u s c (k : pstr -> caps -> option A) v : all p u -> stops p s -> k s c = Some v -> m (Star (Chr p)) (u ++ s) c k = Some v.
Proof. intros H S K. rewrite star_class by assumption. now apply longest_some. Qed.
Lemma plus_some {A} p u s c (k : pstr -> caps -> option A) v : u <> [] -> all p u -> stops p s -> k s c = Some v -> m (Plus (Chr p)) (u ++ s) c k = Some v.
Proof. destruct u as [|a u]; [congruence|]. intros _ H S K. cbn [app]. rewrite plus_class by assumption. now apply longest_some. Qed.
Lemma group_some {A} n p u s c (k : pstr -> caps -> option A) v : u <> [] -> all p u -> stops p s -> k s ((n, u) :: c) = Some v -> m (Group n (Plus (Chr p))) (u ++ s) c k = Some v.
Proof. intros NE H S K. change (m (Plus (Chr p)) (u ++ s) c (fun s' c' => k s' ((n, firstn (length (u ++ s) - length s') (u ++ s)) :: c')) = Some v). apply plus_some; try assumption. now rewrite taken. Qed.
Lemma uint_digits d : all digit (list_ascii_of_string (NilZero.string_of_uint d)).
Proof.
  assert (G : forall d, all digit (list_ascii_of_string (NilEmpty.string_of_uint d))) by (induction d0; cbn; constructor; auto).
  destruct d as [|d|d|d|d|d|d|d|d|d|d]; [constructor; [reflexivity|constructor]|exact (G (Decimal.D0 d))|exact (G (Decimal.D1 d))|exact (G (Decimal.D2 d))|exact (G (Decimal.D3 d))|exact (G (Decimal.D4 d))|exact (G (Decimal.D5 d))|exact (G (Decimal.D6 d))|exact (G (Decimal.D7 d))|exact (G (Decimal.D8 d))|exact (G (Decimal.D9 d))].
Qed.
Lemma nat_digits n : all digit (show_int (Z.of_nat n)).
Proof. unfold show_int, text. destruct n as [|n]; [repeat constructor|]. cbn [Z.of_nat Z.to_int]. apply uint_digits. Qed.
(** ** The header *)
Lemma inline_space g : inline_blank g -> all is_space g.
Proof. intros H. apply Forall_forall. intros c I. now apply H. Qed.
Lemma inline_dot g : inline_blank g -> all not_nl g.
Proof. intros H. apply Forall_forall. intros c I. unfold not_nl. destruct (Ascii.eqb_spec c "010") as [-> |]; [|reflexivity]. now destruct (H _ I). Qed.
Lemma digit_stop n s : stops is_space (show_int (Z.of_nat n) ++ s).
Proof. apply stops_app; [apply show_nonempty|]. apply (stops_first digit); [exact digit_no_space|apply nat_digits|apply show_nonempty]. Qed.
Lemma blank_stop g s : all is_space g -> stops digit s -> stops digit (g ++ s).
Proof. destruct g as [|c g]; [auto|]. intros H _. cbn. apply Forall_inv in H. destruct (digit c) eqn:E; [|reflexivity]. apply digit_no_space in E. congruence. Qed.
Lemma no_b g : all is_space g -> ~ In "b"%char g.
Proof. intros H I. unfold all in H. rewrite Forall_forall in H. now apply H in I. Qed.
Lemma no_b_digit n : ~ In "b"%char (show_int (Z.of_nat n)).
Proof. intros I. pose proof (nat_digits n) as H. unfold all in H. rewrite Forall_forall in H. now apply H in I. Qed.
Lemma header_read h nbnd nks : header_line h nbnd nks -> read_header h = Some (nbnd, nks).
Proof.
  intros (pre & b & g1 & g2 & g3 & g4 & g5 & g6 & g7 & post & -> & NP & Hb & H1 & H2 & H3 & H4 & H5 & H6 & H7 & HP).
  set (body := g1 ++ text "=" ++ g2 ++ show_int (Z.of_nat nbnd) ++ g3 ++ text "," ++ g4 ++ text "nks" ++ g5 ++ text "=" ++ g6 ++ show_int (Z.of_nat nks) ++ g7 ++ text "/").
  assert (EB : forall q, g1 ++ text "=" ++ g2 ++ show_int (Z.of_nat nbnd) ++ g3 ++ text "," ++ g4 ++ text "nks" ++ g5 ++ text "=" ++ g6 ++ show_int (Z.of_nat nks) ++ g7 ++ text "/" ++ q = body ++ q) by (intros q; unfold body; now rewrite <- !app_assoc).
  rewrite EB. destruct (run_split not_nl post) as (p1 & p2 & -> & D1 & S2).
  assert (BB : ~ In "b"%char (body ++ p1 ++ p2)).
  { intros I. repeat (apply in_app_or in I as [I|I]); try (now apply no_b in I; [|now apply inline_space]); try (now apply no_b_digit in I); try (repeat (destruct I as [I|I]; [discriminate|]); exact I).
    - assert (P : is_space "b" = true) by (apply HP; apply in_or_app; now left). discriminate P.
    - assert (P : is_space "b" = true) by (apply HP; apply in_or_app; now right). discriminate P. }
  assert (BD : all not_nl body).
  { unfold body. repeat (apply Forall_app; split); try (now apply inline_dot); try (repeat constructor); eapply all_imp; try apply nat_digits; apply imp_cases; reflexivity. }
  set (tl_re := Seq (Lit (text "nbnd")) (Seq gaps (Seq (Lit (text "=")) (Seq gaps (Seq (Group 1 (Plus (Chr digit))) (Seq gaps (Seq (Lit (text ",")) (Seq gaps (Seq (Lit (text "nks")) (Seq gaps (Seq (Lit (text "=")) (Seq gaps (Seq (Group 2 (Plus (Chr digit))) (Seq gaps (Lit (text "/")))))))))))))))).
  assert (HH : re_match header_re (pre ++ b :: text "nbnd" ++ body ++ p1 ++ p2) = Some (p1 ++ p2, [(2, show_int (Z.of_nat nks)); (1, show_int (Z.of_nat nbnd))])).
  { unfold re_match. change header_re with (Seq (Star (Chr not_nl)) (Seq (Plus (Chr is_space)) tl_re)).
    change (m (Star (Chr not_nl)) (pre ++ b :: text "nbnd" ++ body ++ p1 ++ p2) [] (fun s c => m (Seq (Plus (Chr is_space)) tl_re) s c (fun s c => Some (s, c))) = Some (p1 ++ p2, [(2, show_int (Z.of_nat nks)); (1, show_int (Z.of_nat nbnd))])).
    replace (pre ++ b :: text "nbnd" ++ body ++ p1 ++ p2) with ((pre ++ b :: text "nbnd" ++ body ++ p1) ++ p2) by (rewrite <- !app_assoc; cbn [app]; now rewrite <- !app_assoc).
    rewrite star_class; [|apply Forall_app; split; [apply Forall_forall; intros c I; unfold not_nl; destruct (Ascii.eqb_spec c "010") as [-> |]; [now apply NP in I|reflexivity]|]; constructor; [exact (Forall_inv (inline_dot [b] Hb))|]; apply Forall_app; split; [repeat constructor|]; apply Forall_app; now split|exact S2].
    rewrite longest_app. change (b :: text "nbnd" ++ body ++ p1) with ([b] ++ text "nbnd" ++ body ++ p1). cbn [app]. cbn [longest].
    match goal with |- orelse (orelse (longest ?u ?s ?f) _) _ = _ => assert (LN : longest u s f = None) end.
    { apply longest_none. intros u1 u2 E. match goal with |- ?x = None => destruct x as [v|] eqn:V; [exfalso|reflexivity] end.
      change (m (Plus (Chr is_space)) (u2 ++ p2) [] (fun s c => m tl_re s c (fun s c => Some (s, c))) = Some v) in V. apply plus_inv in V as (w & t & EW & NW & AW & V).
      destruct (is_prefix (text "nbnd") t) eqn:PT.
      - apply is_prefix_spec in PT as [z ->]. assert (X : u1 ++ w ++ text "nbnd" ++ z = text "nbnd" ++ body ++ p1 ++ p2) by (rewrite <- EW, app_assoc, <- E; now rewrite <- !app_assoc).
        apply (f_equal (fun l => nth_error l (length (u1 ++ w) + 1))) in X. rewrite app_assoc in X. rewrite nth_error_app2 in X by lia. replace (length (u1 ++ w) + 1 - length (u1 ++ w)) with 1 in X by lia. cbn [text list_ascii_of_string app nth_error] in X.
        assert (P : 1 <= length (u1 ++ w)) by (rewrite app_length; destruct w; [congruence|cbn; lia]). destruct (length (u1 ++ w)) as [|q]; [lia|]. rewrite Nat.add_1_r in X. cbn [nth_error] in X.
        destruct q as [|[|q]]; cbn [nth_error] in X; try discriminate X. apply BB. symmetry in X. now apply nth_error_In in X.
      - change (m (Lit (text "nbnd")) t [] (fun s c => m (match tl_re with Seq _ y => y | x => x end) s c (fun s c => Some (s, c))) = Some v) in V. rewrite lit_fail in V by (assumption || discriminate). discriminate V. }
    rewrite LN. cbn [orelse].
    match goal with |- orelse ?x _ = _ => assert (XX : x = Some (p1 ++ p2, [(2, show_int (Z.of_nat nks)); (1, show_int (Z.of_nat nbnd))])) end; [|now rewrite XX].
    match goal with |- m (Seq _ _) ?s _ _ = _ => replace s with ([b] ++ text "nbnd" ++ body ++ p1 ++ p2) by (cbn [app]; now rewrite <- !app_assoc) end.
    change (m (Plus (Chr is_space)) ([b] ++ text "nbnd" ++ body ++ p1 ++ p2) [] (fun s c => m tl_re s c (fun s c => Some (s, c))) = Some (p1 ++ p2, [(2, show_int (Z.of_nat nks)); (1, show_int (Z.of_nat nbnd))])).
    apply plus_some; [discriminate|now apply inline_space|reflexivity|]. unfold tl_re, body, gaps. rewrite <- !app_assoc.
    rewrite seq_m, lit_match by discriminate. rewrite seq_m. apply star_some; [now apply inline_space|reflexivity|].
    rewrite seq_m, lit_match by discriminate. rewrite seq_m. apply star_some; [now apply inline_space|apply digit_stop|].
    rewrite seq_m. apply group_some; [apply show_nonempty|apply nat_digits|apply blank_stop; [now apply inline_space|reflexivity]|].
    rewrite seq_m. apply star_some; [now apply inline_space|reflexivity|]. rewrite seq_m, lit_match by discriminate. rewrite seq_m. apply star_some; [now apply inline_space|reflexivity|].
    rewrite seq_m, lit_match by discriminate. rewrite seq_m. apply star_some; [now apply inline_space|reflexivity|].
    rewrite seq_m, lit_match by discriminate. rewrite seq_m. apply star_some; [now apply inline_space|apply digit_stop|].
    rewrite seq_m. apply group_some; [apply show_nonempty|apply nat_digits|apply blank_stop; [now apply inline_space|reflexivity]|].
    rewrite seq_m. apply star_some; [now apply inline_space|reflexivity|]. now rewrite lit_match by discriminate. }
  unfold read_header. rewrite HH. cbn [group find fst snd option_map Nat.eqb]. change (group 1 [(2, ?x); (1, ?y)]) with (Some y). change (group 2 [(2, ?x); (1, ?y)]) with (Some x). rewrite !read_show. now rewrite !Nat2Z.id.
Qed.
(** ** The words *)
Lemma split_at s c t : forall acc, is_space c = true -> split_ws acc (s ++ c :: t) = split_ws acc s ++ split_ws [] t.
Proof.
  induction s as [|a s IH]; intros acc C; cbn [app split_ws]; [rewrite C; now destruct acc|]. destruct (is_space a); [destruct acc|]; cbn [app]; rewrite IH by exact C; reflexivity.
Qed.
Lemma split_join ls : split_ws [] (join (text " ") ls) = words_of ls.
Proof.
  induction ls as [|l ls IH]; [reflexivity|]. destruct ls as [|l' ls]; [unfold words_of; cbn [join map concat]; now rewrite app_nil_r|].
  change (join (text " ") (l :: l' :: ls)) with (l ++ " "%char :: join (text " ") (l' :: ls)). rewrite split_at by reflexivity. now rewrite IH.
Qed.
(** ** The rows *)
Section Fill.
Context {A : Type} (items : list A) (nbnd nks : nat).
Let step := 3 + nbnd.
Definition kq i := row items (i * step) (i * step + 3).
Definition fq i := row items (i * step + 3) (i * step + step).
Definition rows (f : nat -> list A) (i : nat) : list (option (list A)) := map (fun j => Some (f j)) (seq 0 i) ++ repeat None (nks - i).
Lemma set_rows f i : i < nks -> set_row (rows f i) i (f i) = Some (rows f (S i)).
Proof.
  intros L. unfold set_row, rows. rewrite app_length, map_length, seq_length, repeat_length. destruct (Nat.ltb_spec i (i + (nks - i))); [|lia]. f_equal.
  replace (nks - i) with (S (nks - S i)) by lia. cbn [repeat]. assert (LM : length (map (fun j => Some (f j)) (seq 0 i)) = i) by now rewrite map_length, seq_length.
  rewrite firstn_app, LM, Nat.sub_diag. cbn [firstn]. rewrite <- LM at 1. rewrite firstn_all, app_nil_r. rewrite skipn_app, LM. rewrite skipn_all2 by lia. replace (S i - i) with 1 by lia. cbn [skipn app].
  rewrite seq_S, map_app. cbn [map]. rewrite <- app_assoc. reflexivity.
Qed.
Lemma set_over f i : nks <= i -> set_row (rows f nks) i (f i) = None.
Proof. intros L. unfold set_row, rows. rewrite app_length, map_length, seq_length, repeat_length. destruct (Nat.ltb_spec i (nks + (nks - nks))); [lia|reflexivity]. Qed.
Lemma fill_rows n : forall i, i + n <= nks -> fill_all items step (seq i n) (rows kq i, rows fq i) = Some (rows kq (i + n), rows fq (i + n)).
Proof.
  induction n as [|n IH]; intros i L; [now rewrite Nat.add_0_r|]. cbn [seq fill_all]. unfold fill. cbn [fst snd]. fold (kq i). fold (fq i). rewrite !set_rows by lia. rewrite IH by lia. now rewrite Nat.add_succ_r.
Qed.
Lemma fill_over n : nks < n -> fill_all items step (seq 0 n) (rows kq 0, rows fq 0) = None.
Proof.
  intros L. assert (E : seq 0 n = seq 0 nks ++ nks :: seq (S nks) (n - S nks)) by (replace n with (nks + S (n - S nks)) at 1 by lia; rewrite seq_app; reflexivity). rewrite E.
  assert (G : forall is js st, fill_all items step (is ++ js) st = match fill_all items step is st with Some st => fill_all items step js st | None => None end).
  { induction is as [|i is IH]; intros js st; [reflexivity|]. cbn [app fill_all]. destruct (fill items step i st); [apply IH|reflexivity]. }
  rewrite G, (fill_rows nks 0) by lia. cbn [Nat.add fill_all]. unfold fill. cbn [fst snd]. fold (kq nks). now rewrite set_over by lia.
Qed.
End Fill.
