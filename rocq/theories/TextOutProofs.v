From Coq Require Import Ascii String List Bool Arith ZArith Reals Lia Lra.
From Flocq Require Import Core BinarySingleNaN.
From Verif Require Import Comb CombProofs ArrayIO ArrayIOProofs Decimal TextOut TextOutSpec.
Import ListNotations.
Local Open Scope list_scope.
Local Open Scope nat_scope.
Local Notation length := List.length.

(** ** Lines *)
Lemma lines_cons l t : one_line l -> lines (l ++ nl ++ t) = l :: lines t.
Proof.
  unfold one_line. induction l as [|c l IH]; intros H; [reflexivity|]. cbn [app lines]. rewrite IH by (intros I; apply H; now right).
  destruct (Ascii.eqb_spec c "010") as [-> |_]; [exfalso; apply H; now left|reflexivity].
Qed.
Lemma lines_one l : one_line l -> lines l = [l].
Proof.
  unfold one_line. induction l as [|c l IH]; intros H; [reflexivity|]. cbn [lines]. rewrite IH by (intros I; apply H; now right).
  destruct (Ascii.eqb_spec c "010") as [-> |_]; [exfalso; apply H; now left|reflexivity].
Qed.
Lemma lines_many ls t : Forall one_line ls -> lines (concat (map (fun l => l ++ nl) ls) ++ t) = ls ++ lines t.
Proof. induction 1 as [|l ls H _ IH]; [reflexivity|]. cbn [map concat app]. rewrite <- !app_assoc. rewrite lines_cons by exact H. now rewrite IH. Qed.
Lemma join_many ls : ls <> [] -> join nl ls ++ nl = concat (map (fun l => l ++ nl) ls).
Proof.
  induction ls as [|l ls IH]; [congruence|]. intros _. destruct ls as [|l' ls]; [cbn [join map concat]; now rewrite app_nil_r|].
  change (join nl (l :: l' :: ls)) with (l ++ nl ++ join nl (l' :: ls)). cbn [map concat]. rewrite <- !app_assoc. f_equal. f_equal. rewrite IH by discriminate. cbn [map concat]. now rewrite <- app_assoc.
Qed.
Lemma lines_join ls : ls <> [] -> Forall one_line ls -> lines (join nl ls) = ls.
Proof.
  intros NE F. induction F as [|l ls H F IH]; [congruence|]. destruct ls as [|l' ls]; [now apply lines_one|].
  change (join nl (l :: l' :: ls)) with (l ++ nl ++ join nl (l' :: ls)). rewrite lines_cons by exact H. f_equal. apply IH. discriminate.
Qed.
(** ** Words *)
Lemma word_plain w : word w -> Forall (fun a => is_space a = false) w.
Proof. intros [_ H]. apply Forall_forall. exact H. Qed.
Lemma split_words d ws : gap d -> Forall word ws -> split_ws [] (join d ws) = ws.
Proof.
  intros (ND & B & _) F. induction F as [|w ws W F IH]; [reflexivity|]. destruct ws as [|w' ws].
  - cbn [join]. apply split_ws_last; [now apply word_plain|exact (proj1 W)].
  - change (join d (w :: w' :: ws)) with (w ++ d ++ join d (w' :: ws)). destruct d as [|c d]; [congruence|]. cbn [app].
    rewrite split_ws_item; [|now apply word_plain|apply B; now left|exact (proj1 W)]. cbn [app]. f_equal. rewrite split_ws_blank; [exact IH|]. apply Forall_forall. intros a Ha. apply B. now right.
Qed.
Lemma word_line w : word w -> one_line w.
Proof. intros [_ H] I. specialize (H _ I). discriminate. Qed.
Lemma one_app a b : one_line a -> one_line b -> one_line (a ++ b).
Proof. intros A B I. apply in_app_or in I as [I|I]; auto. Qed.
Lemma one_join d ws : one_line d -> Forall one_line ws -> one_line (join d ws).
Proof.
  intros D F. induction F as [|w ws W F IH]; [intros []|]. destruct ws as [|w' ws]; [exact W|]. change (join d (w :: w' :: ws)) with (w ++ d ++ join d (w' :: ws)). auto using one_app.
Qed.
Lemma show_word z : word (show_int z).
Proof. split; [apply show_nonempty|]. intros c H. pose proof (show_chars z) as F. rewrite Forall_forall in F. apply F. exact H. Qed.
(** ** Numbers *)
Lemma row_words f d row : prints f -> gap d -> split_ws [] (join d (map f row)) = map f row.
Proof. intros P G. apply split_words; [exact G|]. apply Forall_forall. intros w H. apply in_map_iff in H as (v & <- & _). apply P. Qed.
Lemma row_numbers f row : prints f -> numbers (map f row) row.
Proof. intros P. unfold numbers. induction row as [|v row IH]; constructor; [apply P|exact IH]. Qed.
Lemma row_line f d row : prints f -> gap d -> number_line (join d (map f row)) row.
Proof. intros P G. unfold number_line. rewrite row_words by assumption. now apply row_numbers. Qed.
Lemma row_one f d row : prints f -> gap d -> one_line (join d (map f row)).
Proof. intros P G. apply one_join; [apply G|]. apply Forall_forall. intros w H. apply in_map_iff in H as (v & <- & _). apply word_line, P. Qed.
Lemma atom_words f d s row : prints f -> gap d -> word s -> atom_line (join d (s :: map f row)) (s, row).
Proof.
  intros P G W. exists (map f row). cbn [fst snd]. split; [|now apply row_numbers]. rewrite split_words; [reflexivity|exact G|]. constructor; [exact W|]. apply Forall_forall. intros w H. apply in_map_iff in H as (v & <- & _). apply P.
Qed.
Lemma atom_one f d s row : prints f -> gap d -> word s -> one_line (join d (s :: map f row)).
Proof. intros P G W. apply one_join; [apply G|]. constructor; [now apply word_line|]. apply Forall_forall. intros w H. apply in_map_iff in H as (v & <- & _). apply word_line, P. Qed.
Lemma gap_four : gap four. Proof. split; [discriminate|]. split; [|intros H; repeat (destruct H as [H|H]; [discriminate|]); exact H]. intros c H. repeat (destruct H as [<- |H]; [reflexivity|]). destruct H. Qed.
Lemma gap_two : gap (text "  "). Proof. split; [discriminate|]. split; [|intros H; repeat (destruct H as [H|H]; [discriminate|]); exact H]. intros c H. repeat (destruct H as [<- |H]; [reflexivity|]). destruct H. Qed.
Lemma gap_blank : gap (text " "). Proof. split; [discriminate|]. split; [|intros H; repeat (destruct H as [H|H]; [discriminate|]); exact H]. intros c H. repeat (destruct H as [<- |H]; [reflexivity|]). destruct H. Qed.

(** ** Fast positions *)
Definition fast_line (str : float64 -> pstr) (sr : pstr * list float64) : pstr := join (text "  ") (u32 (fst sr) :: map (fun v => u32 (str v)) (snd sr)).
Lemma u32_id s : length s <= 32 -> u32 s = s.
Proof. apply firstn_all2. Qed.
Lemma exact_prints str : exact str 32 -> prints (fun v => u32 (str v)).
Proof. intros E v. destruct (E v) as (W & R & L). rewrite u32_id by exact L. now split. Qed.
Lemma fast_text str symbols coords : length symbols = length coords ->
  atpos_str_fast str symbols coords = Some (concat (map (fun l => l ++ nl) (map (fast_line str) (combine symbols coords)))).
Proof. intros L. unfold atpos_str_fast. rewrite L, Nat.eqb_refl. f_equal. f_equal. now rewrite map_map. Qed.
Lemma fast_lines str symbols coords : exact str 32 -> Forall short_word symbols ->
  Forall one_line (map (fast_line str) (combine symbols coords)) /\ Forall2 atom_line (map (fast_line str) (combine symbols coords)) (combine symbols coords).
Proof.
  intros E F. revert coords. induction F as [|s symbols [W L] F IH]; intros [|row coords]; try (split; constructor).
  - cbn [fst snd]. unfold fast_line. cbn [fst snd]. rewrite u32_id by exact L. apply (atom_one (fun v => u32 (str v))); auto using exact_prints, gap_two.
  - apply IH.
  - unfold fast_line. cbn [fst snd]. rewrite u32_id by exact L. apply (atom_words (fun v => u32 (str v))); auto using exact_prints, gap_two.
  - apply IH.
Qed.
