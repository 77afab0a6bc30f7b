From Coq Require Import Ascii String List Arith Bool Lia ZArith Reals Lra.
From Verif Require Import Comb CombProofs Template ArrayIO ArrayIOProofs Grep GrepProofs Vec3 Lammps LammpsSpec.
Import ListNotations.
Local Open Scope list_scope.
Local Open Scope nat_scope.
Local Notation length := List.length.
Lemma f2_len {A B} {P : A -> B -> Prop} {l m} : Forall2 P l m -> length l = length m.
Proof. induction 1; cbn; congruence. Qed.
Lemma pstr_eqb_eq a b : pstr_eqb a b = true -> a = b.
Proof. unfold pstr_eqb. destruct (list_eq_dec _ a b); [easy|discriminate]. Qed.
Lemma pstr_eqb_refl a : pstr_eqb a a = true.
Proof. unfold pstr_eqb. destruct (list_eq_dec _ a a); [easy|congruence]. Qed.
Section L.
Variable parse : pstr -> option R.
Lemma f2_words rows data : Forall2 (Forall2 (shows parse)) rows data -> Forall (Forall plain) rows.
Proof. induction 1 as [|r d rows data H _ IH]; constructor; [|exact IH]. induction H as [|t x r d [H _] _ IH2]; constructor; assumption. Qed.
Lemma plain_split ws : Forall plain ws -> split_ws [] (join sp ws) = ws.
Proof. intros H. apply split_plain. eapply Forall_impl; [|exact H]. intros w (A & B & _). now split. Qed.
Lemma opt_shows r d : Forall2 (shows parse) r d -> opt_map parse r = Some d.
Proof. induction 1 as [|t x r d [_ P] _ IH]; [reflexivity|]. cbn. now rewrite P, IH. Qed.
Lemma fromstring_rows rows data : Forall2 (Forall2 (shows parse)) rows data -> fromstring parse (map (join sp) rows) = Some (concat data).
Proof.
  intros H. unfold fromstring. pose proof (f2_words _ _ H) as W. induction H as [|r d rows data H _ IH]; [reflexivity|].
  inversion W; subst. cbn [map concat]. rewrite plain_split by assumption. apply opt_map_app; [now apply opt_shows|now apply IH].
Qed.
(** chunks *)
Lemma chunk_concat {A} b : forall (rows : list (list A)), Forall (fun r => length r = b) rows -> chunk b (length rows) (concat rows) = rows.
Proof.
  induction 1 as [|r rows H _ IH]; [reflexivity|]. cbn [length chunk concat]. rewrite <- H at 1.
  rewrite firstn_app, firstn_all, Nat.sub_diag. cbn [firstn]. rewrite app_nil_r. f_equal.
  rewrite <- H at 2. rewrite skipn_app, skipn_all, Nat.sub_diag. cbn [skipn app]. exact IH.
Qed.
Lemma concat_length b {A} (rows : list (list A)) : Forall (fun r => length r = b) rows -> length (concat rows) = length rows * b.
Proof. induction 1 as [|r rows H _ IH]; [reflexivity|]. cbn [concat length]. rewrite app_length, IH, H. lia. Qed.
Lemma reshape_concat {A} b (rows : list (list A)) : Forall (fun r => length r = b) rows -> reshape (length rows) b (concat rows) = Some rows.
Proof. intros H. unfold reshape. rewrite (concat_length b) by exact H. rewrite Nat.eqb_refl. f_equal. now apply chunk_concat. Qed.
(** Lines *)
Definition item := text "ITEM".
Definition keep (l : pstr) : bool := negb (existsb (fun p => contains p l) s_junk).
Lemma egrep_keep ls : egrep_v s_junk ls = List.filter keep ls.
Proof. reflexivity. Qed.
Lemma keep_dashes : keep ["-"; "-"]%char = false. Proof. reflexivity. Qed.
Lemma mark_item pat q l : pat = item ++ q -> contains pat l = true -> keep l = false.
Proof.
  intros -> H. unfold keep, s_junk. cbn [existsb]. destruct (contains item l) eqn:E.
  - unfold item in E. rewrite E. rewrite orb_true_r. reflexivity.
  - apply (contains_more _ q) in E. congruence.
Qed.
Lemma row_item r : Forall plain r -> contains item (join sp r) = false /\ keep (join sp r) = true.
Proof.
  intros H.
  assert (A : contains item (join sp r) = false).
  { apply contains_join; [cbn; intros K; repeat destruct K as [K|K]; try discriminate K; exact K|discriminate|].
    eapply Forall_impl; [|exact H]. now intros w (_ & _ & _ & ? & _). }
  assert (B : contains (text "--") (join sp r) = false).
  { apply contains_join; [cbn; intros K; repeat destruct K as [K|K]; try discriminate K; exact K|discriminate|].
    eapply Forall_impl; [|exact H]. now intros w (_ & _ & ? & _). }
  split; [exact A|]. unfold keep, s_junk. cbn [existsb]. unfold item in A. now rewrite A, B.
Qed.
Lemma rows_item rows : Forall (Forall plain) rows -> Forall (fun l => contains item l = false /\ keep l = true) (map (join sp) rows).
Proof. induction 1 as [|r rows H _ IH]; constructor; [now apply row_item|exact IH]. Qed.
Lemma rows_pat pat q rows : pat = item ++ q -> Forall (Forall plain) rows -> Forall (fun l => contains pat l = false /\ keep l = true) (map (join sp) rows).
Proof. intros -> H. eapply Forall_impl; [|apply rows_item, H]. intros l [A B]. split; [now apply contains_more|exact B]. Qed.
Lemma rows_nopat pat q rows : pat = item ++ q -> Forall (Forall plain) rows -> Forall (fun l => contains pat l = false) (map (join sp) rows).
Proof. intros E H. eapply Forall_impl; [|apply (rows_pat pat q rows E H)]. now intros l []. Qed.
Lemma item_head q t : contains item t = false -> contains (item ++ q) (item ++ t) = is_prefix q t.
Proof.
  intros H. change (item ++ t) with ("I" :: "T" :: "E" :: "M" :: t)%char. cbn [contains].
  rewrite (contains_more item q t H).
  change (item ++ q) with ("I" :: "T" :: "E" :: "M" :: q)%char. cbn [is_prefix]. cbn [Ascii.eqb Bool.eqb andb].
  now rewrite !orb_false_r.
Qed.
Definition atoms_line (cols : list pstr) : pstr := text "ITEM: ATOMS " ++ join sp cols.
Lemma atoms_tail cols : Forall plain cols -> contains item (text ": ATOMS " ++ join sp cols) = false.
Proof.
  intros H. change (text ": ATOMS " ++ join sp cols) with (text ": ATOMS" ++ " "%char :: join sp cols).
  rewrite contains_sep; [|cbn; intros K; repeat destruct K as [K|K]; try discriminate K; exact K|discriminate].
  rewrite (proj1 (row_item cols H)). reflexivity.
Qed.
Lemma atoms_line_pat cols q : Forall plain cols -> contains (item ++ q) (atoms_line cols) = is_prefix q (text ": ATOMS " ++ join sp cols).
Proof. intros H. change (atoms_line cols) with (item ++ (text ": ATOMS " ++ join sp cols)). now apply item_head, atoms_tail. Qed.
Lemma show_pat z q : contains (item ++ q) (show_int z) = false.
Proof. apply contains_more, show_no_item. Qed.
Definition box_ok (boxline : pstr) : Prop :=
  contains s_box boxline = true /\ contains s_timestep boxline = false /\ contains s_natoms boxline = false /\ contains s_atoms boxline = false.
Lemma triclinic_ok : box_ok triclinic. Proof. repeat split; reflexivity. Qed.
Lemma orthogonal_ok : box_ok orthogonal. Proof. repeat split; reflexivity. Qed.
Section DUMP.
  Variables (boxline : pstr) (cols : list pstr) (natoms : nat).
  Hypothesis BX : box_ok boxline.
  Hypothesis CO : Forall plain cols.
  Definition good (f : frame) : Prop := Forall (Forall plain) (boxtxt f) /\ Forall (Forall plain) (rows f) /\ length (boxtxt f) = 3 /\ length (rows f) = natoms.
  Lemma lines_split f : frame_lines boxline cols natoms f =
    [text "ITEM: TIMESTEP"; show_int (step f); text "ITEM: NUMBER OF ATOMS"; show_int (Z.of_nat natoms)] ++ boxline :: map (join sp) (boxtxt f) ++ atoms_line cols :: map (join sp) (rows f).
  Proof. reflexivity. Qed.
  Ltac simple_lines := repeat apply Forall_cons; try apply Forall_nil; try reflexivity; try (apply (show_pat _ (skipn 4 _))).
  Lemma behind_box f rest : good f -> behind 3 s_box keep 0 (frame_lines boxline cols natoms f ++ rest) = map (join sp) (boxtxt f) ++ behind 3 s_box keep 0 rest.
  Proof.
    intros (B & Rw & L & _). rewrite lines_split. rewrite <- app_assoc. rewrite behind_skip.
    2:{ repeat apply Forall_cons; try apply Forall_nil; try reflexivity; apply (show_pat _ (text ": BOX BOUNDS")). }
    cbn [app]. rewrite behind_mark by apply BX. rewrite <- app_assoc.
    rewrite behind_take_k; [|rewrite map_length; lia|apply (rows_pat s_box (text ": BOX BOUNDS")); [reflexivity|exact B]]. f_equal.
    cbn [app]. change (atoms_line cols :: map (join sp) (rows f) ++ rest) with ((atoms_line cols :: map (join sp) (rows f)) ++ rest). apply behind_skip.
    constructor; [apply (atoms_line_pat cols (text ": BOX BOUNDS") CO)|].
    now apply (rows_nopat s_box (text ": BOX BOUNDS")).
  Qed.
  Lemma behind_rows f rest : good f -> behind natoms s_atoms keep 0 (frame_lines boxline cols natoms f ++ rest) = map (join sp) (rows f) ++ behind natoms s_atoms keep 0 rest.
  Proof.
    intros (B & Rw & _ & L). rewrite lines_split.
    match goal with |- behind _ _ _ _ ((?a ++ ?x :: ?m ++ ?y :: ?r) ++ rest) = _ =>
      replace ((a ++ x :: m ++ y :: r) ++ rest) with ((a ++ x :: m) ++ y :: r ++ rest) by (rewrite <- !app_assoc; cbn [app]; rewrite <- !app_assoc; reflexivity) end.
    rewrite behind_skip.
    2:{ apply Forall_app. split.
        - repeat apply Forall_cons; try apply Forall_nil; try reflexivity; apply (show_pat _ (text ": ATOMS")).
        - constructor; [apply BX|]. now apply (rows_nopat s_atoms (text ": ATOMS")). }
    rewrite behind_mark by exact (atoms_line_pat cols (text ": ATOMS") CO).
    apply behind_take_k; [rewrite map_length; lia|]. now apply (rows_pat s_atoms (text ": ATOMS")).
  Qed.
  Lemma behind_dump_box fs : Forall good fs -> behind 3 s_box keep 0 (dump_lines boxline cols natoms fs) = map (join sp) (concat (map boxtxt fs)).
  Proof.
    induction 1 as [|f fs H _ IH]; [reflexivity|]. unfold dump_lines in *. cbn [map concat]. rewrite behind_box by exact H. rewrite IH, map_app. reflexivity.
  Qed.
  Lemma behind_dump_rows fs : Forall good fs -> behind natoms s_atoms keep 0 (dump_lines boxline cols natoms fs) = map (join sp) (concat (map rows fs)).
  Proof.
    induction 1 as [|f fs H _ IH]; [reflexivity|]. unfold dump_lines in *. cbn [map concat]. rewrite behind_rows by exact H. rewrite IH, map_app. reflexivity.
  Qed.
  Lemma count_box fs : Forall good fs -> grep_c s_box (dump_lines boxline cols natoms fs) = length fs.
  Proof.
    induction 1 as [|f fs (B & Rw & _) _ IH]; [reflexivity|]. unfold dump_lines in *. cbn [map concat length]. rewrite grep_c_app, IH.
    rewrite lines_split, grep_c_app, grep_c_none.
    2:{ repeat apply Forall_cons; try apply Forall_nil; try reflexivity; apply (show_pat _ (text ": BOX BOUNDS")). }
    change (boxline :: map (join sp) (boxtxt f) ++ atoms_line cols :: map (join sp) (rows f)) with
      ([boxline] ++ (map (join sp) (boxtxt f) ++ atoms_line cols :: map (join sp) (rows f))).
    rewrite grep_c_app. rewrite (grep_c_none _ (map (join sp) (boxtxt f) ++ _)).
    - unfold grep_c. cbn [List.filter]. destruct BX as [-> _]. reflexivity.
    - apply Forall_app. split; [now apply (rows_nopat s_box (text ": BOX BOUNDS"))|].
      constructor; [apply (atoms_line_pat cols (text ": BOX BOUNDS") CO)|]. now apply (rows_nopat s_box (text ": BOX BOUNDS")).
  Qed.
  Lemma count_steps fs : Forall good fs -> grep_c s_timestep (dump_lines boxline cols natoms fs) = length fs.
  Proof.
    induction 1 as [|f fs (B & Rw & _) _ IH]; [reflexivity|]. unfold dump_lines in *. cbn [map concat length]. rewrite grep_c_app, IH.
    rewrite lines_split.
    match goal with |- grep_c _ ([?a; ?b; ?c; ?d] ++ ?e) + _ = _ => change ([a; b; c; d] ++ e) with ([a] ++ ([b; c; d] ++ e)) end.
    rewrite grep_c_app, (grep_c_none _ (_ ++ _)); [reflexivity|].
    apply Forall_app. split.
    - repeat apply Forall_cons; try apply Forall_nil; try reflexivity; apply (show_pat _ (text ": TIMESTEP")).
    - constructor; [apply BX|]. apply Forall_app. split; [now apply (rows_nopat s_timestep (text ": TIMESTEP"))|].
      constructor; [apply (atoms_line_pat cols (text ": TIMESTEP") CO)|]. now apply (rows_nopat s_timestep (text ": TIMESTEP")).
  Qed.
  Lemma natoms_dump f fs : get_natoms (dump_lines boxline cols natoms (f :: fs)) = Some natoms.
  Proof.
    unfold get_natoms, dump_lines. cbn [map concat]. rewrite lines_split. cbn [app].
    change (grep_m1_after 1 s_natoms (text "ITEM: TIMESTEP" :: ?r)) with (grep_m1_after 1 s_natoms r).
    cbn [grep_m1_after]. replace (contains s_natoms (text "ITEM: TIMESTEP")) with false by reflexivity.
    replace (contains s_natoms (show_int (step f))) with false by (symmetry; apply (show_pat _ (text ": NUMBER OF ATOMS"))).
    replace (contains s_natoms (text "ITEM: NUMBER OF ATOMS")) with true by reflexivity.
    cbn [firstn rev app]. rewrite strip_solid by (apply word_ends, word_show).
    destruct (show_int (Z.of_nat natoms)) eqn:E; [now apply show_nonempty in E|]. rewrite <- E, read_show.
    destruct (Z.ltb_spec (Z.of_nat natoms) 0); [lia|]. now rewrite Nat2Z.id.
  Qed.
  Lemma header_dump f fs : good f -> concat (map (fun l => split_ws [] (sed_drop (text "TOMS ") l)) (grep_m1 s_atoms (dump_lines boxline cols natoms (f :: fs)))) = cols.
  Proof.
    intros (B & Rw & _). unfold dump_lines. cbn [map concat]. rewrite lines_split.
    match goal with |- context [grep_m1 _ ((?a ++ ?x :: ?m ++ ?y :: ?r) ++ ?rest)] =>
      replace ((a ++ x :: m ++ y :: r) ++ rest) with ((a ++ x :: m) ++ y :: r ++ rest) by (rewrite <- !app_assoc; cbn [app]; rewrite <- !app_assoc; reflexivity) end.
    rewrite grep_m1_skip.
    2:{ apply Forall_app. split.
        - repeat apply Forall_cons; try apply Forall_nil; try reflexivity; apply (show_pat _ (text ": ATOMS")).
        - constructor; [apply BX|]. now apply (rows_nopat s_atoms (text ": ATOMS")). }
    unfold grep_m1. cbn [find]. replace (contains s_atoms (atoms_line cols)) with true by (symmetry; exact (atoms_line_pat cols (text ": ATOMS") CO)).
    cbn [map concat]. rewrite app_nil_r. unfold sed_drop.
    assert (T : after_last (text "TOMS ") (atoms_line cols) = Some (join sp cols)).
    { change (atoms_line cols) with (text "ITEM: A" ++ ("T"%char :: (text "OMS" ++ " "%char :: join sp cols))). apply after_last_more. cbn [after_last].
      assert (N : contains (text "TOMS") (text "OMS" ++ " "%char :: join sp cols) = false).
      { rewrite contains_sep; [|cbn; intros K; repeat destruct K as [K|K]; try discriminate K; exact K|discriminate].
        replace (contains (text "TOMS") (text "OMS")) with false by reflexivity. cbn [orb].
        apply contains_join; [cbn; intros K; repeat destruct K as [K|K]; try discriminate K; exact K|discriminate|].
        eapply Forall_impl; [|exact CO]. now intros w (_ & _ & _ & _ & ?). }
      rewrite (after_last_none (text "TOMS ")) by (apply (contains_more (text "TOMS") [" "%char]), N). reflexivity. }
    rewrite T. now apply plain_split.
  Qed.
End DUMP.
(** ** Getters *)
Lemma shows_good cols natoms b data f : frame_shows parse cols natoms b data f -> good natoms f.
Proof.
  intros (B & LB & D & LD & _). repeat split.
  - exact (f2_words _ _ B).
  - exact (f2_words _ _ D).
  - rewrite (f2_len B). exact LB.
  - rewrite (f2_len D). exact LD.
Qed.
Lemma concat_f2 {A B} (P : A -> B -> Prop) xs ys : Forall2 (Forall2 P) xs ys -> Forall2 P (concat xs) (concat ys).
Proof. induction 1; [constructor|]. cbn. now apply Forall2_app. Qed.
Lemma concat_concat {A} (l : list (list (list A))) : concat (map (@concat A) l) = concat (concat l).
Proof. induction l; [reflexivity|]. cbn. now rewrite concat_app, IHl. Qed.
Section DATA.
  Variables (boxline : pstr) (cols : list pstr) (natoms : nat).
  Hypothesis BX : box_ok boxline.
  Hypothesis CO : Forall plain cols.
  Variables (bs : list (list (list R))) (ds : list (list (list R))) (fs : list frame).
  Hypothesis SH : Forall2 (fun bd f => frame_shows parse cols natoms (fst bd) (snd bd) f) (combine bs ds) fs.
  Hypothesis LE : length bs = length ds.
  Lemma goods : Forall (good natoms) fs.
  Proof. revert SH. generalize (combine bs ds). intros l H. clear -H. induction H as [|bd f l fs0 H _ IH]; [constructor|]. constructor; [exact (shows_good _ _ _ _ _ H)|exact IH]. Qed.
  Lemma boxes_f2 : Forall2 (Forall2 (Forall2 (shows parse))) (map boxtxt fs) bs.
  Proof.
    clear BX. revert ds fs SH LE. induction bs as [|b bs' IH]; intros [|d ds'] fs' S L; try discriminate; cbn in S; inversion S; subst; cbn; constructor.
    - apply H1.
    - eapply IH; [exact H3|]. cbn in L. lia.
  Qed.
  Lemma data_f2 : Forall2 (Forall2 (Forall2 (shows parse))) (map rows fs) ds.
  Proof.
    clear BX. revert ds fs SH LE. induction bs as [|b bs' IH]; intros [|d ds'] fs' S L; try discriminate; cbn in S; inversion S; subst; cbn; constructor.
    - apply H1.
    - eapply IH; [exact H3|]. cbn in L. lia.
  Qed.
  Lemma data_shape : Forall (fun d => length d = natoms /\ Forall (fun r => length r = length cols) d) ds.
  Proof.
    clear BX. revert ds fs SH LE. induction bs as [|b bs' IH]; intros [|d ds'] fs' S L; try discriminate; cbn in S; inversion S; subst; constructor.
    - destruct H1 as (_ & _ & _ & A & B & _). now split.
    - eapply IH; [exact H3|]. cbn in L. lia.
  Qed.
  Lemma frames_count : length fs = length ds.
  Proof. rewrite <- (map_length rows fs). exact (f2_len data_f2). Qed.
  Lemma box_numbers : fromstring parse (egrep_v s_junk (grep_after 3 s_box (dump_lines boxline cols natoms fs))) = Some (concat (map (@concat R) bs)).
  Proof.
    unfold grep_after. rewrite egrep_keep, grep_behind; [|reflexivity|].
    2:{ intros l H. now apply (mark_item s_box (text ": BOX BOUNDS")). }
    rewrite behind_dump_box by (assumption || apply goods).
    rewrite concat_concat. apply fromstring_rows. apply concat_f2. apply boxes_f2.
  Qed.
  Lemma row_numbers : fromstring parse (egrep_v s_junk (grep_after natoms s_atoms (dump_lines boxline cols natoms fs))) = Some (concat (concat ds)).
  Proof.
    unfold grep_after. rewrite egrep_keep, grep_behind; [|reflexivity|].
    2:{ intros l H. now apply (mark_item s_atoms (text ": ATOMS")). }
    rewrite behind_dump_rows by (assumption || apply goods).
    apply fromstring_rows. apply concat_f2. apply data_f2.
  Qed.
  Lemma dump_dct_data : ds <> [] -> natoms <> 0 -> dump_dct parse (dump_lines boxline cols natoms fs) = Some (natoms, cols, concat ds).
  Proof.
    intros N0 N1. unfold dump_dct.
    assert (G : get_natoms (dump_lines boxline cols natoms fs) = Some natoms).
    { pose proof frames_count. destruct fs as [|f fs']; [destruct ds; [congruence|discriminate]|]. now apply natoms_dump. }
    assert (H : concat (map (fun l => split_ws [] (sed_drop (text "TOMS ") l)) (grep_m1 s_atoms (dump_lines boxline cols natoms fs))) = cols).
    { pose proof frames_count. pose proof goods as GG. destruct fs as [|f fs']; [destruct ds; [congruence|discriminate]|]. inversion GG; subst. now apply header_dump. }
    rewrite G, H, row_numbers. rewrite count_steps by (assumption || apply goods). rewrite frames_count.
    replace (length ds * natoms) with (length (concat ds)).
    2:{ apply concat_length. eapply Forall_impl; [|apply data_shape]. now intros d []. }
    rewrite reshape_concat.
    2:{ pose proof data_shape as Q. clear -Q. induction Q as [|d ds [_ H] _ IH]; [constructor|]. cbn. apply Forall_app. now split. }
    destruct (Nat.eqb_spec natoms 0); [contradiction|reflexivity].
  Qed.
End DATA.
(** columns by name *)
Lemma col_index_spec key : forall cols i found, NoDup cols ->
  col_index key cols i found = match col_index key cols i None with Some j => Some j | None => found end /\
  (forall j, col_index key cols i None = Some j -> i <= j /\ forall row, length row = length cols -> value_of key cols row = Some (nth (j - i) row 0%R)) /\
  (col_index key cols i None = None <-> ~ In key cols).
Proof.
  induction cols as [|c cols IH]; intros i found N; [cbn; repeat split; try discriminate; auto|].
  inversion N as [|? ? N1 N2]; subst. cbn [col_index]. destruct (pstr_eqb c key) eqn:E.
  - apply pstr_eqb_eq in E. subst c.
    destruct (IH (S i) (Some i) N2) as (A & B & C). destruct (IH (S i) None N2) as (_ & _ & C').
    assert (Z : col_index key cols (S i) None = None) by (now apply C).
    rewrite A, Z. split; [reflexivity|]. split; [|split].
    + intros j H. injection H as <-. split; [lia|]. intros row L. destruct row as [|x row]; [discriminate|]. cbn [value_of]. rewrite pstr_eqb_refl, Nat.sub_diag. reflexivity.
    + discriminate.
    + intros H. exfalso. apply H. now left.
  - destruct (IH (S i) found N2) as (A & B & C). rewrite A. split; [reflexivity|]. split; [|split].
    + intros j H. destruct (B j H) as [B1 B2]. split; [lia|]. intros row L. destruct row as [|x row]; [discriminate|]. cbn [value_of]. rewrite E.
      rewrite B2 by (cbn in L; lia). replace (j - i) with (S (j - S i)) by lia. reflexivity.
    + intros H [H1|H1]; [subst; now rewrite pstr_eqb_refl in E|]. now apply C in H.
    + intros H. apply C. intros I. apply H. now right.
Qed.
Definition value0 (key : pstr) (cols : list pstr) (row : list R) : R := match value_of key cols row with Some x => x | None => 0%R end.
Lemma column_in key cols arr : NoDup cols -> In key cols -> Forall (fun r => length r = length cols) arr ->
  column key cols arr = Some (map (value0 key cols) arr) /\ Forall (fun r => value_of key cols r = Some (value0 key cols r)) arr.
Proof.
  intros N I L. unfold column. destruct (col_index_spec key cols 0 None N) as (_ & B & C).
  destruct (col_index key cols 0 None) as [j|] eqn:E; [|now apply C in I || (exfalso; now apply C)].
  destruct (B j eq_refl) as [_ V]. rewrite Nat.sub_0_r in V. split.
  - f_equal. apply map_ext_in. intros r Hr. rewrite Forall_forall in L. unfold value0. now rewrite V by auto.
  - eapply Forall_impl; [|exact L]. intros r Hr. unfold value0. now rewrite V.
Qed.
Lemma column_out key cols arr : NoDup cols -> ~ In key cols -> column key cols arr = None.
Proof. intros N I. unfold column. destruct (col_index_spec key cols 0 None N) as (_ & _ & C). apply C in I. now rewrite I. Qed.
Lemma combine_map {A B C} (f : A -> B) (g : A -> C) l : combine (map f l) (map g l) = map (fun x => (f x, g x)) l.
Proof. induction l; cbn; congruence. Qed.
Lemma chunk_map {A B} (f : A -> B) b : forall n l, chunk b n (map f l) = map (map f) (chunk b n l).
Proof. induction n; intros l; [reflexivity|]. cbn. now rewrite firstn_map, skipn_map, IHn. Qed.
Lemma concat_rows (cols : list pstr) natoms (ds : list (list (list R))) : Forall (fun d => length d = natoms /\ Forall (fun r => length r = length cols) d) ds -> Forall (fun r => length r = length cols) (concat ds).
Proof. induction 1 as [|d ds [_ H] _ IH]; [constructor|]. cbn. apply Forall_app. now split. Qed.
Lemma arr3d_in cols natoms ds kx ky kz : NoDup cols -> natoms <> 0 -> In kx cols -> In ky cols -> In kz cols ->
  Forall (fun d => length d = natoms /\ Forall (fun r => length r = length cols) d) ds ->
  exists vs, dump2arr3d (natoms, cols, concat ds) kx ky kz = Some vs /\
    Forall2 (Forall2 (fun row v => value_of kx cols row = Some (vx v) /\ value_of ky cols row = Some (vy v) /\ value_of kz cols row = Some (vz v))) ds vs.
Proof.
  intros N NA Ix Iy Iz SH. pose proof (concat_rows _ _ _ SH) as RL. unfold dump2arr3d.
  destruct (column_in kx cols _ N Ix RL) as [-> Vx]. destruct (column_in ky cols _ N Iy RL) as [-> Vy]. destruct (column_in kz cols _ N Iz RL) as [-> Vz].
  eexists; split; [reflexivity|]. rewrite map_length, !combine_map, map_map. cbn [fst snd].
  rewrite (concat_length natoms) by (eapply Forall_impl; [|exact SH]; now intros d []).
  rewrite Nat.div_mul by exact NA. rewrite chunk_map, chunk_concat by (eapply Forall_impl; [|exact SH]; now intros d []).
  clear -Vx Vy Vz. induction ds as [|d ds IH]; [constructor|]. cbn in Vx, Vy, Vz. apply Forall_app in Vx, Vy, Vz. cbn. constructor; [|now apply IH].
  destruct Vx as [Vx _], Vy as [Vy _], Vz as [Vz _]. clear -Vx Vy Vz. induction d as [|r d IH]; [constructor|]. inversion Vx; inversion Vy; inversion Vz; subst. cbn. constructor; [|now apply IH]. cbn. tauto.
Qed.
Lemma arr3d_out cols natoms arr kx ky kz : NoDup cols -> ~ (In kx cols /\ In ky cols /\ In kz cols) -> dump2arr3d (natoms, cols, arr) kx ky kz = None.
Proof.
  intros N H. unfold dump2arr3d.
  assert (D : forall k, {In k cols} + {~ In k cols}) by (intros k; apply in_dec; apply list_eq_dec, ascii_dec).
  destruct (D kx) as [Ix|Ix]; [|now rewrite (column_out kx)]. destruct (D ky) as [Iy|Iy]; [|rewrite (column_out ky) by assumption; now destruct (column kx cols arr)].
  destruct (D kz) as [Iz|Iz]; [tauto|]. rewrite (column_out kz) by assumption. destruct (column kx cols arr), (column ky cols arr); reflexivity.
Qed.
(** the cell of one frame *)
Local Open Scope R_scope.
Lemma frame_cell_bounds b : frame_cell (concat (bounds b)) = box_cell b.
Proof.
  destruct b as [x0 y0 z0 a b c d e f]. unfold frame_cell, bounds, box_cell, smallest, largest. cbn [concat app nth Nat.mul Nat.add fold_right xlo ylo zlo lx ly lz xy xz yz].
  assert (Q1 : Rmin d (Rmin e (Rmin (d + e) 0)) = min4 0 d e (d + e)) by (unfold min4, Rmin; repeat (destruct (Rle_dec _ _)); lra).
  assert (Q2 : Rmax d (Rmax e (Rmax (d + e) 0)) = max4 0 d e (d + e)) by (unfold max4, Rmax; repeat (destruct (Rle_dec _ _)); lra).
  rewrite Q1, Q2. rewrite (Rmin_comm f 0), (Rmax_comm f 0). f_equal; f_equal; ring.
Qed.
Local Open Scope nat_scope.
(** ** Thermo tables *)
Lemma tword_rows r : Forall tword r -> contains s_step (join sp r) = false /\ contains s_loop (join sp r) = false.
Proof.
  intros H. split; (apply contains_join; [cbn; intros K; repeat destruct K as [K|K]; try discriminate K; exact K|discriminate|]; eapply Forall_impl; [|exact H]; now intros w (_ & _ & ? & ?)).
Qed.
Lemma tsplit ws : Forall tword ws -> split_ws [] (join sp ws) = ws.
Proof. intros H. apply split_plain. eapply Forall_impl; [|exact H]. intros w (A & B & _). now split. Qed.
Definition tkeep (l : pstr) : bool := negb (existsb (fun p => contains p l) [s_step; s_loop]).
Lemma range_skip : forall pre rest, Forall no_step pre -> sed_range s_step s_loop false (pre ++ rest) = sed_range s_step s_loop false rest.
Proof. induction 1 as [|l pre H _ IH]; [reflexivity|]. cbn [app sed_range]. replace (is_prefix s_step l) with false by (symmetry; now apply contains_not_prefix). exact IH. Qed.
Lemma range_rows rows rest : Forall (Forall tword) rows ->
  List.filter tkeep (sed_range s_step s_loop true (map (join sp) rows ++ rest)) = map (join sp) rows ++ List.filter tkeep (sed_range s_step s_loop true rest).
Proof.
  induction 1 as [|r rows H _ IH]; [reflexivity|]. destruct (tword_rows r H) as [A B]. cbn [map app sed_range List.filter].
  replace (tkeep (join sp r)) with true by (unfold tkeep; cbn [existsb]; now rewrite A, B). rewrite (contains_not_prefix _ _ B). cbn [negb]. now rewrite IH.
Qed.
Definition run_ok (n : nat) (r : run) : Prop := Forall no_step (before r) /\ Forall (Forall tword) (trows r).
Lemma range_log hs rs rest : Forall (run_ok (S (length hs))) rs -> Forall no_step rest ->
  List.filter tkeep (sed_range s_step s_loop false (log_lines (s_step :: hs) rs rest)) = map (join sp) (concat (map trows rs)).
Proof.
  intros H NR. unfold log_lines. induction H as [|r rs [B T] _ IH].
  - cbn [map concat app]. rewrite <- (app_nil_r rest). now rewrite range_skip.
  - cbn [map concat]. unfold run_lines at 1. rewrite <- !app_assoc. rewrite range_skip by exact B. cbn [app sed_range].
    assert (P : is_prefix s_step (join sp (s_step :: hs)) = true) by (destruct hs; reflexivity).
    rewrite P. cbn [List.filter]. replace (tkeep (join sp (s_step :: hs))) with false
      by (unfold tkeep; cbn [existsb]; now rewrite (contains_prefix _ _ P)).
    rewrite range_rows by exact T. rewrite map_app. f_equal. cbn [app sed_range List.filter].
    assert (P2 : is_prefix s_loop (text "Loop" ++ loop r) = true) by reflexivity.
    rewrite P2. replace (tkeep (text "Loop" ++ loop r)) with false
      by (unfold tkeep; cbn [existsb]; rewrite (contains_prefix _ _ P2); now rewrite orb_true_r).
    cbn [negb]. rewrite <- app_assoc in IH || idtac. exact IH.
Qed.
Lemma f2_twords rows data : Forall2 (Forall2 (tshows parse)) rows data -> Forall (Forall tword) rows.
Proof. induction 1 as [|r d rows data H _ IH]; constructor; [|exact IH]. induction H as [|t x r d [H _] _ IH2]; constructor; assumption. Qed.
Lemma opt_tshows r d : Forall2 (tshows parse) r d -> opt_map parse r = Some d.
Proof. induction 1 as [|t x r d [_ P] _ IH]; [reflexivity|]. cbn. now rewrite P, IH. Qed.
Lemma opt_rows rows data : Forall2 (Forall2 (tshows parse)) rows data -> opt_map (opt_map parse) rows = Some data.
Proof. induction 1 as [|r d rows data H _ IH]; [reflexivity|]. cbn [opt_map]. rewrite (opt_tshows r d H), IH. reflexivity. Qed.
Lemma thermo_data hs rs rest data :
  Forall tword hs -> Forall (fun r => Forall no_step (before r)) rs -> Forall no_step rest ->
  Forall2 (Forall2 (tshows parse)) (concat (map trows rs)) data -> Forall (fun d => length d = S (length hs)) data -> data <> [] ->
  thermo_dct parse (log_lines (s_step :: hs) rs rest) = Some (s_step :: hs, data).
Proof.
  intros HS B NR F LD NE. unfold thermo_dct.
  pose proof (f2_twords _ _ F) as TW.
  assert (OK : Forall (run_ok (S (length hs))) rs).
  { clear -B TW. induction B as [|r rs B _ IH]; constructor; cbn in TW; apply Forall_app in TW; [now split|now apply IH]. }
  assert (HD : grep_m1 s_step (log_lines (s_step :: hs) rs rest) = [join sp (s_step :: hs)]).
  { unfold log_lines. destruct rs as [|r rs]; [inversion F; congruence|]. inversion B; subst. cbn [map concat]. unfold run_lines. rewrite <- !app_assoc.
    rewrite grep_m1_skip by assumption. unfold grep_m1. cbn [app find]. rewrite contains_prefix; [reflexivity|]. destruct hs; reflexivity. }
  rewrite HD. cbn [map concat]. rewrite app_nil_r. rewrite split_plain.
  2:{ constructor; [split; [discriminate|]; repeat constructor|]. eapply Forall_impl; [|exact HS]. intros w (A1 & A2 & _). now split. }
  change (egrep_v [s_step; s_loop] (sed_range s_step s_loop false (log_lines (s_step :: hs) rs rest))) with (List.filter tkeep (sed_range s_step s_loop false (log_lines (s_step :: hs) rs rest))).
  rewrite range_log by assumption. rewrite map_map.
  replace (map (fun x => split_ws [] (join sp x)) (concat (map trows rs))) with (concat (map trows rs)).
  2:{ clear -TW. induction TW as [|r l H _ IH]; [reflexivity|]. cbn [map]. rewrite tsplit by exact H. congruence. }
  assert (LR : Forall (fun r => length r = S (length hs)) (concat (map trows rs))).
  { clear -F LD. induction F as [|r d l l' H _ IH]; [constructor|]. inversion LD; subst. constructor; [rewrite (f2_len H); assumption|now apply IH]. }
  set (rows := concat (map trows rs)) in *. clearbody rows.
  replace (List.filter (fun r => negb (length r =? 0)) rows) with rows.
  2:{ clear -LR. induction LR as [|r l H _ IH]; [reflexivity|]. cbn [List.filter]. rewrite H. cbn [Nat.eqb negb]. now rewrite <- IH. }
  destruct rows as [|r l]; [inversion F; congruence|].
  assert (SL : same_length (r :: l) = true).
  { cbn [same_length]. apply forallb_forall. intros s Hs. apply Nat.eqb_eq. rewrite Forall_forall in LR. rewrite (LR s) by (now right). symmetry. apply LR. now left. }
  rewrite SL. assert (Q : length (s_step :: hs) <=? length r = true) by (apply Nat.leb_le; inversion LR; subst; cbn [length]; lia).
  rewrite Q. cbn [andb]. now rewrite (opt_rows _ _ F).
Qed.
Lemma transpose_map {A} (fs : list (A -> R)) : forall arr i pre, length pre = i ->
  transpose_n (length arr) i (map (fun f => map f (pre ++ arr)) fs) = map (fun r => map (fun f => f r) fs) arr.
Proof.
  induction arr as [|r arr IH]; intros i pre L; [reflexivity|]. cbn [length transpose_n map]. f_equal.
  - rewrite map_map. apply map_ext. intros f. rewrite map_app, app_nth2; rewrite map_length; [|lia]. rewrite L, Nat.sub_diag. reflexivity.
  - specialize (IH (S i) (pre ++ [r])). rewrite <- app_assoc in IH. apply IH. rewrite app_length. cbn. lia.
Qed.
Lemma columns_in keys cols arr : NoDup cols -> Forall (fun k => In (text k) cols) keys -> Forall (fun r => length r = length cols) arr ->
  columns keys cols arr = Some (map (fun f => map f arr) (map (fun k => value0 (text k) cols) keys)).
Proof.
  intros N I L. unfold columns. induction I as [|k keys H _ IH]; [reflexivity|]. cbn [opt_map map]. destruct (column_in _ _ _ N H L) as [-> _]. now rewrite IH.
Qed.
End L.
