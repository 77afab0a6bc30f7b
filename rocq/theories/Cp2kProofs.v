From Coq Require Import Ascii String List Arith Bool Reals ZArith Lia.
From Verif Require Import Comb CombProofs Template TemplateProofs TemplateSpec ArrayIO ArrayIOProofs Grep GrepProofs Regex RegexProofs CifProofs PdbProofs MatdynFreqProofs Lammps LammpsProofs PwOut PwOutSpec PwOutProofs Cp2k Cp2kSpec.
From Verif Require TextOutProofs TextOutSpec.
Import ListNotations.
Local Open Scope list_scope.
Local Open Scope nat_scope.
Local Notation length := List.length.

(** ** Lines of trajectory files *)
Lemma first_char : forall s acc a, exists w ws, split_ws (a :: acc) s = w :: ws /\ hd_error w = Some a.
Proof.
  induction s as [|c s IH]; intros acc a; cbn [split_ws]; [now exists (a :: acc), []|]. destruct (is_space c); [exists (a :: acc); eauto|]. apply (IH (acc ++ [c]) a).
Qed.
Lemma numbered_word l : numbered l = true -> exists w ws d, words l = w :: ws /\ hd_error w = Some d /\ digit d = true.
Proof.
  unfold numbered. destruct l as [|c l]; [discriminate|]. intros H. apply andb_true_iff in H as [_ H]. destruct (eat_split (c :: l)) as (g & B & E). destruct (eat_blanks (c :: l)) as [|d t]; [discriminate|].
  unfold words. rewrite E. rewrite split_ws_blank by (now apply blank_space). cbn [split_ws]. rewrite (digit_no_space d H). cbn [app]. destruct (first_char t [] d) as (w & ws & E1 & E2). now exists w, ws, d.
Qed.
Lemma digit_in d : digit d = true -> In d (text "0123456789").
Proof.
  intros H. assert (E : existsb (Ascii.eqb d) (text "0123456789") = true) by (revert d H; now apply imp_cases).
  apply existsb_exists in E as (x & I & E). apply Ascii.eqb_eq in E. now subst x.
Qed.
Lemma no_text w l : ~ with_text w l -> contains w l = false.
Proof. intros N. destruct (contains w l) eqn:E; [|reflexivity]. exfalso. apply N. now apply text_iff. Qed.
Lemma yes_text w l : with_text w l -> contains w l = true. Proof. apply text_iff. Qed.
Lemma order_text w ws l : in_order (w :: ws) l = true -> with_text w l.
Proof. intros H. apply order_iff in H as (a & t & -> & _). now exists a, t. Qed.
Lemma no_order w ws l : ~ with_text w l -> in_order (w :: ws) l = false.
Proof. intros N. destruct (in_order (w :: ws) l) eqn:E; [|reflexivity]. exfalso. apply N. now apply (order_text w ws). Qed.
Lemma i_text l : with_text (text "i = ") l -> with_text (text "i =") l.
Proof. intros (a & b & ->). exists a, (text " " ++ b). reflexivity. Qed.
Lemma number_words n l : number_line n l -> words l = [show_int (Z.of_nat n)].
Proof.
  intros (g & h & G & H & ->). apply words_padded; [now apply blank_space|now apply blank_space|apply show_nonempty|]. eapply Forall_impl; [|apply nat_digits]. intros c; apply digit_no_space.
Qed.
Lemma number_read n l : number_line n l -> int_from_txt [l] = Some (Some n).
Proof.
  intros N. unfold int_from_txt. cbn [forallb concat]. rewrite (not_blank _ _ _ (number_words n l N)). cbn [andb]. rewrite app_nil_r. destruct N as (g & h & G & H & ->).
  rewrite strip_padded; [|now apply blank_space|now apply blank_space|apply show_nonempty|eapply Forall_impl; [|apply nat_digits]; intros c; apply digit_no_space].
  rewrite read_show. destruct (Z.ltb_spec (Z.of_nat n) 0); [lia|]. now rewrite Nat2Z.id.
Qed.
Lemma number_no_i n l : number_line n l -> ~ with_text (text "i =") l.
Proof.
  intros (g & h & G & H & ->) (a & b & E). assert (I : In "i"%char (g ++ show_int (Z.of_nat n) ++ h)) by (rewrite E; apply in_or_app; right; now left).
  apply in_app_or in I as [I|I]; [now apply G in I|]. apply in_app_or in I as [I|I]; [|now apply H in I]. pose proof (nat_digits n) as D. unfold all in D. rewrite Forall_forall in D. now apply D in I.
Qed.
Lemma header_yes l : header_line l -> is_header l = true /\ skipped l = true.
Proof.
  intros (a & b & c & ->). split.
  - apply order_iff. exists a, (b ++ text "E =" ++ c). split; [reflexivity|]. exists b, c. split; [reflexivity|exact I].
  - unfold skipped. replace (in_order _ _) with true; [reflexivity|]. symmetry. apply order_iff. exists a, (text " " ++ b ++ text "E =" ++ c). split; [reflexivity|]. exists (text " " ++ b), c. split; [now rewrite <- app_assoc|exact I].
Qed.
Lemma no_header l : ~ with_text (text "i =") l -> is_header l = false.
Proof. intros N. apply no_order. intros H. apply N. now apply i_text. Qed.
Lemma atom_kept l a : atom_line l a -> is_header l = false /\ skipped l = false.
Proof.
  intros (W & L & D & N). split; [now apply no_header|]. unfold skipped. rewrite (no_order _ _ _ N). cbn [orb]. destruct (numbered l) eqn:E; [|reflexivity]. apply numbered_word in E as (w & ws & d & E & H & DD). rewrite W in E. injection E as <- <-.
  exfalso. apply (D d); [now apply digit_in|exact H].
Qed.
(** The numbers awk prints *)
Definition nums (lines : list pstr) : list pstr := concat (map (split_ws []) (map (awk [2; 3; 4]) (List.filter (fun l => negb (skipped l)) lines))).
Lemma nums_app a b : nums (a ++ b) = nums a ++ nums b.
Proof. unfold nums. now rewrite filter_app, !map_app, concat_app. Qed.
Lemma awk_short l w : words l = [w] -> split_ws [] (awk [2; 3; 4] l) = [].
Proof. intros E. unfold awk, field. unfold words in E. cbn [map]. rewrite E. reflexivity. Qed.
Lemma nums_number n l : number_line n l -> nums [l] = [].
Proof. intros N. unfold nums. cbn [List.filter]. destruct (negb (skipped l)); [|reflexivity]. cbn [map concat]. now rewrite (awk_short _ _ (number_words n l N)). Qed.
Lemma nums_header l : header_line l -> nums [l] = [].
Proof. intros H. unfold nums. cbn [List.filter]. destruct (header_yes l H) as [_ ->]. reflexivity. Qed.
Lemma nums_atom l a : atom_line l a -> nums [l] = snd a.
Proof.
  intros H. unfold nums. cbn [List.filter]. destruct (atom_kept l a H) as [_ ->]. cbn [negb map concat]. rewrite app_nil_r. destruct H as (W & L & _). apply (awk_slice _ [fst a] (snd a) []); [now rewrite app_nil_r|]. now rewrite L.
Qed.
Lemma nums_cons l ls : nums (l :: ls) = nums [l] ++ nums ls. Proof. apply (nums_app [l] ls). Qed.
Lemma nums_atoms ls f : Forall2 atom_line ls f -> nums ls = concat (map snd f).
Proof. induction 1 as [|l a ls f H _ IH]; [reflexivity|]. rewrite nums_cons, IH, (nums_atom l a H). reflexivity. Qed.
Definition heads (lines : list pstr) : nat := length (List.filter is_header lines).
Lemma heads_app a b : heads (a ++ b) = heads a + heads b. Proof. unfold heads. now rewrite filter_app, app_length. Qed.
Lemma heads_atoms ls f : Forall2 atom_line ls f -> heads ls = 0.
Proof. induction 1 as [|l a ls f H _ IH]; [reflexivity|]. unfold heads in *. cbn [List.filter]. destruct (atom_kept l a H) as [-> _]. exact IH. Qed.
Lemma heads_two n c h rest : number_line n c -> header_line h -> heads (c :: h :: rest) = S (heads rest).
Proof. intros C H. unfold heads. cbn [List.filter]. rewrite (no_header c (number_no_i n c C)). destruct (header_yes h H) as [-> _]. reflexivity. Qed.
Lemma frame_nums n f ls : frame_lines n f ls -> nums ls = concat (map snd f) /\ heads ls = 1 /\ length ls = n + 2.
Proof.
  intros (c & h & rest & -> & C & H & L & F). rewrite nums_cons, (nums_cons h), (nums_number n c C), (nums_header h H). cbn [app]. rewrite (nums_atoms _ _ F). split; [reflexivity|]. rewrite (heads_two n) by assumption. rewrite (heads_atoms _ _ F). split; [reflexivity|]. cbn [length]. rewrite (f2_len F). lia.
Qed.
Lemma file_nums n fs lss : Forall2 (frame_lines n) fs lss -> nums (concat lss) = concat (concat (map (map snd) fs)) /\ heads (concat lss) = length fs.
Proof.
  induction 1 as [|f ls fs lss H _ [IH1 IH2]]; [split; reflexivity|]. destruct (frame_nums _ _ _ H) as (N & D & _). cbn [concat map length]. rewrite nums_app, heads_app, N, D, IH1, IH2, concat_app. split; reflexivity.
Qed.
Definition texts (fs : list frame) : list (list (list pstr)) := map (map snd) fs.
Section XYZ.
Variable parse : pstr -> option R.
Lemma xyz_read n lines : int_from_txt (firstn 1 lines) = Some (Some n) -> forall nt, opt_map parse (nums lines) = Some nt ->
  xyz2arr parse lines = match reshape (heads lines) (n * 3) nt with Some rows => Some (map (chunk 3 n) rows) | None => None end.
Proof. intros E nt H. unfold xyz2arr. rewrite E. unfold fromstring. fold (nums lines). rewrite H. reflexivity. Qed.
Lemma vals_shape n fs vals : Forall (fun f : frame => length f = n /\ Forall (fun a : atom => length (snd a) = 3) f) fs -> reads3 parse (texts fs) vals ->
  Forall (fun v => length v = n /\ Forall (fun r => length r = 3) v) vals.
Proof.
  revert vals. induction fs as [|f fs IH]; intros vals F H; inversion H as [|? v ? vals' H1 H2]; subst; [constructor|]. inversion F as [|? ? [L F1] F2]; subst. constructor; [|auto]. split; [now rewrite <- (f2_len H1), map_length|].
  clear - F1 H1. revert v H1. induction F1 as [|a f L _ IH]; intros v H; inversion H as [|? r ? v' X Y]; subst; constructor; [now rewrite <- (f2_len X)|auto].
Qed.
Lemma reshape_vals n (vals : arr3) : Forall (fun v => length v = n /\ Forall (fun r => length r = 3) v) vals ->
  match reshape (length vals) (n * 3) (concat (concat vals)) with Some rows => Some (map (chunk 3 n) rows) | None => None end = Some vals.
Proof.
  intros FV. assert (E : concat (concat vals) = concat (map (@concat _) vals)) by (clear; induction vals as [|v vals IH]; [reflexivity|]; cbn [map concat]; now rewrite concat_app, IH).
  rewrite E, <- (map_length (@concat _) vals), reshape_concat.
  - f_equal. rewrite map_map. rewrite <- (map_id vals) at 2. apply map_ext_in. intros v I. rewrite Forall_forall in FV. destruct (FV v I) as [L FR]. now apply chunk_rows.
  - apply Forall_map. eapply Forall_impl; [|exact FV]. intros v [L FR]. rewrite (concat_length 3) by exact FR. now rewrite L.
Qed.
Lemma frame_shape n fs lss : Forall2 (frame_lines n) fs lss -> Forall (fun f : frame => length f = n /\ Forall (fun a : atom => length (snd a) = 3) f) fs.
Proof.
  induction 1 as [|f ls fs lss H _ IH]; constructor; [|exact IH]. destruct H as (c & h & rest & -> & _ & _ & L & F). split; [exact L|]. clear - F. induction F as [|l a rest f (_ & L & _) _ IH]; constructor; assumption.
Qed.
Lemma first_number n fs lss rest : Forall2 (frame_lines n) fs lss -> fs <> [] -> int_from_txt (firstn 1 (concat lss ++ rest)) = Some (Some n).
Proof. intros F NE. destruct F as [|f ls fs lss H _]; [congruence|]. destruct H as (c & h & r & -> & C & _). cbn [concat app firstn]. now apply number_read. Qed.
Lemma all_frames n fs lss vals : Forall2 (frame_lines n) fs lss -> fs <> [] -> reads3 parse (texts fs) vals -> xyz2arr parse (concat lss) = Some vals.
Proof.
  intros F NE H. destruct (file_nums _ _ _ F) as [N D].
  assert (FST : int_from_txt (firstn 1 (concat lss)) = Some (Some n)) by (rewrite <- (app_nil_r (concat lss)); now apply (first_number n fs)).
  rewrite (xyz_read n _ FST (concat (concat vals))).
  - rewrite D. replace (length fs) with (length vals) by (rewrite <- (f2_len H); apply map_length). apply reshape_vals. now apply (vals_shape n fs); [apply (frame_shape n fs lss)|].
  - rewrite N. apply opt_reads, reads_concat, reads_concat3, H.
Qed.
(** ** Cut files *)
Lemma cut_lists {A} (w : nat) (lss : list (list A)) k : w <> 0 -> Forall (fun l => length l = w) lss ->
  firstn k (concat lss) = concat (firstn (k / w) lss) ++ firstn (k mod w) (nth (k / w) lss []).
Proof.
  intros W F. revert k. induction F as [|l lss L F IH]; intros k.
  - cbn [concat]. rewrite !firstn_nil. destruct (k / w); cbn; now rewrite firstn_nil.
  - cbn [concat]. rewrite firstn_app, L. destruct (Nat.ltb_spec k w) as [LT|GE].
    + rewrite Nat.div_small, Nat.mod_small by exact LT. replace (k - w) with 0 by lia. cbn [firstn concat app nth]. now rewrite app_nil_r.
    + rewrite firstn_all2 by lia. rewrite IH. assert (E : k = (k - w) + 1 * w) by lia.
      assert (D1 : k / w = S ((k - w) / w)) by (rewrite E at 1; rewrite Nat.div_add by exact W; lia). assert (M1 : k mod w = (k - w) mod w) by (rewrite E at 1; now rewrite Nat.mod_add). rewrite D1, M1. cbn [firstn concat nth]. now rewrite app_assoc.
Qed.
Lemma f2_firstn {A B} (P : A -> B -> Prop) k l m : Forall2 P l m -> Forall2 P (firstn k l) (firstn k m).
Proof. intros F. revert k. induction F as [|a b l m H _ IH]; intros [|k]; cbn; constructor; auto. Qed.
Lemma cut_frames n fs lss vals k : n <> 0 -> 0 < k -> fs <> [] -> Forall2 (frame_lines n) fs lss -> reads3 parse (texts fs) vals -> k <= (n + 2) * length fs ->
  xyz2arr parse (firstn k (concat lss)) = if k mod (n + 2) <=? 1 then Some (firstn (k / (n + 2)) vals) else None.
Proof.
  intros PN PK NE F H KL. set (w := n + 2). set (q := k / w). set (r := k mod w).
  assert (FW : Forall (fun l : list pstr => length l = w) lss) by (clear - F; induction F as [|f ls fs lss HF _ IH]; constructor; [now destruct (frame_nums _ _ _ HF) as (_ & _ & L)|exact IH]).
  assert (DM : k = w * q + r) by (apply Nat.div_mod; unfold w; lia). assert (RL : r < w) by (apply Nat.mod_upper_bound; unfold w; lia).
  assert (CUT := cut_lists w lss k ltac:(unfold w; lia) FW). fold q r in CUT. rewrite CUT. set (part := firstn r (nth q lss [])) in *.
  assert (FQ := f2_firstn _ q _ _ F). assert (HQ := f2_firstn _ q _ _ H). assert (TQ : firstn q (texts fs) = texts (firstn q fs)) by (unfold texts; apply firstn_map). rewrite TQ in HQ.
  assert (FST : int_from_txt (firstn 1 (concat (firstn q lss) ++ part)) = Some (Some n)).
  { destruct (Nat.eq_dec q 0) as [Z|NZ].
    - rewrite <- CUT. rewrite firstn_firstn, Nat.min_l by lia. rewrite <- (app_nil_r (concat lss)). now apply (first_number n fs).
    - apply (first_number n (firstn q fs)); [exact FQ|]. destruct fs; [congruence|]. destruct q; [congruence|]. discriminate. }
  destruct (file_nums _ _ _ FQ) as [NQ DQ].
  assert (LQ : length (firstn q fs) = q).
  { rewrite firstn_length. apply Nat.min_l. fold w in KL. destruct (Nat.le_gt_cases q (length fs)) as [|B]; [assumption|]. assert (w * S (length fs) <= w * q) by (apply Nat.mul_le_mono_l; lia). unfold w in *. lia. }
  assert (LV : length (firstn q vals) = q) by (rewrite <- (f2_len HQ); unfold texts; rewrite map_length; exact LQ).
  assert (SV := vals_shape n _ _ (frame_shape _ _ _ FQ) HQ).
  destruct (Nat.leb_spec r 1) as [R1|R2].
  - assert (PN0 : nums part = [] /\ heads part = 0).
    { unfold part. destruct (Nat.eq_dec r 0) as [Z|NZ]; [rewrite Z; split; reflexivity|]. replace r with 1 by lia.
      destruct (nth_in_or_default q lss []) as [I|E0]; [|rewrite E0; split; reflexivity].
      assert (X : exists f, frame_lines n f (nth q lss [])) by (clear - F I; revert I; generalize (nth q lss []); intros x I; induction F as [|f ls fs lss HF _ IH]; [destruct I|]; destruct I as [<- |I]; [now exists f|auto]).
      destruct X as (f & c & h & rest & -> & C & Hh & _). cbn [firstn]. split; [now apply (nums_number n)|]. unfold heads. cbn [List.filter]. now rewrite (no_header c (number_no_i n c C)). }
    destruct PN0 as [P1 P2]. rewrite (xyz_read n _ FST (concat (concat (firstn q vals)))).
    + rewrite heads_app, DQ, P2, LQ, Nat.add_0_r. rewrite <- LV at 1. now apply reshape_vals.
    + rewrite nums_app, NQ, P1, app_nil_r. apply opt_reads, reads_concat, reads_concat3. exact HQ.
  - assert (QL : q < length lss).
    { rewrite <- (f2_len F). fold w in KL. destruct (Nat.lt_ge_cases q (length fs)) as [|B]; [assumption|]. assert (w * length fs <= w * q) by (apply Nat.mul_le_mono_l; lia). lia. }
    assert (X : exists f, nth_error fs q = Some f /\ frame_lines n f (nth q lss [])).
    { clear - F QL. clearbody q. revert q QL. induction F as [|f ls fs lss HF _ IH]; intros q QL; [cbn in QL; lia|]. destruct q as [|q]; [now exists f|]. cbn [nth nth_error]. apply IH. cbn in QL. lia. }
    destruct X as (f & EF & c & h & rest & EL & C & Hh & Lf & FA).
    assert (PE : part = c :: h :: firstn (r - 2) rest) by (unfold part; rewrite EL; replace r with (S (S (r - 2))) at 1 by lia; reflexivity).
    assert (FA' := f2_firstn _ (r - 2) _ _ FA).
    assert (VF : exists v, nth_error vals q = Some v /\ reads2 parse (map snd f) v).
    { clear - H EF. clearbody q. unfold texts in H. revert vals q EF H. induction fs as [|g fs IH]; intros vals q EF H; [destruct q; discriminate|]. inversion H as [|? v ? vals' X Y]; subst. destruct q as [|q]; [injection EF as <-; now exists v|]. cbn in *. now apply (IH vals' q). }
    destruct VF as (v & EV & RV). assert (RV' := f2_firstn _ (r - 2) _ _ RV). rewrite firstn_map in RV'.
    assert (NP : nums part = concat (map snd (firstn (r - 2) f)) /\ heads part = 1).
    { rewrite PE. rewrite nums_cons, (nums_cons h), (nums_number n c C), (nums_header h Hh), (nums_atoms _ _ FA'). rewrite (heads_two n) by assumption. rewrite (heads_atoms _ _ FA'). split; reflexivity. }
    destruct NP as [P1 P2]. rewrite (xyz_read n _ FST (concat (concat (firstn q vals)) ++ concat (firstn (r - 2) v))).
    + rewrite heads_app, DQ, P2, LQ. unfold reshape. rewrite app_length.
      assert (L1 : length (concat (concat (firstn q vals))) = q * n * 3).
      { rewrite (concat_length 3) by (clear - SV; induction SV as [|x l [_ S3] _ IH]; [constructor|]; cbn [concat]; apply Forall_app; now split). f_equal. rewrite (concat_length n) by (eapply Forall_impl; [|exact SV]; now intros ? [? _]). now rewrite LV. }
      assert (L2 : length (concat (firstn (r - 2) v)) = (r - 2) * 3).
      { rewrite (concat_length 3).
        - rewrite <- (f2_len RV'), map_length, firstn_length. f_equal. assert (LL : @length (pstr * list pstr) f = n) by exact Lf. unfold atom in *. rewrite LL. apply Nat.min_l. unfold w in RL. lia.
        - pose proof (frame_shape _ _ _ F) as SF. rewrite Forall_forall in SF. destruct (SF f (nth_error_In _ _ EF)) as [_ S3]. clear - RV' S3. revert RV'. generalize (r - 2). intros j. revert v j. induction S3 as [|a f L _ IH]; intros v j H; [rewrite firstn_nil in H; inversion H; constructor|]. destruct j as [|j]; [cbn; constructor|]. cbn [firstn map] in H. destruct v as [|y v]; inversion H as [|? ? ? ? X Y]; subst. constructor; [now rewrite <- (f2_len X)|now apply IH]. }
      rewrite L1, L2. destruct (Nat.eqb_spec (q * n * 3 + (r - 2) * 3) ((q + 1) * (n * 3))) as [E|_]; [|reflexivity]. exfalso. unfold w in RL. nia.
    + rewrite nums_app, NQ, P1. apply opt_reads. apply Forall2_app; [apply reads_concat, reads_concat3, HQ|apply reads_concat, RV'].
Qed.
End XYZ.
(** ** Symbols *)
Lemma no_i_line l a : atom_line l a -> contains (text "i =") l = false. Proof. intros (_ & _ & _ & N). now apply no_text. Qed.
Lemma header_i h : header_line h -> contains (text "i =") h = true.
Proof. intros (a & b & c & ->). apply yes_text. exists a, (text " " ++ b ++ text "E =" ++ c). reflexivity. Qed.
Lemma word_split w l ws : words l = w :: ws -> split_ws [] w = [w].
Proof. intros E. pose proof (words_ok l) as F. rewrite E in F. apply Forall_inv in F. destruct F as [N S]. apply split_ws_last; [|exact N]. apply Forall_forall. exact S. Qed.
Lemma first_symbols n f fs lss : Forall2 (frame_lines n) (f :: fs) lss -> xyz_symbols n (concat lss) = map fst f.
Proof.
  intros F. inversion F as [|? ls ? lss' H _]; subst. destruct H as (c & h & rest & -> & C & Hh & L & FA). cbn [concat app]. unfold xyz_symbols. cbn [grep_m1_after].
  rewrite (no_text _ _ (number_no_i n c C)). rewrite (header_i h Hh). rewrite firstn_app. assert (LR : length rest = n) by (rewrite (f2_len FA); exact L). rewrite firstn_all2 by lia. rewrite LR, Nat.sub_diag. cbn [firstn]. rewrite app_nil_r.
  unfold egrep_v. cbn [List.filter existsb]. rewrite (header_i h Hh). cbn [orb negb]. clear - FA. induction FA as [|l a rest f H _ IH]; [reflexivity|]. cbn [List.filter existsb]. rewrite (no_i_line l a H). cbn [orb negb map concat].
  destruct H as (W & _). assert (E1 : field 1 l = fst a) by (unfold field; unfold words in W; now rewrite W). rewrite E1, (word_split (fst a) l (snd a) W). cbn [app]. f_equal. exact IH.
Qed.
(** ** Tables *)
Lemma cut_none f s : existsb f s = false -> cut_at f s = None.
Proof. induction s as [|c s IH]; [reflexivity|]. cbn. destruct (f c); [discriminate|]. cbn. intros H. now rewrite IH. Qed.
Lemma uncomment_plain l : ~ In "#"%char l -> uncomment l = l.
Proof.
  intros N. unfold uncomment. rewrite cut_none; [reflexivity|]. destruct (existsb (Ascii.eqb hash) l) eqn:E; [|reflexivity]. apply existsb_exists in E as (x & I & E). apply Ascii.eqb_eq in E. subst x. now destruct N.
Qed.
Section TABLE.
Variable parse : pstr -> option R.
Lemma table_ok width rows lines vals : width <> 0 -> table_file width rows lines -> reads2 parse rows vals -> table parse lines = if length vals <=? 1 then None else Some vals.
Proof.
  intros W (t & ls & -> & F & FW) H. unfold table.
  assert (E : loadtxt parse (map uncomment ((text "#" ++ t) :: ls)) = loadtxt parse (map uncomment ls)) by reflexivity. rewrite E. rewrite (load_ok parse _ rows vals width W); [reflexivity| |exact H|exact FW].
  clear - F. induction F as [|l r ls rows [N L] _ IH]; [reflexivity|]. cbn [map]. now rewrite (uncomment_plain l N), L, IH.
Qed.
Lemma column_ok {A} (f : A -> list R) (g : A -> R) k (xs : list A) : (forall x, In x xs -> nth_error (f x) k = Some (g x)) -> opt_map (fun r => nth_error r k) (map f xs) = Some (map g xs).
Proof. induction xs as [|x xs IH]; intros H; [reflexivity|]. cbn [map opt_map]. rewrite (H x) by now left. rewrite IH by (intros; apply H; now right). reflexivity. Qed.
Lemma repack_33 (r : matrix_row) : is_33 (m_matrix r) -> repack_row (matrix_row_numbers r) = Some (m_matrix r).
Proof.
  destruct r as [s t mm rest]. unfold is_33. cbn [m_matrix]. intros [L F]. destruct mm as [|a [|b [|c [|]]]]; try discriminate L. inversion F as [|? ? La F1]; subst. inversion F1 as [|? ? Lb F2]; subst. inversion F2 as [|? ? Lc _]; subst.
  destruct a as [|a1 [|a2 [|a3 [|]]]]; try discriminate La. destruct b as [|b1 [|b2 [|b3 [|]]]]; try discriminate Lb. destruct c as [|c1 [|c2 [|c3 [|]]]]; try discriminate Lc. reflexivity.
Qed.
Lemma repack_all rs : Forall (fun r => is_33 (m_matrix r)) rs -> opt_map repack_row (map matrix_row_numbers rs) = Some (map m_matrix rs).
Proof. induction 1 as [|r rs H _ IH]; [reflexivity|]. cbn [map opt_map]. now rewrite (repack_33 r H), IH. Qed.
End TABLE.
(** ** squeeze and cut *)
Lemma squeeze_words s : forall b acc, (b = true -> acc = []) -> split_ws acc (squeeze b s) = split_ws acc s.
Proof.
  induction s as [|c s IH]; intros b acc H; [reflexivity|]. cbn [squeeze]. destruct (Ascii.eqb_spec c " ") as [-> |N].
  - replace (split_ws acc (" "%char :: s)) with (match acc with [] => split_ws [] s | _ => acc :: split_ws [] s end) by reflexivity. destruct b.
    + rewrite (H eq_refl). now apply IH.
    + replace (split_ws acc (" "%char :: squeeze true s)) with (match acc with [] => split_ws [] (squeeze true s) | _ => acc :: split_ws [] (squeeze true s) end) by reflexivity. rewrite IH by reflexivity. reflexivity.
  - cbn [split_ws]. destruct (is_space c); [now rewrite IH|]. apply IH. discriminate.
Qed.
Lemma squeeze_blank g s : spaces g -> squeeze true (g ++ s) = squeeze true s.
Proof. induction g as [|c g IH]; intros H; [reflexivity|]. rewrite (H c) by now left. cbn. apply IH. intros x I. apply H. now right. Qed.
Lemma squeeze_gap g s : blanks g -> squeeze false (g ++ s) = " "%char :: squeeze true s.
Proof. intros [N H]. destruct g as [|c g]; [congruence|]. rewrite (H c) by now left. cbn. f_equal. apply squeeze_blank. intros x I. apply H. now right. Qed.
Lemma squeeze_word w s b : w <> [] -> ~ In " "%char w -> squeeze b (w ++ s) = w ++ squeeze false s.
Proof.
  revert b. induction w as [|c w IH]; intros b NE N; [congruence|]. cbn [app squeeze]. destruct (Ascii.eqb_spec c " ") as [-> |_]; [exfalso; apply N; now left|]. f_equal.
  destruct w as [|d w]; [reflexivity|]. apply IH; [discriminate|]. intros I. apply N. now right.
Qed.
Lemma after_word k w s : ~ In " "%char w -> after_blanks k (w ++ s) = after_blanks k s.
Proof. induction w as [|c w IH]; intros N; [reflexivity|]. cbn [app after_blanks]. destruct (Ascii.eqb_spec c " ") as [-> |_]; [exfalso; apply N; now left|]. apply IH. intros I. apply N. now right. Qed.
Lemma force_cut l f : force_line l f -> words (cut_f5 (squeeze false l)) = f.
Proof.
  intros (g1 & i & g2 & k & g3 & e & g4 & rest & -> & G1 & G2 & G3 & G4 & W & E & _).
  assert (Wi := W i (or_introl eq_refl)). assert (Wk := W k (or_intror (or_introl eq_refl))). assert (We := W e (or_intror (or_intror (or_introl eq_refl)))). clear W.
  destruct Wi as [Ni Bi], Wk as [Nk Bk], We as [Ne Be].
  rewrite squeeze_gap by exact G1. rewrite squeeze_word by assumption. rewrite squeeze_gap by exact G2. rewrite squeeze_word by assumption. rewrite squeeze_gap by exact G3. rewrite squeeze_word by assumption. rewrite squeeze_gap by exact G4.
  unfold cut_f5. cbn [existsb]. replace (Ascii.eqb " " " ") with true by reflexivity. cbn [orb after_blanks]. replace (Ascii.eqb " " " ") with true by reflexivity. rewrite after_word by exact Bi. cbn [after_blanks]. replace (Ascii.eqb " " " ") with true by reflexivity. rewrite after_word by exact Bk. cbn [after_blanks]. replace (Ascii.eqb " " " ") with true by reflexivity. rewrite after_word by exact Be. cbn [after_blanks]. replace (Ascii.eqb " " " ") with true by reflexivity.
  unfold words in *. rewrite squeeze_words by reflexivity. exact E.
Qed.
Lemma force_words_nonempty l f : force_line l f -> words l <> [].
Proof.
  intros H E. pose proof (force_cut l f H) as C. pose proof H as H2. destruct H2 as (g1 & i & g2 & k & g3 & e & g4 & rest & EL & G1 & G2 & G3 & G4 & W & ER & L3 & _). subst l. clear H C.
  assert (Wi := W i (or_introl eq_refl)). destruct Wi as [Ni Bi].
  assert (X : forall s t acc, split_ws acc (s ++ t) = [] -> split_ws [] t = []).
  { clear. induction s as [|c s IH]; intros t acc H; cbn [app split_ws] in H.
    - revert acc H. induction t as [|d t IHt]; intros acc H; [reflexivity|]. cbn [split_ws] in *. destruct (is_space d); [destruct acc; [exact H|discriminate]|]. exfalso. clear IHt.
      revert H. generalize (acc ++ [d]), (app_cons_not_nil acc [] d). intros a N. revert a N. induction t as [|x t IH]; intros a N H; cbn [split_ws] in H; [destruct a; [now apply N|discriminate]|]. destruct (is_space x); [destruct a; [now apply N|discriminate]|]. apply (IH (a ++ [x])); [apply app_cons_not_nil|exact H].
    - destruct (is_space c); [destruct acc; [now apply (IH t [])|discriminate]|]. now apply (IH t (acc ++ [c])). }
  unfold words in *. apply X in E. apply X in E. apply X in E. apply X in E. apply X in E. apply X in E. apply X in E. rewrite E in ER. subst f. discriminate L3.
Qed.
(** ** Forces in the output file *)
Definition keepo (l : pstr) : bool := negb (existsb (fun p => contains p l) [text "ATOM"; s_dd; text "Kind"]).
Lemma forces_atom l : contains s_forces l = true -> contains (text "ATOM") l = true.
Proof. rewrite !text_iff. intros (a & b & ->). exists a, (text "IC FORCES in" ++ b). reflexivity. Qed.
Lemma keepo_marks l : contains s_forces l = true -> keepo l = false.
Proof. intros H. unfold keepo. cbn [existsb]. now rewrite (forces_atom l H). Qed.
Lemma no_forces l : ~ with_text (text "ATOMIC FORCES in") l -> contains s_forces l = false. Proof. apply no_text. Qed.
Lemma yes_forces l : with_text (text "ATOMIC FORCES in") l -> contains s_forces l = true. Proof. apply yes_text. Qed.
Lemma egrep_keepo n ls : egrep_v [text "ATOM"; s_dd; text "Kind"] (grep_after n s_forces ls) = behind n s_forces keepo 0 ls.
Proof. unfold egrep_v, grep_after. apply grep_behind; [reflexivity|exact keepo_marks]. Qed.
Lemma force_kept l f : force_line l f -> contains s_forces l = false /\ keepo l = true.
Proof.
  intros (g1 & i & g2 & k & g3 & e & g4 & rest & _ & _ & _ & _ & _ & _ & _ & _ & N1 & N2 & N3).
  apply no_text in N1, N2, N3. split; [|unfold keepo; cbn [existsb]; change s_dd with (text "--"); now rewrite N1, N2, N3]. destruct (contains s_forces l) eqn:E; [|reflexivity]. apply forces_atom in E. congruence.
Qed.
Lemma blank_none w l : words l = [] -> ~ is_space w = true -> forall p, contains (w :: p) l = false.
Proof.
  intros E N p. apply contains_first. intros I. apply N. clear N p. unfold words in E. revert E. assert (X : forall acc, split_ws acc l = [] -> is_space w = true).
  { induction l as [|c l IH]; [destruct I|]. intros acc E. cbn [split_ws] in E. destruct (is_space c) eqn:S.
    - destruct I as [-> |I]; [exact S|]. destruct acc; [now apply (IH I [])|discriminate].
    - exfalso. assert (NE : acc ++ [c] <> []) by (destruct acc; discriminate). clear - E NE. revert E NE. generalize (acc ++ [c]). clear. induction l as [|x l IH]; intros a E NE; cbn [split_ws] in E; [destruct a; congruence|]. destruct (is_space x); [destruct a; congruence|]. apply (IH _ E). destruct a; discriminate. }
  apply X.
Qed.
Lemma nb_true l w ws : words l = w :: ws -> negb (blank_line l) = true. Proof. intros E. now rewrite (not_blank _ _ _ E). Qed.
Lemma text_nonblank c p l : is_space c = false -> with_text (c :: p) l -> negb (blank_line l) = true.
Proof.
  intros S H. destruct (words l) as [|w ws] eqn:E; [|now apply (nb_true l w ws)]. exfalso. apply text_iff in H. rewrite (blank_none c l E) in H; [discriminate|]. congruence.
Qed.
Lemma empty_blank l : words l = [] -> blank_line l = true. Proof. intros E. unfold blank_line. unfold words in E. now rewrite E. Qed.
Definition block_rest (p : out_piece) (r : list pstr) : Prop := match p with Line _ => r = [] | Block fs => Forall2 force_line r fs end.
Notation nb := (fun l => negb (blank_line l)).
Lemma filter_all {A} (f : A -> bool) l : Forall (fun x => f x = true) l -> List.filter f l = l.
Proof. induction 1 as [|x l H _ IH]; [reflexivity|]. cbn. now rewrite H, IH. Qed.
Lemma force_nb rest fs : Forall2 force_line rest fs -> List.filter nb rest = rest.
Proof. intros F. apply filter_all. induction F as [|l f rest fs H _ IH]; constructor; [|exact IH]. destruct (words l) as [|w ws] eqn:E; [now apply force_words_nonempty in H|now apply (nb_true l w ws)]. Qed.
Lemma out_blocks n ps lss : Forall2 (prints_out n) ps lss ->
  exists rests, Forall2 block_rest ps rests /\ behind (n + 1) s_forces keepo 0 (List.filter nb (concat lss)) = concat rests.
Proof.
  induction 1 as [|p ls ps lss H _ (rests & F & E)]; [exists []; split; [constructor|reflexivity]|]. destruct p as [l|fs].
  - destruct H as [-> N]. exists ([] :: rests). split; [constructor; [reflexivity|exact F]|]. cbn [concat app List.filter]. destruct (blank_line l) eqn:B; cbn [negb]; [exact E|]. cbn [behind]. rewrite (no_forces _ N). exact E.
  - destruct H as (h & e1 & t & rest & -> & Hh & E1 & Ht & Nt & L & FR). exists (rest :: rests). split; [constructor; [exact FR|exact F]|].
    cbn [concat]. rewrite filter_app. cbn [List.filter app]. rewrite (text_nonblank "A" (text "TOMIC FORCES in") h eq_refl Hh). rewrite filter_app. rewrite (filter_none _ e1) by (eapply Forall_impl; [|exact E1]; intros l EL; cbn; now rewrite (empty_blank l EL)).
    cbn [app List.filter]. rewrite (text_nonblank "K" (text "ind") t eq_refl Ht). rewrite (force_nb _ _ FR). cbn [app]. rewrite behind_mark by (now apply yes_forces). rewrite Nat.add_1_r. cbn [app behind]. rewrite (no_forces _ Nt).
    assert (KT : keepo t = false) by (unfold keepo; cbn [existsb]; rewrite (yes_text _ _ Ht); now rewrite !orb_true_r). rewrite KT. cbn [app]. rewrite behind_take_k.
    + now rewrite <- Nat.add_1_r, E.
    + rewrite (f2_len FR). now symmetry.
    + clear - FR. induction FR as [|l f rest fs H _ IH]; constructor; [now apply (force_kept l f)|exact IH].
Qed.
Lemma out_count n ps lss : Forall2 (prints_out n) ps lss -> grep_c s_forces (concat lss) = length (blocks ps).
Proof.
  induction 1 as [|p ls ps lss H _ IH]; [reflexivity|]. cbn [concat blocks flat_map]. rewrite grep_c_app, app_length. fold (blocks ps). rewrite IH. f_equal. destruct p as [l|fs].
  - destruct H as [-> N]. unfold grep_c. cbn [List.filter length]. now rewrite (no_forces _ N).
  - destruct H as (h & e1 & t & rest & -> & Hh & E1 & Ht & Nt & L & FR). unfold grep_c. cbn [List.filter length]. rewrite (yes_forces _ Hh). cbn [length]. f_equal. rewrite filter_app, app_length. rewrite (filter_none _ e1).
    + cbn [List.filter length app]. rewrite (no_forces _ Nt). rewrite filter_none; [reflexivity|]. clear - FR. induction FR as [|l f rest fs H _ IH]; constructor; [now apply (force_kept l f)|exact IH].
    + eapply Forall_impl; [|exact E1]. intros l EL. apply (blank_none "A" l EL). discriminate.
Qed.
Lemma rests_words ps rests : Forall2 block_rest ps rests -> map words (map (fun l => cut_f5 (squeeze false l)) (concat rests)) = concat (blocks ps).
Proof.
  induction 1 as [|p r ps rests H _ IH]; [reflexivity|]. cbn [concat blocks flat_map]. rewrite !map_app, concat_app. fold (blocks ps). rewrite IH. f_equal. destruct p as [l|fs]; cbn [block_rest] in H; [now subst r|]. cbn [concat]. rewrite app_nil_r. clear - H. induction H as [|l f rest fs H _ IH]; [reflexivity|]. cbn [map]. now rewrite (force_cut l f H), IH.
Qed.
Lemma blocks_shape n ps lss : Forall2 (prints_out n) ps lss -> Forall (fun t => length t = n /\ Forall (fun r => length r = 3) t) (blocks ps).
Proof.
  induction 1 as [|p ls ps lss H _ IH]; [constructor|]. cbn [blocks flat_map]. apply Forall_app. split; [|exact IH]. destruct p as [l|fs]; [constructor|]. constructor; [|constructor]. destruct H as (h & e1 & t & rest & _ & _ & _ & _ & _ & L & FR). split; [exact L|].
  clear - FR. induction FR as [|l f rest fs H _ IH]; constructor; [|exact IH]. now destruct H as (? & ? & ? & ? & ? & ? & ? & ? & _ & _ & _ & _ & _ & _ & _ & L & _).
Qed.
(** ** The kind of run *)
Lemma type_last q : (forall c, In c q -> c <> "t"%char) -> forall u1 u2, u1 <> [] -> text "type" ++ q = u1 ++ u2 -> is_prefix (text "type") u2 = false.
Proof.
  intros N u1 u2 NE E. destruct (is_prefix (text "type") u2) eqn:P; [|reflexivity]. exfalso. pose proof P as P1. apply is_prefix_spec in P1 as [z Z]. destruct u1 as [|a u1]; [congruence|]. injection E as _ E.
  assert (I : In "t"%char (text "ype" ++ q)) by (change ("y"%char :: "p"%char :: "e"%char :: q) with (text "ype" ++ q) in E; rewrite E; apply in_or_app; right; rewrite Z; now left).
  apply in_app_or in I as [I|I]; [cbn in I; repeat (destruct I as [I|I]; [discriminate I|]); destruct I|]. now apply (N _ I).
Qed.
Lemma run_read out w : says_run out w -> run_type out = w.
Proof.
  intros (a & l & b & -> & NA & p & q & g & h & EL & G & H & NW & W). unfold run_type.
  assert (F : find (in_order [text "GLOBAL"; text "Run type"]) (a ++ l :: b) = Some l).
  { induction a as [|x a IH].
    - cbn [app find]. replace (in_order _ l) with true; [reflexivity|]. symmetry. apply order_iff. rewrite EL. exists p. eexists. split; [reflexivity|]. exists q. eexists. split; [reflexivity|exact I].
    - cbn [app find]. destruct (in_order _ x) eqn:E; [|apply IH; intros y I; apply NA; now right]. apply order_iff in E. exfalso. apply (NA x); [now left|]. destruct E as (u & t1 & -> & v & t2 & -> & _). now exists u, v, t2. }
  match goal with |- match ?x with _ => _ end = _ => replace x with (Some l) by (symmetry; exact F) end.
  assert (E2 : l = (p ++ text "GLOBAL" ++ q ++ text "Run ") ++ text "type" ++ g ++ w ++ h) by (rewrite EL, <- !app_assoc; reflexivity). rewrite E2.
  unfold sed_1, re_match. set (pre := p ++ text "GLOBAL" ++ q ++ text "Run ").
  assert (M : m type_re (pre ++ text "type" ++ g ++ w ++ h) [] (fun s c => Some (s, c)) = Some ([], [(1, w ++ h)])).
  { unfold type_re. apply dots_last; [discriminate| |].
    - apply type_last. intros c I E. subst c. apply in_app_or in I as [I|I]; [now apply (proj2 G) in I|]. apply in_app_or in I as [I|I]; [now apply W in I as [_ I]|now apply H in I].
    - rewrite seq_m. apply plus_some; [exact (proj1 G)|apply blank_space, G| |].
      + destruct w as [|c w]; [congruence|]. cbn. now apply (W c (or_introl eq_refl)).
      + rewrite seq_m. cbn [m]. rewrite dots_m. apply longest_some. cbn. rewrite Nat.sub_0_r, firstn_all. reflexivity. }
  rewrite M. cbn. rewrite app_nil_r. apply (strip_padded [] w h); [constructor|apply blank_space; exact H|exact NW|]. apply Forall_forall. intros c I. now apply W.
Qed.
