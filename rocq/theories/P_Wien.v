(** C108: the input written for sgroup is read as the structure. *)
From Coq Require Import Ascii String List Bool Arith ZArith Lia.
From Verif Require Import Comb CombProofs ArrayIO ArrayIOProofs Decimal DecimalProofs TextOut TextOutSpec TextOutProofs P_Decimal P_TextOut Wien WienSpec.
Import ListNotations.
Local Open Scope list_scope.
Local Open Scope nat_scope.
Local Notation length := List.length.
Local Notation Forall := List.Forall.
Local Notation word := TextOutSpec.word.

(** ** Lines of data *)
Definition push (ws : list pstr) (ds : list (list pstr)) := match ws with [] => ds | _ => ws :: ds end.
Lemma data_cons l t : one_line l -> data_lines (l ++ nl ++ t) = push (split_ws [] (before_slash l)) (data_lines t).
Proof. intros O. unfold data_lines. rewrite lines_cons by exact O. cbn [map filter]. now destruct (split_ws [] (before_slash l)). Qed.
Lemma data_nil t : data_lines (nl ++ t) = data_lines t.
Proof. change (nl ++ t) with ([] ++ nl ++ t). rewrite data_cons by (intros []). reflexivity. Qed.
Lemma before_id l : ~ In "/"%char l -> before_slash l = l.
Proof. induction l as [|c l IH]; intros H; [reflexivity|]. cbn. destruct (Ascii.eqb_spec c "/") as [-> |_]; [exfalso; apply H; now left|]. f_equal. apply IH. intros I. apply H. now right. Qed.
Lemma data_comment l t : one_line l -> data_lines (("/"%char :: l) ++ nl ++ t) = data_lines t.
Proof. intros O. rewrite data_cons; [reflexivity|]. intros [H|H]; [discriminate|now apply O]. Qed.
Lemma split_word w : word w -> split_ws [] w = [w].
Proof. intros W. apply (split_words (text " ") [w]); [apply gap_blank|repeat constructor; apply W]. Qed.
Lemma data_name s t : one_line s -> word (before_slash s) -> data_lines (s ++ nl ++ t) = [before_slash s] :: data_lines t.
Proof. intros O W. rewrite data_cons by exact O. now rewrite split_word by exact W. Qed.
Lemma fmt_slash v : ~ In "/"%char (fmt_e 16 v).
Proof. intros H. apply fmt_chars in H as [H|H]; [discriminate|]. repeat (destruct H as [H|H]; [discriminate|]). exact H. Qed.
Lemma show_slash z : ~ In "/"%char (show_int z).
Proof.
  intros H. unfold show_int, text in H. revert H. generalize (Z.to_int z) as d. intros d H.
  assert (U : forall u : Decimal.uint, ~ In "/"%char (list_ascii_of_string (DecimalString.NilEmpty.string_of_uint u))).
  { induction u; cbn; intros I; try (destruct I as [I|I]; [discriminate|auto]); exact I. }
  destruct d as [u|u]; cbn in H.
  - unfold DecimalString.NilZero.string_of_uint in H. destruct u; cbn in H; try (now apply (U (Decimal.D0 u)) in H); try (now apply (U (Decimal.D1 u)) in H).
    all: destruct H as [H|H]; [discriminate|]; try (now apply U in H). exact H.
  - destruct H as [H|H]; [discriminate|]. unfold DecimalString.NilZero.string_of_uint in H. destruct u; cbn in H.
    all: destruct H as [H|H]; [discriminate|]; try (now apply U in H). exact H.
Qed.
Lemma join_slash d ws : ~ In "/"%char d -> Forall (fun w => ~ In "/"%char w) ws -> ~ In "/"%char (join d ws).
Proof.
  intros D F. induction F as [|w ws W F IH]; [intros []|]. destruct ws as [|w' ws]; [exact W|]. change (join d (w :: w' :: ws)) with (w ++ d ++ join d (w' :: ws)).
  intros I. apply in_app_or in I as [I|I]; [now apply W|]. apply in_app_or in I as [I|I]; [now apply D|now apply IH].
Qed.
Lemma data_row row t : row <> [] -> data_lines (join (text " ") (map (fmt_e 16) row) ++ nl ++ t) = map (fmt_e 16) row :: data_lines t.
Proof.
  intros NE. assert (P : prints (fmt_e 16)) by (apply fmt_prints; lia). rewrite data_cons by (apply row_one; [exact P|apply gap_blank]).
  rewrite before_id. 2:{ apply join_slash; [intros [H|[]]; discriminate|]. apply Forall_forall. intros w H. apply in_map_iff in H as (v & <- & _). apply fmt_slash. }
  rewrite row_words; [|exact P|apply gap_blank]. destruct row; [congruence|reflexivity].
Qed.
Lemma read_row k row : length row = k -> read_numbers k (map (fmt_e 16) row) = Some row.
Proof.
  intros L. unfold read_numbers. rewrite map_length, L, Nat.eqb_refl. clear L k. induction row as [|v row IH]; [reflexivity|]. cbn [map opt_map]. rewrite read_fmt by lia. now rewrite IH.
Qed.
(** ** Atoms *)
Definition atom_of (sr : pstr * list float64) : pstr := join (text " ") (map (fmt_e 16) (snd sr)) ++ nl ++ fst sr ++ nl.
Lemma atom_texts l : Forall (fun sr => length (snd sr) = 3) l -> opt_map atom_text l = Some (map atom_of l).
Proof. induction 1 as [|[s r] l H _ IH]; [reflexivity|]. cbn [opt_map map]. unfold atom_text at 1, percent. cbn [snd fst] in *. rewrite H, Nat.eqb_refl, IH. reflexivity. Qed.
Lemma atom_text_len sr t : atom_text sr = Some t -> length (snd sr) = 3.
Proof. unfold atom_text, percent. destruct (Nat.eqb_spec (length (snd sr)) 3); [auto|discriminate]. Qed.
Lemma atom_texts_len l ts : opt_map atom_text l = Some ts -> Forall (fun sr => length (snd sr) = 3) l.
Proof.
  revert ts. induction l as [|sr l IH]; intros ts H; [constructor|]. cbn [opt_map] in H. destruct (atom_text sr) as [t|] eqn:E; [|discriminate].
  destruct (opt_map atom_text l) as [r|] eqn:E'; [|discriminate]. constructor; [now apply atom_text_len in E|now apply (IH r)].
Qed.
Definition cut (sr : pstr * list float64) := (before_slash (fst sr), snd sr).
Lemma data_atoms l : Forall (fun sr => length (snd sr) = 3 /\ readable_symbol (fst sr)) l ->
  data_lines (concat (map atom_of l)) = concat (map (fun sr => [map (fmt_e 16) (snd sr); [before_slash (fst sr)]]) l).
Proof.
  induction 1 as [|[s r] l (L & O & W) _ IH]; [reflexivity|]. cbn [map concat fst snd] in *. unfold atom_of at 1. cbn [fst snd]. rewrite <- !app_assoc.
  rewrite data_row by (intros ->; discriminate). rewrite data_name by assumption. rewrite IH. reflexivity.
Qed.
Lemma read_all l n : Forall (fun sr => length (snd sr) = 3) l ->
  read_atoms n (concat (map (fun sr => [map (fmt_e 16) (snd sr); [before_slash (fst sr)]]) l)) = if n <=? length l then Some (firstn n (map cut l)) else None.
Proof.
  intros F. revert n. induction F as [|[s r] l L _ IH]; intros [|n]; try reflexivity. cbn [map concat app fst snd read_atoms length Nat.leb firstn] in *.
  rewrite read_row by exact L. rewrite IH. destruct (n <=? length l); reflexivity.
Qed.
(** ** The text *)
Lemma some_eq {A} (a b : A) : Some a = Some b -> a = b.
Proof. now intros [= H]. Qed.
Lemma text_is cc syms coords lat txt : wien_sgroup_input (Structure (Some cc) (Some syms) (Some coords)) lat = Some txt ->
  length cc = 6 /\ Forall (fun sr => length (snd sr) = 3) (combine syms coords) /\
  txt = text "/ lattice type symbol" ++ nl ++ lat ++ nl ++ nl ++ text "/ a b c alpha beta gamma" ++ nl ++ join (text " ") (map (fmt_e 16) cc) ++ nl ++ nl ++
        text "/ number of atoms" ++ nl ++ show_nat (length syms) ++ nl ++ nl ++ text "/ atom list (crystal cooords)" ++ nl ++ concat (map atom_of (combine syms coords)).
Proof.
  unfold wien_sgroup_input. cbn [cryst_const symbols coords_frac]. unfold percent at 1. destruct (Nat.eqb_spec (length cc) 6) as [L|]; [|discriminate].
  destruct (opt_map atom_text _) as [ts|] eqn:E; [|discriminate]. intros H. split; [exact L|]. pose proof (atom_texts_len _ _ E) as F. split; [exact F|].
  rewrite atom_texts in E by exact F. injection E as <-. apply some_eq in H. rewrite <- H. unfold empty. rewrite <- !app_assoc. reflexivity.
Qed.
Lemma read_text cc syms coords lat txt : wien_sgroup_input (Structure (Some cc) (Some syms) (Some coords)) lat = Some txt ->
  readable_symbol lat -> Forall readable_symbol syms ->
  read_sgroup txt = if length syms <=? length coords then Some (Crystal (before_slash lat) cc (combine (map before_slash syms) coords)) else None.
Proof.
  intros H (LO & LW) FS. apply text_is in H as (L6 & F3 & ->).
  assert (D : forall l t, one_line (text l) -> data_lines ((text (String "/" l)) ++ nl ++ t) = data_lines t) by (intros l t; apply data_comment).
  assert (OL : forall l, forallb (fun c => negb (Ascii.eqb c "010")) (text l) = true -> one_line (text l)).
  { intros l H I. rewrite forallb_forall in H. apply H in I. discriminate. }
  unfold read_sgroup. rewrite (D " lattice type symbol"%string) by now apply OL. rewrite data_name by assumption. rewrite data_nil.
  rewrite (D " a b c alpha beta gamma"%string) by now apply OL. rewrite data_row by (intros ->; discriminate). rewrite data_nil.
  rewrite (D " number of atoms"%string) by now apply OL.
  assert (SN : before_slash (show_nat (length syms)) = show_nat (length syms)) by (apply before_id, show_slash).
  rewrite data_name by first [apply word_line, show_word|rewrite SN; apply show_word]. rewrite SN, data_nil.
  rewrite (D " atom list (crystal cooords)"%string) by now apply OL.
  rewrite data_atoms. 2:{ apply Forall_forall. intros [s r] I. rewrite Forall_forall in F3, FS. split; [now apply F3|]. apply FS. now apply in_combine_l in I. }
  rewrite read_row by exact L6. unfold show_nat. rewrite read_show, Nat2Z.id. rewrite read_all by exact F3.
  rewrite combine_length. destruct (Nat.leb_spec (length syms) (length coords)) as [LE|GT].
  - rewrite Nat.min_l by exact LE. rewrite Nat.leb_refl. cbn [option_map]. f_equal. f_equal.
    rewrite firstn_all2 by (rewrite map_length, combine_length; lia). clear. revert coords. induction syms as [|s syms IH]; intros [|r coords]; try reflexivity. cbn. f_equal. apply IH.
  - rewrite Nat.min_r by lia. destruct (Nat.leb_spec (length syms) (length coords)); [lia|reflexivity].
Qed.
Lemma name_readable s : name s -> readable_symbol s /\ before_slash s = s.
Proof. intros [W N]. pose proof (before_id s N) as B. split; [|exact B]. split; [now apply word_line|now rewrite B]. Qed.
Lemma names_readable syms : Forall name syms -> Forall readable_symbol syms /\ map before_slash syms = syms.
Proof. induction 1 as [|s syms N _ [F M]]; [split; [constructor|reflexivity]|]. destruct (name_readable s N) as [R B]. split; [now constructor|]. cbn. now rewrite B, M. Qed.

(** ** C108 *)
(** The call returns exactly if all is set, with six lattice constants and three coordinates per
    atom. *)
Theorem C108_returns struct lat : (exists txt, wien_sgroup_input struct lat = Some txt) <->
  exists cc syms coords, cryst_const struct = Some cc /\ symbols struct = Some syms /\ coords_frac struct = Some coords /\
    length cc = 6 /\ Forall (fun r => length r = 3) (firstn (length syms) coords).
Proof.
  assert (E : forall (syms : list pstr) coords, Forall (fun sr : pstr * list float64 => length (snd sr) = 3) (combine syms coords) <-> Forall (fun r => length r = 3) (firstn (length syms) coords)).
  { induction syms as [|s syms IH]; intros [|r coords]; cbn; split; intros H; try constructor; inversion H; subst; try assumption; now apply IH. }
  destruct struct as [[cc|] [syms|] [coords|]]; (split; [intros (txt & H)|intros (cc' & syms' & coords' & A & B & C & D & F)]); cbn in *; try discriminate.
  - apply text_is in H as (L & F & _). exists cc, syms, coords. repeat split; auto. now apply E.
  - injection A as <-. injection B as <-. injection C as <-. unfold wien_sgroup_input. cbn. unfold percent. rewrite D. cbn [Nat.eqb]. rewrite atom_texts by now apply E. eexists. reflexivity.
Qed.
(** sgroup reads the lattice, the lattice constants and the atoms in order, bit by bit. *)
Theorem C108_reads cc syms coords lat : name lat -> Forall name syms -> length cc = 6 -> Forall (fun r => length r = 3) coords -> length syms = length coords ->
  exists txt, wien_sgroup_input (Structure (Some cc) (Some syms) (Some coords)) lat = Some txt /\ read_sgroup txt = Some (Crystal lat cc (combine syms coords)).
Proof.
  intros N NS L F E. destruct (proj2 (C108_returns (Structure (Some cc) (Some syms) (Some coords)) lat)) as (txt & H).
  - exists cc, syms, coords. cbn. repeat split; auto. rewrite E, firstn_all. exact F.
  - exists txt. split; [exact H|]. destruct (name_readable lat N) as [R B], (names_readable syms NS) as [RS BS]. rewrite (read_text _ _ _ _ _ H R RS), E, Nat.leb_refl, B, BS. reflexivity.
Qed.
Lemma combine_inj {A B} (a a' : list A) (b b' : list B) : length a = length b -> length a' = length b' -> combine a b = combine a' b' -> a = a' /\ b = b'.
Proof.
  revert b a' b'. induction a as [|x a IH]; intros [|y b] [|x' a'] [|y' b'] L L' H; try discriminate; [split; reflexivity|]. injection H as -> -> H.
  destruct (IH b a' b') as [-> ->]; [now injection L|now injection L'|exact H|]. split; reflexivity.
Qed.
(** Different structures have different files. *)
Theorem C108_different cc syms coords lat cc' syms' coords' lat' txt : name lat -> name lat' -> Forall name syms -> Forall name syms' ->
  length syms = length coords -> length syms' = length coords' ->
  wien_sgroup_input (Structure (Some cc) (Some syms) (Some coords)) lat = Some txt -> wien_sgroup_input (Structure (Some cc') (Some syms') (Some coords')) lat' = Some txt ->
  cc = cc' /\ syms = syms' /\ coords = coords' /\ lat = lat'.
Proof.
  intros N N' NS NS' E E' H H'. destruct (name_readable lat N) as [R B], (names_readable syms NS) as [RS BS], (name_readable lat' N') as [R' B'], (names_readable syms' NS') as [RS' BS'].
  pose proof (read_text _ _ _ _ _ H R RS) as X. rewrite (read_text _ _ _ _ _ H' R' RS') in X. rewrite E, E', !Nat.leb_refl, B, B', BS, BS' in X. injection X as -> -> X.
  destruct (combine_inj syms' syms coords' coords E' E X) as [-> ->]. auto.
Qed.
(** With more coordinates than symbols the rest is left out; with fewer the file is written all the
    same, but announces more atoms than it lists, and sgroup cannot read it. *)
Theorem C108_lengths cc syms coords lat txt : name lat -> Forall name syms -> wien_sgroup_input (Structure (Some cc) (Some syms) (Some coords)) lat = Some txt ->
  (length syms <= length coords -> read_sgroup txt = Some (Crystal lat cc (combine syms (firstn (length syms) coords)))) /\
  (length coords < length syms -> read_sgroup txt = None).
Proof.
  intros N NS H. destruct (name_readable lat N) as [R B], (names_readable syms NS) as [RS BS]. rewrite (read_text _ _ _ _ _ H R RS), B, BS. split; intros LE.
  - destruct (Nat.leb_spec (length syms) (length coords)); [|lia]. f_equal. f_equal. rewrite combine_firstn_l. reflexivity.
  - destruct (Nat.leb_spec (length syms) (length coords)); [lia|reflexivity].
Qed.
Theorem C108_short_refuted : exists struct txt, wien_sgroup_input struct (text "P") = Some txt /\ read_sgroup txt = None.
Proof.
  set (st := Structure (Some [zero; zero; zero; zero; zero; zero]) (Some [text "Al"; text "Fe"]) (Some [[zero; zero; zero]])).
  destruct (proj2 (C108_returns st (text "P"))) as (txt & H). { do 3 eexists. repeat (split; [reflexivity|]). repeat constructor. }
  exists st, txt. split; [exact H|]. apply C108_lengths in H; [apply H; cbn; lia| |].
  - split; [split; [discriminate|intros c [<- |[]]; reflexivity]|intros [I|[]]; discriminate].
  - repeat constructor; try discriminate; try (intros c [<- |[<- |[]]]; reflexivity); intros [I|[I|[]]]; discriminate.
Qed.
(** A symbol with a slash is cut there. *)
Theorem C108_slash cc syms coords lat txt : readable_symbol lat -> Forall readable_symbol syms -> length syms = length coords ->
  wien_sgroup_input (Structure (Some cc) (Some syms) (Some coords)) lat = Some txt ->
  read_sgroup txt = Some (Crystal (before_slash lat) cc (combine (map before_slash syms) coords)).
Proof. intros R RS E H. rewrite (read_text _ _ _ _ _ H R RS), E, Nat.leb_refl. reflexivity. Qed.
Theorem C108_slash_refuted : exists cc coords txt txt', let struct s := Structure (Some cc) (Some [text s]) (Some coords) in
  wien_sgroup_input (struct "Al"%string) (text "P") = Some txt /\ wien_sgroup_input (struct "Al/1"%string) (text "P") = Some txt' /\ read_sgroup txt = read_sgroup txt' /\ read_sgroup txt <> None.
Proof.
  set (cc := [zero; zero; zero; zero; zero; zero]). set (coords := [[zero; zero; zero]]).
  assert (X : forall s, exists txt, wien_sgroup_input (Structure (Some cc) (Some [text s]) (Some coords)) (text "P") = Some txt).
  { intros s. apply C108_returns. do 3 eexists. repeat (split; [reflexivity|]). repeat constructor. }
  destruct (X "Al"%string) as (txt & H), (X "Al/1"%string) as (txt' & H').
  assert (RP : readable_symbol (text "P")) by (split; [intros [I|[]]; discriminate|split; [discriminate|intros c [<- |[]]; reflexivity]]).
  assert (W : word (text "Al")) by (split; [discriminate|intros c [<- |[<- |[]]]; reflexivity]).
  assert (R1 : Forall readable_symbol [text "Al"]) by (constructor; [split; [now apply word_line|exact W]|constructor]).
  assert (R2 : Forall readable_symbol [text "Al/1"]) by (constructor; [split; [intros I; repeat (destruct I as [I|I]; [discriminate|]); exact I|exact W]|constructor]).
  exists cc, coords, txt, txt'. cbn zeta. split; [exact H|]. split; [exact H'|].
  rewrite (C108_slash cc _ coords _ _ RP R1 eq_refl H), (C108_slash cc _ coords _ _ RP R2 eq_refl H'). split; [reflexivity|discriminate].
Qed.
(** The file has the text whatever it had before, other files are left alone, and so are all if the
    call raises. *)
Theorem C108_file filename struct lat files : let '(after, ok) := write_wien_sgroup filename struct lat files in
  (forall f, f <> filename -> after f = files f) /\
  (ok = true -> exists txt, wien_sgroup_input struct lat = Some txt /\ after filename = Some txt) /\
  (ok = false -> wien_sgroup_input struct lat = None /\ after filename = files filename).
Proof.
  unfold write_wien_sgroup. destruct (wien_sgroup_input struct lat) as [txt|]; (split; [|split]); try discriminate; intros.
  - destruct (String.eqb_spec f filename); [congruence|reflexivity].
  - exists txt. split; [reflexivity|]. now rewrite String.eqb_refl.
  - reflexivity.
  - split; reflexivity.
Qed.
(** The hypotheses can be met: two atoms. *)
Example case108 : exists txt, wien_sgroup_input (Structure (Some [eps64; eps64; eps64; zero; zero; zero]) (Some [text "Al"; text "Fe"]) (Some [[zero; zero; eps64]; [eps64; zero; zero]])) (text "P") = Some txt /\
  read_sgroup txt = Some (Crystal (text "P") [eps64; eps64; eps64; zero; zero; zero] [(text "Al", [zero; zero; eps64]); (text "Fe", [eps64; zero; zero])]).
Proof.
  apply (C108_reads [eps64; eps64; eps64; zero; zero; zero] [text "Al"; text "Fe"] [[zero; zero; eps64]; [eps64; zero; zero]] (text "P")); try reflexivity.
  - split; [split; [discriminate|intros c [<- |[]]; reflexivity]|intros [I|[]]; discriminate].
  - repeat constructor; try discriminate; try (intros c [<- |[<- |[]]]; reflexivity); intros [I|[I|[]]]; discriminate.
  - repeat constructor.
Qed.
Print Assumptions C108_returns.
Print Assumptions C108_reads.
Print Assumptions C108_different.
Print Assumptions C108_lengths.
Print Assumptions C108_short_refuted.
Print Assumptions C108_slash.
Print Assumptions C108_slash_refuted.
Print Assumptions C108_file.
