From Coq Require Import Ascii String List Arith Bool Reals ZArith Lia.
From Verif Require Import Comb CombProofs Template TemplateProofs TemplateSpec ArrayIO ArrayIOProofs Grep GrepProofs Regex RegexProofs CifProofs PdbProofs MatdynFreqProofs Lammps LammpsProofs PwOut PwOutSpec.
From Verif Require TextOutProofs TextOutSpec.
Import ListNotations.
Local Open Scope list_scope.
Local Open Scope nat_scope.
Local Notation length := List.length.

(** ** Marks *)
Fixpoint chain (ws : list pstr) (s : pstr) : Prop := match ws with [] => True | w :: ws => exists a t, s = a ++ w ++ t /\ chain ws t end.
Lemma chain_more ws : forall p t, chain ws t -> chain ws (p ++ t).
Proof. destruct ws as [|w ws]; [auto|]. intros p t (a & u & -> & C). exists (p ++ a), u. split; [now rewrite <- app_assoc|exact C]. Qed.
Lemma skip_app (w t : pstr) : skipn (length w) (w ++ t) = t.
Proof. rewrite skipn_app, skipn_all, Nat.sub_diag. reflexivity. Qed.
Lemma first_sound w : forall s t, after_first w s = Some t -> exists a, s = a ++ w ++ t.
Proof.
  assert (P : forall s, is_prefix w s = true -> exists a, s = a ++ w ++ skipn (length w) s).
  { intros s H. apply is_prefix_spec in H as [z ->]. exists []. now rewrite skip_app. }
  induction s as [|c s IH]; intros t H; cbn [after_first] in H; destruct (is_prefix w _) eqn:E; try discriminate.
  - injection H as <-. now apply P.
  - injection H as <-. now apply P.
  - destruct (IH _ H) as [a ->]. now exists (c :: a).
Qed.
Lemma first_least w : forall a t, exists u, after_first w (a ++ w ++ t) = Some u /\ exists p, u = p ++ t.
Proof.
  assert (Z : forall t, after_first w (w ++ t) = Some t).
  { intros t. assert (E : is_prefix w (w ++ t) = true) by (apply is_prefix_spec; now exists t). destruct (w ++ t) as [|c s] eqn:X; cbn [after_first]; rewrite E, <- X, skip_app; reflexivity. }
  induction a as [|c a IH]; intros t; [cbn [app]; rewrite Z; exists t; split; [reflexivity|now exists []]|].
  cbn [app after_first]. destruct (is_prefix w (c :: a ++ w ++ t)) eqn:E; [|exact (IH t)].
  apply is_prefix_spec in E as [z E]. exists z. change (c :: a ++ w ++ t) with ((c :: a) ++ w ++ t) in *. rewrite E at 1. rewrite skip_app. split; [reflexivity|].
  assert (L : length ((c :: a) ++ w ++ t) = length (w ++ z)) by now rewrite E. rewrite !app_length in L. cbn [length] in L.
  exists (firstn (length z - length t) z). rewrite <- (firstn_skipn (length z - length t) z) at 1. f_equal.
  apply (f_equal (fun l => skipn (length l - length t) l)) in E. rewrite app_assoc in E. rewrite app_length, Nat.add_sub in E. rewrite skip_app in E.
  rewrite skipn_app, app_length in E. rewrite skipn_all2 in E by lia. cbn [app] in E. rewrite E at 2. f_equal. lia.
Qed.
Lemma order_iff ws : forall s, in_order ws s = true <-> chain ws s.
Proof.
  induction ws as [|w ws IH]; intros s; [now split|]. cbn [in_order chain]. split.
  - destruct (after_first w s) as [t|] eqn:E; [|discriminate]. intros H. apply IH in H. apply first_sound in E as [a ->]. now exists a, t.
  - intros (a & t & -> & C). destruct (first_least w a t) as (u & -> & p & ->). apply IH. now apply chain_more.
Qed.
Lemma eat_all g t : (forall c, In c g -> c = " "%char) -> stops (fun c => Ascii.eqb c " ") t -> eat_blanks (g ++ t) = t.
Proof.
  induction g as [|c g IH]; intros B S.
  - destruct t as [|c t]; [reflexivity|]. cbn in S |- *. now rewrite S.
  - rewrite (B c) by now left. cbn. apply IH; [intros; apply B; now right|exact S].
Qed.
Lemma eat_split s : exists g, (forall c, In c g -> c = " "%char) /\ s = g ++ eat_blanks s.
Proof.
  induction s as [|c s (g & B & E)]; [exists []; split; [intros ? []|reflexivity]|]. cbn [eat_blanks]. destruct (Ascii.eqb_spec c " ") as [-> |N].
  - exists (" "%char :: g). split; [intros c [<- |I]; [reflexivity|now apply B]|]. cbn [app]. now rewrite <- E.
  - exists []. split; [intros ? []|reflexivity].
Qed.
Fixpoint spaced_chain (ws : list pstr) (s : pstr) : Prop :=
  match ws with
  | [] => True
  | [w] => exists t, s = w ++ t
  | w :: ws => exists g t, s = w ++ g ++ t /\ blanks g /\ spaced_chain ws t
  end.
Definition solid (w : pstr) := exists c v, w = c :: v /\ c <> " "%char.
Lemma spaced_iff ws : Forall solid ws -> forall s, spaced_here ws s = true <-> spaced_chain ws s.
Proof.
  induction 1 as [|w ws W F IH]; intros s; [now split|]. destruct ws as [|w' ws].
  - cbn. apply is_prefix_spec.
  - change (spaced_here (w :: w' :: ws) s) with (is_prefix w s && (match skipn (length w) s with c :: t => Ascii.eqb c " " && spaced_here (w' :: ws) (eat_blanks t) | [] => false end)).
    change (spaced_chain (w :: w' :: ws) s) with (exists g t, s = w ++ g ++ t /\ blanks g /\ spaced_chain (w' :: ws) t).
    rewrite andb_true_iff, is_prefix_spec. split.
    + intros [[z ->] H]. rewrite skip_app in H. destruct z as [|c z]; [discriminate|]. apply andb_true_iff in H as [E H]. apply Ascii.eqb_eq in E as ->.
      destruct (eat_split z) as (g & B & E). exists (" "%char :: g), (eat_blanks z). rewrite E at 1. split; [reflexivity|]. split; [split; [discriminate|intros c [<- |I]; [reflexivity|now apply B]]|]. now apply IH.
    + intros (g & t & -> & [NE B] & C). split; [now exists (g ++ t)|]. rewrite skip_app. destruct g as [|c g]; [congruence|]. cbn [app]. rewrite (B c) by now left. rewrite Ascii.eqb_refl. cbn [andb].
      rewrite eat_all; [now apply IH|intros; apply B; now right|].
      inversion F as [|? ? (c' & v & -> & N) _]; subst. clear - C N. destruct ws as [|w'' ws]; [destruct C as [t' ->]|destruct C as (g' & t' & -> & _)]; cbn; now apply Ascii.eqb_neq.
Qed.
Lemma spaced_search ws : forall s, spaced_in ws s = true <-> exists p t, s = p ++ t /\ spaced_here ws t = true.
Proof.
  induction s as [|c s IH]; cbn [spaced_in]; rewrite orb_true_iff.
  - split; [intros [H|H]; [|discriminate]; now exists [], []|]. intros (p & t & E & H). symmetry in E. apply app_eq_nil in E as [-> ->]. now left.
  - rewrite IH. split.
    + intros [H|(p & t & -> & H)]; [now exists [], (c :: s)|now exists (c :: p), t].
    + intros ([|c' p] & t & E & H); [left; cbn in E; now rewrite E|]. injection E as -> ->. right. now exists p, t.
Qed.
Definition hasb (m : mark) : pstr -> bool :=
  match m with MEnergy => is_prefix (text "!") | MForces => is_forces | MForce => is_force | MStress => contains s_p | MPos => contains s_pos | MCell => contains s_cell end.
Lemma text_iff w l : contains w l = true <-> with_text w l.
Proof. rewrite contains_iff. split; [intros (i & a & b & E & _); now exists a, b|intros (a & b & E); now exists (length a), a, b]. Qed.
Lemma hasb_iff m l : hasb m l = true <-> has m l.
Proof.
  destruct m; cbn [hasb has]; try apply text_iff.
  - rewrite is_prefix_spec. reflexivity.
  - unfold is_forces. rewrite spaced_search. split.
    + intros (p & t & -> & H). apply spaced_iff in H; [|repeat constructor; eexists _, _; (split; [reflexivity|discriminate])].
      destruct H as (g1 & t1 & -> & B1 & g2 & t2 & -> & B2 & g3 & t3 & -> & B3 & q & ->). exists p, g1, g2, g3, q. auto.
    + intros (p & g1 & g2 & g3 & q & B1 & B2 & B3 & ->). eexists p, _. split; [reflexivity|]. apply spaced_iff; [repeat constructor; eexists _, _; (split; [reflexivity|discriminate])|].
      exists g1. eexists. split; [reflexivity|]. split; [exact B1|]. exists g2. eexists. split; [reflexivity|]. split; [exact B2|]. exists g3. eexists. split; [reflexivity|]. split; [exact B3|]. now exists q.
  - unfold is_force. rewrite order_iff. cbn [chain]. split.
    + intros (a & t1 & -> & b & t2 & -> & c & t3 & -> & _). now exists a, b, c, t3.
    + intros (a & b & c & d & ->). exists a. eexists. split; [reflexivity|]. exists b. eexists. split; [reflexivity|]. exists c. eexists. now split.
Qed.
Lemma plain_b l : plain l -> forall m, hasb m l = false.
Proof. intros H m. destruct (hasb m l) eqn:E; [|reflexivity]. apply hasb_iff in E. now apply H in E. Qed.
Lemma only_b m l : only m l -> forall m', hasb m' l = true <-> m' = m.
Proof. intros [H O] m'. rewrite hasb_iff. split; [apply O|now intros ->]. Qed.
Definition mark_dec (a b : mark) : {a = b} + {a <> b}. Proof. decide equality. Defined.
Lemma only_bb m l m' : only m l -> hasb m' l = if mark_dec m' m then true else false.
Proof. intros H. pose proof (only_b m l H m') as E. destruct (mark_dec m' m); [now apply E|]. destruct (hasb m' l); [|reflexivity]. now destruct n; apply E. Qed.
Lemma data_b l : data l -> (forall m, hasb m l = false) /\ contains s_dd l = false.
Proof. intros [P D]. split; [now apply plain_b|]. destruct (contains s_dd l) eqn:E; [|reflexivity]. apply text_iff in E. now apply D in E. Qed.

(** ** Words *)
Lemma split_are_words : forall s acc, Forall (fun c => is_space c = false) acc -> Forall TextOutSpec.word (split_ws acc s).
Proof.
  assert (W : forall a, a <> [] -> Forall (fun c => is_space c = false) a -> TextOutSpec.word a) by (intros a N F; split; [exact N|]; now rewrite Forall_forall in F).
  induction s as [|c s IH]; intros acc F; cbn [split_ws].
  - destruct acc as [|a acc]; [constructor|]. constructor; [|constructor]. now apply W.
  - destruct (is_space c) eqn:E.
    + destruct acc as [|a acc]; [apply IH; constructor|]. constructor; [now apply W|apply IH; constructor].
    + apply IH. apply Forall_app. split; [exact F|]. now constructor.
Qed.
Lemma words_ok l : Forall TextOutSpec.word (words l). Proof. apply split_are_words. constructor. Qed.
Lemma two_gap : TextOutSpec.gap (text "  ").
Proof. split; [discriminate|]. split; [intros c [<- |[<- |[]]]; reflexivity|]. cbv. intuition discriminate. Qed.
Lemma awk_words ks l ws : map (fun k => field k l) ks = ws -> Forall TextOutSpec.word ws -> split_ws [] (awk ks l) = ws.
Proof. intros <- F. unfold awk. apply TextOutProofs.split_words; [exact two_gap|exact F]. Qed.
(** the words [a .. b] of a line *)
Lemma awk_slice ks pre ws post l : words l = pre ++ ws ++ post -> ks = seq (S (length pre)) (length ws) -> split_ws [] (awk ks l) = ws.
Proof.
  intros E ->. apply awk_words.
  - unfold field. fold (words l). rewrite E. clear. revert pre. induction ws as [|w ws IH]; intros pre; [reflexivity|]. cbn [length seq map]. f_equal.
    + replace (S (length pre) - 1) with (length pre) by lia. rewrite app_nth2, Nat.sub_diag by lia. reflexivity.
    + specialize (IH (pre ++ [w])). rewrite <- app_assoc in IH. cbn [app] in IH. rewrite app_length in IH. cbn [length] in IH. rewrite Nat.add_1_r in IH. exact IH.
  - pose proof (words_ok l) as F. rewrite E in F. apply Forall_app in F as [_ F]. now apply Forall_app in F as [F _].
Qed.
(** ** Arrays *)
Section PARSE.
Variable parse : pstr -> option R.
Lemma opt_reads ts xs : reads1 parse ts xs -> opt_map parse ts = Some xs.
Proof. induction 1 as [|t x ts xs H _ IH]; [reflexivity|]. cbn. now rewrite H, IH. Qed.
Lemma opt_reads2 ts xs : reads2 parse ts xs -> opt_map (opt_map parse) ts = Some xs.
Proof. induction 1 as [|t x ts xs H _ IH]; [reflexivity|]. cbn [opt_map]. rewrite (opt_reads _ _ H). now rewrite IH. Qed.
Lemma reads_concat ts xs : reads2 parse ts xs -> reads1 parse (concat ts) (concat xs).
Proof. induction 1 as [|t x ts xs H _ IH]; [constructor|]. cbn. now apply Forall2_app. Qed.
Lemma reads_concat3 ts xs : reads3 parse ts xs -> reads2 parse (concat ts) (concat xs).
Proof. induction 1 as [|t x ts xs H _ IH]; [constructor|]. cbn. now apply Forall2_app. Qed.
Lemma reads_shape (P : nat -> Prop) ts xs : reads2 parse ts xs -> Forall (fun t => P (length t)) ts -> Forall (fun x => P (length x)) xs.
Proof. induction 1 as [|t x ts xs H _ IH]; intros F; [constructor|]. inversion F; subst. constructor; [|auto]. now rewrite <- (f2_len H). Qed.
Lemma not_blank l w ws : words l = w :: ws -> blank_line l = false.
Proof. intros H. unfold blank_line. unfold words in H. now rewrite H. Qed.
Lemma chunk_rows {A} b (v : list (list A)) : length v = b -> Forall (fun r => length r = 3) v -> chunk 3 b (concat v) = v.
Proof. intros <- F. now apply chunk_concat. Qed.
Lemma traj_ok b lines txts vals : txts <> [] -> b <> 0 -> map words lines = concat txts -> reads3 parse txts vals ->
  Forall (fun t => length t = b /\ Forall (fun r => length r = 3) t) txts ->
  traj_from_txt parse (length txts) b lines = Some (Some vals).
Proof.
  intros NE NB W R F. unfold traj_from_txt.
  assert (BL : forallb blank_line lines = false).
  { destruct txts as [|t txts]; [congruence|]. inversion F as [|? ? [L FR] _]; subst. destruct t as [|r t]; [cbn in NB; congruence|]. inversion FR as [|? ? LR _]; subst. destruct r as [|w r]; [discriminate LR|].
    destruct lines as [|l lines]; [discriminate W|]. cbn [map concat app] in W. injection W as W _. cbn [forallb]. now rewrite (not_blank _ _ _ W). }
  rewrite BL. unfold fromstring. change (split_ws []) with words. rewrite W. rewrite (opt_reads _ (concat (concat vals))) by (apply reads_concat, reads_concat3, R).
  assert (FV : Forall (fun v => length v = b /\ Forall (fun r => length r = 3) v) vals).
  { clear - R F. induction R as [|t x txts vals H _ IH]; [constructor|]. inversion F as [|? ? [L FR] F']; subst. constructor; [|auto]. split; [now rewrite <- (f2_len H)|]. now apply (reads_shape (fun n => n = 3) _ _ H). }
  assert (E : concat (concat vals) = concat (map (@concat _) vals)).
  { clear. induction vals as [|v vals IH]; [reflexivity|]. cbn [map concat]. now rewrite concat_app, IH. }
  rewrite E. rewrite (f2_len R). rewrite <- (map_length (@concat _) vals). rewrite reshape_concat.
  - f_equal. f_equal. rewrite map_map. rewrite <- (map_id vals) at 2. apply map_ext_in. intros v I. rewrite Forall_forall in FV. destruct (FV v I) as [L FR]. now apply chunk_rows.
  - apply Forall_map. eapply Forall_impl; [|exact FV]. intros v [L FR]. rewrite (concat_length 3) by exact FR. now rewrite L.
Qed.
Lemma filter_words lines ts : map words lines = ts -> Forall (fun t => t <> []) ts -> List.filter (fun r => match r with [] => false | _ => true end) (map (split_ws []) lines) = ts.
Proof. change (split_ws []) with words. intros -> F. induction F as [|t ts N _ IH]; [reflexivity|]. cbn [List.filter]. destruct t; [congruence|]. now rewrite IH. Qed.
Lemma load_ok lines ts xs n : n <> 0 -> map words lines = ts -> reads2 parse ts xs -> Forall (fun t => length t = n) ts -> loadtxt parse lines = Some xs.
Proof.
  intros N W R F. unfold loadtxt. rewrite (filter_words _ _ W); [|eapply Forall_impl; [|exact F]; intros t L ->; cbn in L; congruence].
  rewrite (opt_reads2 _ _ R). assert (FX := reads_shape (fun k => k = n) _ _ R F).
  replace (forallb (fun r => length r =? length (hd [] xs)) xs) with true; [reflexivity|]. symmetry. destruct xs as [|x xs]; [reflexivity|]. apply forallb_forall. intros r I. apply Nat.eqb_eq. cbn [hd].
  rewrite Forall_forall in FX. rewrite (FX r I). symmetry. apply FX. now left.
Qed.
Lemma blank_words lines ts n : n <> 0 -> ts <> [] -> map words lines = ts -> Forall (fun t => length t = n) ts -> forallb blank_line lines = false.
Proof.
  intros N NE <- F. destruct lines as [|l lines]; [cbn in NE; congruence|]. cbn [map] in F. inversion F as [|? ? L _]; subst. cbn [forallb]. destruct (words l) as [|w ws] eqn:E; [cbn in N; congruence|]. now rewrite (not_blank _ _ _ E).
Qed.
Lemma arr1_ok lines ts xs : ts <> [] -> map words lines = map (fun t => [t]) ts -> reads1 parse ts xs -> arr1d_from_txt parse lines = Some (Some xs).
Proof.
  intros NE W R. unfold arr1d_from_txt.
  assert (F : Forall (fun t => length t = 1) (map (fun t : pstr => [t]) ts)) by (apply Forall_map, Forall_forall; reflexivity).
  assert (NM : map (fun t : pstr => [t]) ts <> []) by (destruct ts; [congruence|discriminate]).
  assert (N1 : 1 <> 0) by discriminate. rewrite (blank_words lines _ 1 N1 NM W F).
  assert (R2 : reads2 parse (map (fun t => [t]) ts) (map (fun x => [x]) xs)).
  { clear - R. induction R as [|t x ts xs H _ IH]; [constructor|]. cbn [map]. constructor; [constructor; [exact H|constructor]|exact IH]. }
  rewrite (load_ok lines _ _ 1 N1 W R2 F).
  replace (forallb _ _) with true by (symmetry; apply forallb_forall; intros r I; apply in_map_iff in I as (x & <- & _); reflexivity).
  f_equal. f_equal. clear. induction xs as [|x xs IH]; [reflexivity|]. cbn. now rewrite IH.
Qed.
Lemma arr2_ok lines ts xs : ts <> [] -> map words lines = ts -> reads2 parse ts xs -> Forall (fun t => length t = 3) ts -> arr2d_from_txt parse lines = Some (Some xs).
Proof. intros NE W R F. assert (N3 : 3 <> 0) by discriminate. unfold arr2d_from_txt. rewrite (blank_words lines _ 3 N3 NE W F). now rewrite (load_ok lines _ _ 3 N3 W R F). Qed.
End PARSE.
(** ** sed *)
Lemma dots_m {A} s c (k : pstr -> caps -> option A) : m dots s c k = longest s [] (fun s => k s c).
Proof. rewrite <- (app_nil_r s) at 1. unfold dots. apply star_class; [apply Forall_forall; reflexivity|exact I]. Qed.
Lemma dots_last {A} w r p q c (k : pstr -> caps -> option A) v : w <> [] -> (forall u1 u2, u1 <> [] -> w ++ q = u1 ++ u2 -> is_prefix w u2 = false) ->
  m r q c k = Some v -> m (Seq dots (Seq (Lit w) r)) (p ++ w ++ q) c k = Some v.
Proof.
  intros NE N H. rewrite seq_m, dots_m, longest_app. destruct w as [|a w]; [congruence|]. cbn [app longest].
  rewrite (longest_none (w ++ q)).
  - cbn [orelse]. rewrite app_nil_r. change (a :: w ++ q) with ((a :: w) ++ q). rewrite seq_m, lit_match, H by discriminate. reflexivity.
  - intros u1 u2 E. rewrite app_nil_r. rewrite seq_m. apply lit_fail; [discriminate|]. apply (N (a :: u1)); [discriminate|]. cbn [app]. now rewrite E.
Qed.
Lemma eq_last q : ~ In "="%char q -> forall u1 u2, u1 <> [] -> text "=" ++ q = u1 ++ u2 -> is_prefix (text "=") u2 = false.
Proof.
  intros N u1 u2 NE E. destruct u1 as [|a u1]; [congruence|]. injection E as _ E. destruct (is_prefix (text "=") u2) eqn:P; [|reflexivity]. exfalso. apply N. rewrite E. apply in_or_app. right. now apply prefix_in in P.
Qed.
Lemma blank_space g : (forall c, In c g -> c = " "%char) -> all is_space g.
Proof. intros B. apply Forall_forall. intros c I. now rewrite (B c I). Qed.
Lemma no_eq_digits n : ~ In "="%char (show_int (Z.of_nat n)).
Proof. intros I. pose proof (nat_digits n) as F. unfold all in F. rewrite Forall_forall in F. now apply F in I. Qed.
Lemma sed_natoms p g n t : blanks g -> (forall c, In c t -> c = " "%char) -> sed_1 natoms_re (p ++ text "=" ++ g ++ show_int (Z.of_nat n) ++ t) = show_int (Z.of_nat n).
Proof.
  intros [NE B] T. unfold sed_1, re_match.
  assert (H : m natoms_re (p ++ text "=" ++ g ++ show_int (Z.of_nat n) ++ t) [] (fun s c => Some (s, c)) = Some ([], [(1, show_int (Z.of_nat n))])).
  { unfold natoms_re. apply dots_last; [discriminate| |].
    - apply eq_last. intros I. apply in_app_or in I as [I|I]; [now apply B in I|]. apply in_app_or in I as [I|I]; [now apply no_eq_digits in I|now apply T in I].
    - rewrite seq_m. apply plus_some; [exact NE|now apply blank_space|apply digit_stop|]. rewrite seq_m. apply group_some; [apply show_nonempty|apply nat_digits|destruct t as [|c t]; [exact I|cbn; now rewrite (T c (or_introl eq_refl))]|].
      rewrite dots_m. now apply longest_some. }
  rewrite H. cbn. apply app_nil_r.
Qed.
Lemma lstrip_blank g s : all is_space g -> lstrip (g ++ s) = lstrip s.
Proof. induction 1 as [|c g H _ IH]; [reflexivity|]. cbn. now rewrite H. Qed.
Lemma lstrip_stop s : stops is_space s -> lstrip s = s.
Proof. destruct s as [|c s]; [reflexivity|]. intros H. cbn in *. now rewrite H. Qed.
Lemma strip_padded g x h : all is_space g -> all is_space h -> x <> [] -> Forall (fun c => is_space c = false) x -> strip (g ++ x ++ h) = x.
Proof.
  intros G H N X. unfold strip. rewrite lstrip_blank by exact G.
  assert (S1 : lstrip (x ++ h) = x ++ h) by (apply lstrip_stop, stops_app; [exact N|]; destruct x; [exact I|exact (Forall_inv X)]).
  rewrite S1, rev_app_distr. rewrite lstrip_blank by (apply Forall_rev; exact H). rewrite lstrip_stop; [apply rev_involutive|].
  apply Forall_rev in X. destruct (rev x); [exact I|exact (Forall_inv X)].
Qed.
Lemma strip_word x : x <> [] -> Forall (fun c => is_space c = false) x -> strip x = x.
Proof. intros N X. rewrite <- (app_nil_r x) at 1. apply (strip_padded [] x []); auto; constructor. Qed.
Lemma words_padded g x h : all is_space g -> all is_space h -> x <> [] -> Forall (fun c => is_space c = false) x -> words (g ++ x ++ h) = [x].
Proof.
  intros G H N X. unfold words. rewrite split_ws_blank by exact G. destruct h as [|c h]; [rewrite app_nil_r; now apply split_ws_last|].
  rewrite split_ws_item; [|exact X|exact (Forall_inv H)|exact N]. cbn [app]. f_equal. rewrite <- (app_nil_r h). rewrite split_ws_blank by exact (Forall_inv_tail H). reflexivity.
Qed.
Lemma sed_alat p g x h : blanks g -> (forall c, In c h -> c = " "%char) -> (forall c, In c x -> c <> "="%char) ->
  sed_1 alat_re (p ++ text "=" ++ g ++ x ++ h ++ text " a.u.") = g ++ x ++ h.
Proof.
  intros [NE B] T X. unfold sed_1, re_match.
  assert (H : m alat_re (p ++ text "=" ++ g ++ x ++ h ++ text " a.u.") [] (fun s c => Some (s, c)) = Some ([], [(1, g ++ x ++ h)])).
  { unfold alat_re. apply dots_last; [discriminate| |].
    - apply eq_last. intros I. repeat (apply in_app_or in I as [I|I]); [now apply B in I|now apply X in I|now apply T in I|]. cbv in I. intuition discriminate.
    - rewrite seq_m. set (s := g ++ x ++ h ++ text " a.u.").
      change (m dots s [] (fun s' c' => m (Seq (Plus (Chr is_space)) (Lit (text "a.u."))) s' ((1, firstn (length s - length s') s) :: c') (fun s c => Some (s, c))) = Some ([], [(1, g ++ x ++ h)])).
      rewrite dots_m. replace (longest s) with (@longest (pstr * caps) ((g ++ x ++ h) ++ text " a.u.")) by (unfold s; now rewrite <- !app_assoc). rewrite longest_app.
      set (f := fun s0 => m (Seq (Plus (Chr is_space)) (Lit (text "a.u."))) s0 [(1, firstn (length s - length s0) s)] (fun s c => Some (s, c))).
      assert (V : f (text " a.u.") = Some ([], [(1, g ++ x ++ h)])).
      { unfold f. replace s with ((g ++ x ++ h) ++ text " a.u.") by (unfold s; now rewrite <- !app_assoc). rewrite taken. reflexivity. }
      assert (W : longest (text " a.u.") [] f = Some ([], [(1, g ++ x ++ h)])) by (transitivity (f (text " a.u.")); [reflexivity|exact V]).
      change (orelse (longest (text " a.u.") [] f) (longest (g ++ x ++ h) (text " a.u." ++ []) f) = Some ([], [(1, g ++ x ++ h)])). now rewrite W. }
  rewrite H. cbn. apply app_nil_r.
Qed.
Lemma sed_factor x : x <> [] -> all float_char x -> forall g, (forall c, In c g -> c = " "%char) -> forall p, sed_1 factor_re (p ++ text "alat=" ++ g ++ x ++ text ")") = x.
Proof.
  intros NE F g B p. unfold sed_1, re_match.
  assert (NX : forall c, In c (g ++ x ++ text ")") -> c <> "="%char /\ c <> "l"%char).
  { intros c I. apply in_app_or in I as [I|I]; [apply B in I as ->; split; discriminate|]. apply in_app_or in I as [I|I].
    - unfold all in F. rewrite Forall_forall in F. apply F in I. split; intros ->; discriminate I.
    - destruct I as [<- |[]]. split; discriminate. }
  assert (H : m factor_re (p ++ text "alat=" ++ g ++ x ++ text ")") [] (fun s c => Some (s, c)) = Some ([], [(1, x)])).
  { unfold factor_re. change (text "alat=" ++ g ++ x ++ text ")") with (text "alat" ++ (text "=" ++ g ++ x ++ text ")")). apply dots_last; [discriminate| |].
    - intros u1 u2 N E. destruct (is_prefix (text "alat") u2) eqn:P; [exfalso|reflexivity]. apply is_prefix_spec in P as [z ->].
      assert (Q : nth_error (u1 ++ text "alat" ++ z) (length u1 + 1) = Some "l"%char) by (rewrite nth_error_app2 by lia; replace (length u1 + 1 - length u1) with 1 by lia; reflexivity).
      rewrite <- E in Q. destruct u1 as [|? u1]; [congruence|]. cbn [length Nat.add app text list_ascii_of_string nth_error] in Q. rewrite Nat.add_1_r in Q. cbn [nth_error] in Q.
      destruct (length u1) as [|[|[|k]]]; try discriminate Q. cbn [nth_error] in Q. apply nth_error_In in Q. now apply NX in Q.
    - apply (dots_last (text "=") _ []); [discriminate|apply eq_last; intros I; now apply NX in I|].
      rewrite seq_m. apply star_some; [now apply blank_space|apply (stops_app is_space x); [exact NE|]; apply (stops_first float_char); [apply not_cases; reflexivity|exact F|exact NE]|].
      rewrite seq_m. change (m (Group 1 float_re) ?s ?c ?k) with (m float_re s c (fun s' c' => k s' ((1, firstn (length s - length s') s) :: c'))).
      apply float_match; [exact NE|exact F|reflexivity|]. rewrite taken. rewrite seq_m. reflexivity. }
  rewrite H. cbn. apply app_nil_r.
Qed.
(** ** The header *)
Lemma natoms_read lines n : says_natoms lines n -> PwOut.get_natoms lines = Some (Some n).
Proof.
  intros (a & l & b & -> & NA & p & q & r & g & t & -> & G & T). unfold PwOut.get_natoms.
  set (l := p ++ text "number" ++ q ++ text "atoms/cell" ++ r ++ text "=" ++ g ++ show_int (Z.of_nat n) ++ t).
  assert (F : find (in_order [text "number"; text "atoms/cell"]) (a ++ l :: b) = Some l).
  { induction a as [|x a IH].
    - cbn [app find]. replace (in_order _ l) with true; [reflexivity|]. symmetry. apply order_iff. exists p. eexists. split; [reflexivity|]. exists q. eexists. split; [reflexivity|exact I].
    - cbn [app find]. destruct (in_order _ x) eqn:E; [|apply IH; intros y I; apply NA; now right]. apply order_iff in E. exfalso. apply (NA x); [now left|]. destruct E as (u & t1 & -> & v & t2 & -> & _). now exists u, v, t2. }
  match goal with |- int_from_txt (match ?x with _ => _ end) = _ => replace x with (Some l) by (symmetry; exact F) end. unfold l. replace (p ++ text "number" ++ q ++ text "atoms/cell" ++ r ++ text "=" ++ g ++ show_int (Z.of_nat n) ++ t) with ((p ++ text "number" ++ q ++ text "atoms/cell" ++ r) ++ text "=" ++ g ++ show_int (Z.of_nat n) ++ t) by now rewrite <- !app_assoc.
  rewrite sed_natoms by assumption. unfold int_from_txt. cbn [forallb concat]. rewrite app_nil_r.
  assert (SP : Forall (fun c => is_space c = false) (show_int (Z.of_nat n))) by (eapply Forall_impl; [|apply nat_digits]; intros c; apply digit_no_space).
  assert (W : words (show_int (Z.of_nat n)) = [show_int (Z.of_nat n)]) by (unfold words; apply split_ws_last; [exact SP|apply show_nonempty]).
  rewrite (not_blank _ _ _ W). cbn [andb]. rewrite strip_word by (exact SP || apply show_nonempty). rewrite read_show. destruct (Z.ltb_spec (Z.of_nat n) 0); [lia|]. now rewrite Nat2Z.id.
Qed.
Lemma alat_read parse lines x v : says_alat lines x -> parse x = Some v -> get_alat parse true lines = Some (Some v).
Proof.
  intros (a & l & b & -> & NA & p & r & g & g' & -> & G & [NG' G'] & NX & X) V. unfold get_alat. cbn [negb].
  set (l := p ++ text "lattice parameter" ++ r ++ text "=" ++ g ++ x ++ g' ++ text "a.u.").
  assert (F : grep_m1 (text "lattice parameter") (a ++ l :: b) = [l]).
  { unfold grep_m1. replace (find _ _) with (Some l); [reflexivity|]. symmetry. induction a as [|y a IH].
    - cbn [app find]. replace (contains _ l) with true; [reflexivity|]. symmetry. apply text_iff. exists p. eexists. reflexivity.
    - cbn [app find]. destruct (contains _ y) eqn:E; [|apply IH; intros z I; apply NA; now right]. apply text_iff in E. now destruct (NA y (or_introl eq_refl)). }
  match goal with |- float_from_txt _ (map _ ?x) = _ => replace x with [l] by (symmetry; exact F) end. cbn [map]. destruct (exists_last NG') as (h & c & EH). assert (C : c = " "%char) by (apply G'; rewrite EH; apply in_or_app; right; now left). subst c.
  assert (H : forall c, In c h -> c = " "%char) by (intros c I; apply G'; rewrite EH; apply in_or_app; now left).
  unfold l. rewrite EH. replace (p ++ text "lattice parameter" ++ r ++ text "=" ++ g ++ x ++ (h ++ [" "%char]) ++ text "a.u.") with ((p ++ text "lattice parameter" ++ r) ++ text "=" ++ g ++ x ++ h ++ text " a.u.") by (rewrite <- !app_assoc; reflexivity).
  rewrite sed_alat; [|exact G|exact H|intros c I; now apply X].
  assert (SX : Forall (fun c => is_space c = false) x) by (apply Forall_forall; intros c I; now apply X).
  unfold float_from_txt. cbn [forallb concat]. rewrite app_nil_r.
  rewrite (not_blank _ x [] (words_padded g x h (blank_space g (proj2 G)) (blank_space h H) NX SX)). cbn [andb].
  rewrite strip_padded; try assumption; [now rewrite V|apply blank_space, G|now apply blank_space].
Qed.
(** ** Pieces *)
Definition kind (p : piece) : option mark :=
  match p with Other _ => None | Energy _ => Some MEnergy | Forces _ => Some MForces | Stress _ => Some MStress | Positions _ _ => Some MPos | Cell _ _ => Some MCell end.
Lemma force_rows_no m ls fs : force_rows ls fs -> m <> MForce -> Forall (fun l => hasb m l = false) ls.
Proof.
  intros H N. induction H as [|l ls fs P _ IH|l ls f fs [O _] _ IH]; constructor; try assumption; [now apply plain_b|]. rewrite (only_bb _ _ m O). now destruct (mark_dec m MForce).
Qed.
Lemma rows_no m (P : pstr -> list pstr -> Prop) ls rows : (forall l x, P l x -> data l) -> Forall2 P ls rows -> Forall (fun l => hasb m l = false) ls.
Proof. intros D H. induction H as [|l x ls rows L _ IH]; constructor; [|exact IH]. now apply data_b, (D l x). Qed.
Lemma piece_no natoms p ls m : prints natoms p ls -> kind p <> Some m -> m <> MForce -> Forall (fun l => hasb m l = false) ls.
Proof.
  intros H K N. assert (O : forall m' l, only m' l -> Some m' <> Some m -> hasb m l = false) by (intros m' l O NE; rewrite (only_bb _ _ m O); destruct (mark_dec m m'); [congruence|reflexivity]).
  destruct p as [l|e|bs|rows|u rows|u rows]; cbn [prints kind] in *.
  - destruct H as [-> P]. constructor; [now apply plain_b|constructor].
  - destruct H as (l & -> & P & _). constructor; [now apply (O MEnergy)|constructor].
  - destruct H as (h & rest & -> & P & F & _). constructor; [now apply (O MForces)|]. now apply (force_rows_no m _ (concat bs)).
  - destruct H as (h & rest & -> & P & _ & F). constructor; [now apply (O MStress)|]. apply (rows_no m stress_row _ rows); [now intros ? ? [? _]|exact F].
  - destruct H as (h & rest & -> & P & _ & _ & F). constructor; [now apply (O MPos)|]. apply (rows_no m pos_row _ rows); [now intros ? ? [? _]|exact F].
  - destruct H as (h & rest & -> & P & _ & _ & F). constructor; [now apply (O MCell)|]. apply (rows_no m cell_row _ rows); [now intros ? ? [? _]|exact F].
Qed.
Lemma filter_none {A} (f : A -> bool) l : Forall (fun x => f x = false) l -> List.filter f l = [].
Proof. induction 1 as [|x l H _ IH]; [reflexivity|]. cbn. now rewrite H. Qed.
(** a piece with its first line and the other lines *)
Lemma piece_head natoms p ls m : prints natoms p ls -> kind p = Some m -> m <> MForce -> exists h rest, ls = h :: rest /\ only m h /\ Forall (fun l => hasb m l = false) rest.
Proof.
  intros H K N. destruct p as [l|e|bs|rows|u rows|u rows]; cbn [prints kind] in *; try discriminate K; injection K as <-.
  - destruct H as (l & -> & P & _). exists l, []. repeat split; try apply P. constructor.
  - destruct H as (h & rest & -> & P & F & _). exists h, rest. split; [reflexivity|]. split; [exact P|]. now apply (force_rows_no _ _ (concat bs)).
  - destruct H as (h & rest & -> & P & _ & F). exists h, rest. split; [reflexivity|]. split; [exact P|]. apply (rows_no _ stress_row _ rows); [now intros ? ? [? _]|exact F].
  - destruct H as (h & rest & -> & P & _ & _ & F). exists h, rest. split; [reflexivity|]. split; [exact P|]. apply (rows_no _ pos_row _ rows); [now intros ? ? [? _]|exact F].
  - destruct H as (h & rest & -> & P & _ & _ & F). exists h, rest. split; [reflexivity|]. split; [exact P|]. apply (rows_no _ cell_row _ rows); [now intros ? ? [? _]|exact F].
Qed.
Lemma only_yes m h : only m h -> hasb m h = true. Proof. intros H. now apply (only_b m h H). Qed.
Definition count (m : mark) (ps : list piece) : nat := length (List.filter (fun p => match kind p with Some m' => if mark_dec m' m then true else false | None => false end) ps).
Lemma count_lines natoms ps lss m : m <> MForce -> Forall2 (prints natoms) ps lss -> length (List.filter (hasb m) (concat lss)) = count m ps.
Proof.
  intros N. unfold count. induction 1 as [|p ls ps lss H _ IH]; [reflexivity|]. cbn [concat]. rewrite filter_app, app_length, IH. cbn [List.filter].
  destruct (kind p) as [m'|] eqn:K; [destruct (mark_dec m' m) as [-> |NE]|].
  - destruct (piece_head _ _ _ _ H K N) as (h & rest & -> & O & R). cbn [List.filter]. rewrite (only_yes _ _ O), filter_none by exact R. reflexivity.
  - rewrite filter_none; [reflexivity|]. apply (piece_no _ _ _ _ H); congruence.
  - rewrite filter_none; [reflexivity|]. apply (piece_no _ _ _ _ H); congruence.
Qed.
Lemma energy_lines natoms ps lss : Forall2 (prints natoms) ps lss -> map words (map (awk [5]) (List.filter (is_prefix (text "!")) (concat lss))) = map (fun e => [e]) (energies ps).
Proof.
  induction 1 as [|p ls ps lss H _ IH]; [reflexivity|]. cbn [concat energies flat_map]. rewrite filter_app, !map_app. fold (energies ps). rewrite IH. f_equal.
  assert (Q : kind p <> Some MEnergy -> List.filter (is_prefix (text "!")) ls = []) by (intros K; apply filter_none; now apply (piece_no _ _ _ MEnergy H)).
  destruct p as [l|e|bs|rows|u rows|u rows]; try (rewrite Q by discriminate; reflexivity).
  destruct H as (l & -> & O & W). cbn [List.filter]. change (is_prefix (text "!") l) with (hasb MEnergy l). rewrite (only_yes _ _ O). cbn [map]. f_equal. apply (awk_slice [5] [text "!"; text "total"; text "energy"; text "="] [e] [text "Ry"]); [exact W|reflexivity].
Qed.
Lemma force_lines_rows ls fs : force_rows ls fs -> map words (map (awk [7; 8; 9]) (List.filter is_force ls)) = fs.
Proof.
  induction 1 as [|l ls fs P _ IH|l ls f fs [O (i & t & L & W)] _ IH]; [reflexivity| |]; cbn [List.filter].
  - change (is_force l) with (hasb MForce l). now rewrite (plain_b _ P).
  - change (is_force l) with (hasb MForce l). rewrite (only_yes _ _ O). cbn [map]. rewrite IH. f_equal. apply (awk_slice _ [text "atom"; i; text "type"; t; text "force"; text "="] f []); [now rewrite app_nil_r|now rewrite L].
Qed.
Lemma force_lines natoms ps lss : Forall2 (prints natoms) ps lss -> map words (map (awk [7; 8; 9]) (List.filter is_force (concat lss))) = concat (map (@concat _) (forces ps)).
Proof.
  induction 1 as [|p ls ps lss H _ IH]; [reflexivity|]. cbn [concat forces flat_map]. rewrite filter_app, !map_app, concat_app. fold (forces ps). rewrite IH. f_equal.
  assert (NO : forall l m, only m l -> m <> MForce -> is_force l = false) by (intros l m O N; change (is_force l) with (hasb MForce l); rewrite (only_bb _ _ MForce O); destruct (mark_dec MForce m); [congruence|reflexivity]).
  assert (ND : forall (P : pstr -> list pstr -> Prop) rest rows, (forall l x, P l x -> data l) -> Forall2 P rest rows -> List.filter is_force rest = []) by (intros P rest rows D F; apply filter_none, (rows_no MForce P _ rows D F)).
  destruct p as [l|e|bs|rows|u rows|u rows]; cbn [prints] in H.
  - destruct H as [-> P]. cbn [List.filter]. change (is_force l) with (hasb MForce l). now rewrite (plain_b _ P).
  - destruct H as (l & -> & O & _). cbn [List.filter]. now rewrite (NO l MEnergy O).
  - destruct H as (h & rest & -> & O & F & _). cbn [List.filter]. rewrite (NO h MForces O) by discriminate. rewrite (force_lines_rows _ _ F). cbn. now rewrite app_nil_r.
  - destruct H as (h & rest & -> & O & _ & F). cbn [List.filter]. rewrite (NO h MStress O) by discriminate. rewrite (ND stress_row rest rows); [reflexivity|now intros ? ? [? _]|exact F].
  - destruct H as (h & rest & -> & O & _ & _ & F). cbn [List.filter]. rewrite (NO h MPos O) by discriminate. rewrite (ND pos_row rest rows); [reflexivity|now intros ? ? [? _]|exact F].
  - destruct H as (h & rest & -> & O & _ & _ & F). cbn [List.filter]. rewrite (NO h MCell O) by discriminate. rewrite (ND cell_row rest rows); [reflexivity|now intros ? ? [? _]|exact F].
Qed.
(** grep -A n KEY | grep -v *)
Definition keeps (key l : pstr) : bool := negb (existsb (fun p => contains p l) [key; s_dd]).
Lemma data_keeps key l : contains key l = false -> contains s_dd l = false -> keeps key l = true.
Proof. intros A B. unfold keeps. cbn [existsb]. now rewrite A, B. Qed.
Lemma behind_piece natoms n m key rest p ls : hasb m = contains key -> m <> MForce -> prints natoms p ls ->
  (forall h r, ls = h :: r -> kind p = Some m -> length r = n /\ Forall data r) ->
  behind n key (keeps key) 0 (ls ++ rest) = (match kind p with Some m' => if mark_dec m' m then tl ls else [] | None => [] end) ++ behind n key (keeps key) 0 rest.
Proof.
  intros E N H D.
  assert (SK : kind p <> Some m -> behind n key (keeps key) 0 (ls ++ rest) = behind n key (keeps key) 0 rest).
  { intros K. apply behind_skip. rewrite <- E. now apply (piece_no natoms p). }
  destruct (kind p) as [m'|] eqn:K; [destruct (mark_dec m' m) as [-> |NE]|]; try (apply SK; congruence).
  destruct (piece_head _ _ _ _ H K N) as (h & r & -> & O & _). destruct (D h r eq_refl eq_refl) as [L F]. cbn [app tl]. rewrite behind_mark by (rewrite <- E; now apply only_yes).
  apply behind_take_k; [now symmetry|]. eapply Forall_impl; [|exact F]. intros l DL. apply data_b in DL as [A B]. specialize (A m). rewrite E in A. split; [exact A|now apply data_keeps].
Qed.
Lemma egrep_keeps key ls n : (forall l, contains key l = true -> keeps key l = false) -> egrep_v [key; s_dd] (grep_after n key ls) = behind n key (keeps key) 0 ls.
Proof. intros K. unfold egrep_v, grep_after. apply grep_behind; [|exact K]. unfold keeps. cbn [existsb]. replace (contains s_dd ["-"; "-"]%char) with true by reflexivity. now rewrite orb_true_r. Qed.
Lemma key_drop key l : contains key l = true -> keeps key l = false.
Proof. intros H. unfold keeps. cbn [existsb]. now rewrite H. Qed.
Definition tails (m : mark) (pls : list (piece * list pstr)) : list pstr := flat_map (fun pl => match kind (fst pl) with Some m' => if mark_dec m' m then tl (snd pl) else [] | None => [] end) pls.
Lemma after_file natoms n m key ps lss : hasb m = contains key -> m <> MForce -> Forall2 (prints natoms) ps lss ->
  Forall2 (fun p ls => forall h r, ls = h :: r -> kind p = Some m -> length r = n /\ Forall data r) ps lss ->
  egrep_v [key; s_dd] (grep_after n key (concat lss)) = tails m (combine ps lss).
Proof.
  intros E N H D. rewrite egrep_keeps by apply key_drop. induction H as [|p ls ps lss P _ IH]; [reflexivity|]. inversion D; subst. cbn [concat combine tails flat_map fst snd].
  rewrite (behind_piece natoms n m key _ p ls E N P) by assumption. f_equal. now apply IH.
Qed.
