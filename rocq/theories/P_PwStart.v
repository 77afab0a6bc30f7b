(** C97: the header of pw.x output files, and kinetic energy, temperature and time step of MD runs *)
From Coq Require Import Ascii String List Arith Bool Reals ZArith Lia Lra.
From Verif Require Import Comb CombProofs Template TemplateProofs TemplateSpec ArrayIO ArrayIOProofs Grep GrepProofs Regex RegexProofs CifProofs PdbProofs MatdynFreqProofs Lammps LammpsProofs PwOut PwOutSpec PwOutProofs PwStart PwStartSpec PwStartProofs.
Import ListNotations.
Local Open Scope list_scope.
Local Open Scope nat_scope.
Local Notation length := List.length.

(** ** signs of lines *)
Definition signb (s : sign) : pstr -> bool :=
  match s with
  | SConv => contains (text "convergence has been achieved in")
  | SEkin => contains (text "kinetic energy")
  | STemp => temperature_eq
  | SVc => in_order [text "Ekin"; text "T"; text "Etot"]
  end.
Lemma temp_iff : forall l, temperature_eq l = true <-> carries STemp l.
Proof.
  cbn [carries]. induction l as [|a l IH].
  - cbn. split; [discriminate|]. intros (p & g & q & _ & E). destruct p; discriminate E.
  - cbn [temperature_eq]. rewrite orb_true_iff, andb_true_iff, IH. split.
    + intros [[P E]|(p & g & q & G & ->)]; [|exists (a :: p), g, q; now split]. apply is_prefix_spec in P as [z P]. rewrite P in E |- *. change (skipn 11 (text "temperature" ++ z)) with z in E.
      destruct (eat_split z) as (g & G & Z). apply is_prefix_spec in E as [q E]. rewrite E in Z. exists [], g, q. split; [exact G|]. now rewrite Z.
    + intros (p & g & q & G & E). destruct p as [|b p].
      * left. cbn [app] in E. rewrite E. split; [apply is_prefix_spec; eexists; reflexivity|]. change (skipn 11 (text "temperature" ++ ?z)) with z. rewrite eat_all; [reflexivity|exact G|reflexivity].
      * right. injection E as -> E. now exists p, g, q.
Qed.
Lemma signb_iff s l : signb s l = true <-> carries s l.
Proof. destruct s; [apply text_iff|apply text_iff|apply temp_iff|apply in_order_texts]. Qed.
Definition sign_of (x : line) : option sign := match x with Plain => None | Converged _ => Some SConv | Ekin _ => Some SEkin | Temp _ _ => Some STemp | VcMd _ _ _ => Some SVc end.
Lemma sign_line x l s : shows x l -> signb s l = match sign_of x with Some s' => match s, s' with SConv, SConv | SEkin, SEkin | STemp, STemp | SVc, SVc => true | _, _ => false end | None => false end.
Proof.
  intros H. assert (J : match sign_of x with Some s' => just s' l | None => forall s, ~ carries s l end) by (destruct x; cbn in H |- *; tauto).
  destruct (signb s l) eqn:E; destruct (sign_of x) as [s'|].
  - apply signb_iff in E. apply J in E. subst. now destruct s'.
  - apply signb_iff in E. now apply J in E.
  - destruct J as [J _]. destruct s, s'; try reflexivity; apply signb_iff in J; congruence.
  - reflexivity.
Qed.
(** the lines with a sign, and what is said there *)
Lemma sign_lines {A} s (sel : line -> list A) (f : pstr -> A) xs lines : run_file xs lines ->
  (forall x l, shows x l -> sel x = if signb s l then [f l] else []) -> map f (List.filter (signb s) lines) = flat_map sel xs.
Proof.
  intros F H. induction F as [|x l xs lines S _ IH]; [reflexivity|]. cbn [List.filter flat_map]. rewrite (H x l S), <- IH. now destruct (signb s l).
Qed.
Lemma opt_cons {A B} (f : A -> option B) a l b r : f a = Some b -> opt_map f l = Some r -> opt_map f (a :: l) = Some (b :: r).
Proof. intros H1 H2. cbn. now rewrite H1, H2. Qed.
Section P.
Variable parse : pstr -> option R.
(** ** the structure in the header *)
Lemma site_block natoms rows lines : natoms <> 0 -> length rows = natoms -> table site_title site_row rows lines ->
  let block := tail natoms (m1_after natoms site_head lines) in
  map words (map (sed_1 paren_re) block) = map snd rows /\ flat_map (fun l => split_ws [] (awk [2] l)) block = map fst rows /\ Forall (fun t => length t = 3) (map snd rows).
Proof.
  intros NZ L T. destruct (m1_table site_head site_title site_row rows lines natoms site_iff T (eq_sym L)) as (body & F & E). cbn zeta. rewrite E. clear E T L. induction F as [|l (sym, x) body rows R F (IH1 & IH2 & IH3)]; [repeat split; constructor|].
  destruct R as ((p & inner & t & EL & NB & B & W & L3) & i & rest & WL). cbn [fst snd map flat_map] in *. repeat split.
  - rewrite IH1. f_equal. rewrite EL, sed_paren by assumption. unfold words in *. rewrite split_trail by now apply blank_space. exact W.
  - change (split_ws [] (awk [2] l) ++ flat_map (fun l0 => split_ws [] (awk [2] l0)) body = sym :: map fst rows). rewrite IH2. rewrite (awk_slice [2] [i] [sym] rest l WL eq_refl). reflexivity.
  - constructor; assumption.
Qed.
Theorem C97_structure lines natoms rows alat a xs : says_natoms lines natoms -> natoms <> 0 -> length rows = natoms -> table site_title site_row rows lines ->
  reads2 parse (map snd rows) xs -> says_alat lines alat -> parse alat = Some a ->
  scf_coords parse true lines = Some (Some (map (map (fun x => x * a)%R) xs)) /\ scf_coords parse false lines = Some (Some xs) /\ scf_symbols parse lines = Some (map fst rows).
Proof.
  intros NA NZ L T R SA PA. destruct (site_block natoms rows lines NZ L T) as (W & S & T3).
  assert (NE : map snd rows <> []) by (destruct rows; [cbn in L; congruence|discriminate]).
  assert (C : coords_symbols parse lines = Some (Some xs, map fst rows)).
  { unfold coords_symbols. rewrite (natoms_read _ _ NA). rewrite (arr2_ok parse _ _ xs NE W R T3). now rewrite S. }
  unfold scf_symbols, scf_coords. rewrite C, (alat_read parse lines alat a SA PA). repeat split. cbn [get_alat]. do 2 f_equal. unfold scale2. rewrite (map_ext _ (fun r => r)); [apply map_id|]. intros r. rewrite (map_ext _ (fun x => x)); [apply map_id|]. intros x. apply Rmult_1_r.
Qed.
Theorem C97_cell lines rows alat a c : length rows = 3 -> table axes_title axis_row rows lines -> reads2 parse rows c -> says_alat lines alat -> parse alat = Some a ->
  scf_cell parse true lines = Some (Some (map (map (fun x => x * a)%R) c)) /\ scf_cell parse false lines = Some (Some c).
Proof.
  intros L T R SA PA. destruct (m1_table axes_head axes_title axis_row rows lines 3 axes_iff T (eq_sym L)) as (body & F & E).
  assert (W : map words (map (awk [4; 5; 6]) body) = rows /\ Forall (fun t => length t = 3) rows).
  { clear -F. induction F as [|l x body rows (L3 & b & rest & WL) F (IH1 & IH2)]; [split; constructor|]. cbn [map]. split; [|now constructor]. rewrite IH1. f_equal. apply (awk_slice _ [b; text "="; text "("] x rest); [exact WL|now rewrite L3]. }
  destruct W as (W & T3). assert (NE : rows <> []) by (destruct rows; discriminate).
  assert (C : cell_2d parse lines = Some (Some c)) by (unfold cell_2d; rewrite E; now apply (arr2_ok parse _ rows)).
  unfold scf_cell. rewrite C, (alat_read parse lines alat a SA PA). split; [reflexivity|]. cbn [get_alat]. do 2 f_equal. unfold scale2. rewrite (map_ext _ (fun r => r)); [apply map_id|]. intros r. rewrite (map_ext _ (fun x => x)); [apply map_id|]. intros x. apply Rmult_1_r.
Qed.
(** without new cells in the file the parser of MD runs gives the cell of the header *)
Theorem C97_cell_md Angstrom Bohr lines c : (forall l, In l lines -> ~ with_text (text "CELL_PARAMETERS") l) -> scf_cell parse true lines = Some (Some c) -> md_cell parse Angstrom Bohr true lines = Some (Some [c]).
Proof.
  intros N C. unfold md_cell. rewrite C. unfold get_cell_md.
  assert (E : cell_raw parse lines = Some None).
  { unfold cell_raw, traj_from_txt. replace (grep_after 3 s_cell lines) with (@nil pstr); [reflexivity|]. symmetry. unfold grep_after. clear C. generalize false at 2 as gap. induction lines as [|l lines IH]; intros gap; [reflexivity|]. cbn [grep_A].
    destruct (contains s_cell l) eqn:K; [apply text_iff in K; exfalso; apply (N l); [now left|exact K]|]. apply IH. intros x I. apply N. now right. }
  now rewrite E.
Qed.
(** a file that ends within the table of atoms is an error, as the title is taken for a row *)
Theorem C97_broken lines natoms rows p inner t use_alat : says_natoms lines natoms -> length rows < natoms -> broken_table site_title site_row rows (p ++ text "(" ++ inner ++ text ")" ++ t) lines ->
  no_bracket inner -> (forall c, In c t -> c = " "%char) -> (exists w, In w (words inner) /\ parse w = None) ->
  scf_coords parse use_alat lines = None /\ scf_symbols parse lines = None.
Proof.
  intros NA L T NB B (w & IW & PW). destruct (m1_broken site_head _ _ _ _ _ natoms site_iff T L) as (body & F & E).
  assert (C : coords_symbols parse lines = None).
  { unfold coords_symbols. rewrite (natoms_read _ _ NA), E. cbn [map]. rewrite sed_paren by assumption. unfold arr2d_from_txt. cbn [forallb].
    assert (W : words (inner ++ t) = words inner) by (unfold words; apply split_trail; now apply blank_space).
    assert (BL : blank_line (inner ++ t) = false) by (unfold blank_line; change (split_ws [] (inner ++ t)) with (words (inner ++ t)); rewrite W; destruct (words inner); [contradiction|reflexivity]).
    rewrite BL. cbn [andb]. unfold loadtxt. cbn [map List.filter]. change (split_ws [] (inner ++ t)) with (words (inner ++ t)). rewrite W.
    assert (O : opt_map parse (words inner) = None) by (clear -IW PW; induction (words inner) as [|v l IH]; [contradiction|]; cbn; destruct IW as [->|I]; [now rewrite PW|]; rewrite (IH I); now destruct (parse v)).
    destruct (words inner) as [|v l] eqn:EV; [contradiction|]. cbn [opt_map]. cbn [opt_map] in O. now rewrite O. }
  unfold scf_coords, scf_symbols. now rewrite C.
Qed.
(** a file without the table (low verbosity, other program) has no symbols, but asking for the
    coordinates is an error and not None *)
Theorem C97_missing_refuted lines natoms alat a : says_natoms lines natoms -> (forall l, In l lines -> ~ site_title l) -> says_alat lines alat -> parse alat = Some a ->
  scf_symbols parse lines = Some [] /\ scf_coords parse true lines = None.
Proof.
  intros NA N SA PA. assert (E : m1_after natoms site_head lines = []).
  { apply m1_none. intros l I. destruct (site_head l) eqn:K; [|reflexivity]. apply site_iff in K. now apply N in K. }
  assert (C : coords_symbols parse lines = Some (None, [])) by (unfold coords_symbols; rewrite (natoms_read _ _ NA), E; reflexivity).
  unfold scf_symbols, scf_coords. now rewrite C, (alat_read parse lines alat a SA PA).
Qed.
(** so is a file without the number of atoms (the header is cut off) *)
Theorem C97_natoms_refuted lines use_alat : (forall x, In x lines -> ~ exists p q r, x = p ++ text "number" ++ q ++ text "atoms/cell" ++ r) ->
  scf_symbols parse lines = None /\ scf_coords parse use_alat lines = None.
Proof.
  intros N. assert (G : get_natoms lines = Some None).
  { unfold get_natoms. destruct (find (in_order [text "number"; text "atoms/cell"]) lines) as [l|] eqn:E; [|reflexivity]. apply find_some in E as (I & O). apply order_iff in O. exfalso. apply (N l I). destruct O as (u & t1 & -> & v & t2 & -> & _). now exists u, v, t2. }
  unfold scf_symbols, scf_coords, coords_symbols. rewrite G. now split.
Qed.

(** ** numbers in the header *)
Theorem C97_nkpoints lines n : says_nkpoints lines n -> nkpoints lines = Some (Some n).
Proof.
  intros (a & l & b & -> & NA & p & g & t & -> & G & T & NT). unfold nkpoints.
  set (l := p ++ text "number of k points=" ++ g ++ show_int (Z.of_nat n) ++ t).
  assert (F : grep_m1 (text "number of k points=") (a ++ l :: b) = [l]).
  { unfold grep_m1. replace (find _ _) with (Some l); [reflexivity|]. symmetry. induction a as [|y a IH].
    - cbn [app find]. replace (contains _ l) with true; [reflexivity|]. symmetry. apply text_iff. exists p. eexists. reflexivity.
    - cbn [app find]. destruct (contains _ y) eqn:E; [|apply IH; intros z I; apply NA; now right]. apply text_iff in E. now destruct (NA y (or_introl eq_refl)). }
  match goal with |- int_from_txt (map _ ?x) = _ => replace x with [l] by (symmetry; exact F) end. cbn [map]. unfold l.
  replace (p ++ text "number of k points=" ++ g ++ show_int (Z.of_nat n) ++ t) with ((p ++ text "number of k ") ++ text "points=" ++ g ++ show_int (Z.of_nat n) ++ t) by (rewrite <- app_assoc; reflexivity).
  rewrite sed_points by assumption. unfold int_from_txt. cbn [forallb concat]. rewrite app_nil_r.
  assert (SP : Forall (fun c => is_space c = false) (show_int (Z.of_nat n))) by (eapply Forall_impl; [|apply nat_digits]; intros c; apply digit_no_space).
  assert (W : words (show_int (Z.of_nat n)) = [show_int (Z.of_nat n)]) by (unfold words; apply split_ws_last; [exact SP|apply show_nonempty]).
  rewrite (not_blank _ _ _ W). cbn [andb]. rewrite strip_word by (exact SP || apply show_nonempty). rewrite read_show. destruct (Z.ltb_spec (Z.of_nat n) 0); [lia|]. now rewrite Nat2Z.id.
Qed.
Theorem C97_timestep lines x v : says_timestep lines x -> parse x = Some v -> timestep parse lines = Some (Some v).
Proof.
  intros (a & l & b & -> & NA & p & q & g1 & g2 & g3 & t & -> & G1 & G2 & G3 & NX & X & T) V. unfold timestep.
  set (l := p ++ text "Time" ++ q ++ text "step" ++ g1 ++ text "=" ++ g2 ++ x ++ g3 ++ text "a.u." ++ t).
  assert (F : find (in_order [text "Time"; text "step"]) (a ++ l :: b) = Some l).
  { induction a as [|y a IH]; cbn [app find].
    - replace (in_order _ l) with true; [reflexivity|]. symmetry. apply in_order_texts. exists p. eexists. split; [reflexivity|]. exists q. eexists. split; [reflexivity|exact I].
    - destruct (in_order _ y) eqn:E; [|apply IH; intros z I; apply NA; now right]. apply in_order_texts in E. now destruct (NA y (or_introl eq_refl)). }
  match goal with |- float_from_txt _ (match ?z with _ => _ end) = _ => replace z with (Some l) by (symmetry; exact F) end. unfold l.
  replace (p ++ text "Time" ++ q ++ text "step" ++ g1 ++ text "=" ++ g2 ++ x ++ g3 ++ text "a.u." ++ t) with ((p ++ text "Time" ++ q) ++ text "step" ++ g1 ++ text "=" ++ g2 ++ x ++ g3 ++ text "a.u." ++ t) by (rewrite <- !app_assoc; reflexivity).
  rewrite sed_step by assumption. unfold float_from_txt. cbn [forallb concat]. rewrite app_nil_r.
  assert (SX := numeric_word x X). assert (BG := blank_space g3 (proj2 G3)).
  rewrite (not_blank (x ++ g3) x [] (words_padded [] x g3 (Forall_nil _) BG NX SX)). cbn [andb]. assert (ST := strip_padded [] x g3 (Forall_nil _) BG NX SX). cbn [app] in ST. now rewrite ST, V.
Qed.
(** ** self-consistent cycles *)
Theorem C97_cycles xs lines : run_file xs lines ->
  nstep_scf_raw lines = Some (match cycles xs with [] => None | ns => Some (map (fun n => IZR (Z.of_nat n)) ns) end) /\
  (scf_converged lines = true <-> cycles xs <> []).
Proof.
  intros F. split.
  - assert (W : map words (map (awk [6]) (List.filter (signb SConv) lines)) = map (fun t => [t]) (map (fun n => show_int (Z.of_nat n)) (cycles xs))).
    { rewrite !map_map. unfold cycles. rewrite (sign_lines SConv (fun x => match x with Converged n => [[show_int (Z.of_nat n)]] | _ => [] end) (fun l => words (awk [6] l)) xs lines F).
      - clear. induction xs as [|x xs IH]; [reflexivity|]. cbn [flat_map]. rewrite map_app, IH. now destruct x.
      - intros x l S. rewrite (sign_line x l SConv S). destruct x; try reflexivity. destruct S as (_ & _ & S). cbn [sign_of]. f_equal. symmetry. apply (awk_slice [6] [_; _; _; _; _] [_] [_] l S eq_refl). }
    unfold nstep_scf_raw. change (contains (text "convergence has been achieved in")) with (signb SConv). destruct (cycles xs) as [|n ns] eqn:E.
    + apply map_eq_nil in W. now rewrite W.
    + rewrite <- E in W |- *. apply (arr1_ok int_number _ (map (fun n => show_int (Z.of_nat n)) (cycles xs))); [rewrite E; discriminate|exact W|].
      clear. induction (cycles xs) as [|n l IH]; constructor; [|exact IH]. unfold reads, int_number. now rewrite read_show.
  - unfold scf_converged. split.
    + intros H NC. rewrite (filter_none _ lines) in H; [discriminate H|]. clear H. induction F as [|x l xs lines S _ IH]; [constructor|]. cbn [cycles flat_map] in NC. apply app_eq_nil in NC as [N1 N2]. constructor; [|now apply IH].
      destruct (in_order _ l) eqn:E; [exfalso|reflexivity]. apply in_order_texts in E. destruct E as (p & q & -> & _). assert (C : carries SConv (p ++ text "convergence has been achieved in" ++ q)) by (exists p, q; reflexivity). apply signb_iff in C. rewrite (sign_line _ _ SConv S) in C. destruct x; discriminate.
    + intros NC. apply negb_true_iff. induction F as [|x l xs lines S _ IH]; [now destruct NC|]. cbn [List.filter]. destruct x as [|n|e|st t|e t c]; try (specialize (IH NC); destruct (in_order _ l); [cbn [forallb]; rewrite IH; apply andb_false_r|exact IH]).
      destruct S as (_ & S & W). rewrite (proj2 (in_order_texts _ l) S). cbn [forallb]. now rewrite (not_blank _ _ _ W).
Qed.
(** one cycle that converged is enough, whatever became of the others *)
Theorem C97_converged_refuted xs ys n lines : run_file (xs ++ Converged n :: ys) lines -> scf_converged lines = true.
Proof. intros F. apply (C97_cycles _ _ F). unfold cycles. rewrite flat_map_app. cbn. now destruct (flat_map _ xs). Qed.
(** ** MD *)
Theorem C97_ekin xs lines es : run_file xs lines -> reads1 parse (kinetic xs) es -> ekin parse lines = Some (match kinetic xs with [] => None | _ => Some es end).
Proof.
  intros F R. assert (W : map words (map (awk [5]) (List.filter (signb SEkin) lines)) = map (fun t => [t]) (kinetic xs)).
  { rewrite map_map. rewrite (sign_lines SEkin (fun x => match x with Ekin e => [[e]] | _ => [] end) (fun l => words (awk [5] l)) xs lines F).
    - unfold kinetic. clear. induction xs as [|x xs IH]; [reflexivity|]. cbn [flat_map]. rewrite map_app, IH. now destruct x.
    - intros x l S. rewrite (sign_line x l SEkin S). destruct x; try reflexivity. destruct S as (_ & S). cbn [sign_of]. f_equal. symmetry. apply (awk_slice [5] [_; _; _; _] [_] [_] l S eq_refl). }
  unfold ekin. change (contains (text "kinetic energy")) with (signb SEkin). destruct (kinetic xs) as [|e0 r] eqn:E; [apply map_eq_nil in W; now rewrite W|]. apply (arr1_ok parse _ (e0 :: r)); [discriminate|exact W|exact R].
Qed.
Lemma temp_words x l : shows x l -> (match x with Temp _ t => [[t]] | _ => [] end) = if signb STemp l then [words (sed_1 temp_re l)] else [].
Proof.
  intros S. rewrite (sign_line x l STemp S). destruct x as [|n|e|st t|e t c]; try reflexivity. destruct S as (_ & NE & X & p & g1 & g2 & g3 & q & -> & B). cbn [sign_of]. f_equal. symmetry.
  rewrite app_assoc. rewrite sed_temp; [|exact NE|exact X|intros c I; apply B; rewrite !in_app_iff in *; tauto].
  apply (words_padded [] t q); [constructor|apply blank_space; intros c I; apply B; rewrite !in_app_iff; tauto|exact NE|now apply numeric_word].
Qed.
Theorem C97_temperature xs lines ts : run_file xs lines -> reads1 parse (temperatures xs) ts -> temperature parse lines = Some (match temperatures xs with [] => None | _ => Some ts end).
Proof.
  intros F R. assert (W : map words (map (sed_1 temp_re) (List.filter (signb STemp) lines)) = map (fun t => [t]) (temperatures xs)).
  { rewrite map_map. rewrite (sign_lines STemp (fun x => match x with Temp _ t => [[t]] | _ => [] end) (fun l => words (sed_1 temp_re l)) xs lines F); [|exact temp_words].
    unfold temperatures. clear. induction xs as [|x xs IH]; [reflexivity|]. cbn [flat_map]. rewrite map_app, IH. now destruct x. }
  unfold temperature. change temperature_eq with (signb STemp). destruct (temperatures xs) as [|e0 r] eqn:E; [apply map_eq_nil in W; now rewrite W|]. apply (arr1_ok parse _ (e0 :: r)); [discriminate|exact W|exact R].
Qed.
Lemma interest_kinetic xs : kinetic xs = kinetic (of_interest xs).
Proof. unfold kinetic, of_interest. induction xs as [|x xs IH]; [reflexivity|]. cbn [flat_map List.filter]. rewrite IH. now destruct x. Qed.
Lemma interest_temps xs : temperatures xs = temperatures (of_interest xs).
Proof. unfold temperatures, of_interest. induction xs as [|x xs IH]; [reflexivity|]. cbn [flat_map List.filter]. rewrite IH. now destruct x. Qed.
Lemma steps_kinetic steps : kinetic (flat_map (fun s => [Ekin (fst s); Temp false (snd s)]) steps) = map fst steps.
Proof. unfold kinetic. induction steps as [|s l IH]; [reflexivity|]. cbn. now rewrite IH. Qed.
Lemma steps_temps steps : temperatures (flat_map (fun s => [Ekin (fst s); Temp false (snd s)]) steps) = map snd steps.
Proof. unfold temperatures. induction steps as [|s l IH]; [reflexivity|]. cbn. now rewrite IH. Qed.
(** without a starting temperature both arrays go together, step by step *)
Theorem C97_steps steps xs lines es ts : run_file xs lines -> md_lines_free steps xs -> steps <> [] -> reads1 parse (map fst steps) es -> reads1 parse (map snd steps) ts ->
  ekin parse lines = Some (Some es) /\ temperature parse lines = Some (Some ts).
Proof.
  intros F M NE R1 R2. assert (K : kinetic xs = map fst steps) by now rewrite interest_kinetic, M, steps_kinetic. assert (T : temperatures xs = map snd steps) by now rewrite interest_temps, M, steps_temps.
  split; [rewrite (C97_ekin xs lines es F) by now rewrite K|rewrite (C97_temperature xs lines ts F) by now rewrite T]; [rewrite K|rewrite T]; now destruct steps.
Qed.
(** with one, it is taken for the temperature of the first step: one number more than kinetic
    energies, and all others move by one *)
Theorem C97_start_refuted t0 steps xs lines x0 es ts : run_file xs lines -> md_lines t0 steps xs -> steps <> [] -> parse t0 = Some x0 -> reads1 parse (map fst steps) es -> reads1 parse (map snd steps) ts ->
  ekin parse lines = Some (Some es) /\ temperature parse lines = Some (Some (x0 :: ts)) /\ length (x0 :: ts) = S (length es).
Proof.
  intros F M NE P R1 R2. assert (K : kinetic xs = map fst steps) by (rewrite interest_kinetic, M; apply steps_kinetic). assert (T : temperatures xs = t0 :: map snd steps) by (rewrite interest_temps, M; cbn; f_equal; apply steps_temps).
  split; [rewrite (C97_ekin xs lines es F) by (now rewrite K); rewrite K; now destruct steps|]. split.
  - rewrite (C97_temperature xs lines (x0 :: ts) F); [now rewrite T|]. rewrite T. constructor; assumption.
  - cbn. f_equal. rewrite <- (f2_len R1), <- (f2_len R2). now rewrite !map_length.
Qed.
(** ** vc-md *)
Theorem C97_vcmd xs lines es ts cs : run_file xs lines -> vc_lines xs <> [] ->
  reads1 parse (map (fun x => fst (fst x)) (vc_lines xs)) es -> reads1 parse (map (fun x => snd (fst x)) (vc_lines xs)) ts -> reads1 parse (map snd (vc_lines xs)) cs ->
  vc_ekin parse lines = Some es /\ vc_temperature parse lines = Some ts /\ vc_econst parse lines = Some cs.
Proof.
  intros F NE R1 R2 R3. assert (W : map words (map (awk [3; 7; 11]) (List.filter (signb SVc) lines)) = map (fun x => [fst (fst x); snd (fst x); snd x]) (vc_lines xs)).
  { rewrite map_map. rewrite (sign_lines SVc (fun x => match x with VcMd e t c => [[e; t; c]] | _ => [] end) (fun l => words (awk [3; 7; 11] l)) xs lines F).
    - unfold vc_lines. clear. induction xs as [|x xs IH]; [reflexivity|]. cbn [flat_map]. rewrite map_app, IH. now destruct x.
    - intros x l S. rewrite (sign_line x l SVc S). destruct x; try reflexivity. destruct S as (_ & rest & S). cbn [sign_of]. f_equal. symmetry. apply awk_words.
      + unfold field. change (split_ws [] l) with (words l). now rewrite S.
      + assert (A := words_ok l). rewrite S in A. rewrite !Forall_app in A. destruct A as (A & _). rewrite Forall_forall in A. repeat constructor; apply A; cbn; tauto. }
  set (rows := map (fun x => [fst (fst x); snd (fst x); snd x]) (vc_lines xs)) in *.
  assert (F3 : Forall (fun t => length t = 3) rows) by (apply Forall_map, Forall_forall; reflexivity).
  assert (NR : rows <> []) by (unfold rows; destruct (vc_lines xs); [congruence|discriminate]).
  assert (X : exists vals, reads2 parse rows vals /\ opt_map (fun r => nth_error r 0) vals = Some es /\ opt_map (fun r => nth_error r 1) vals = Some ts /\ opt_map (fun r => nth_error r 2) vals = Some cs /\ Forall (fun t => length t = 3) vals).
  { unfold rows. clear -R1 R2 R3. revert es ts cs R1 R2 R3. induction (vc_lines xs) as [|((e, t), c) l IH]; intros es ts cs R1 R2 R3; inversion R1; inversion R2; inversion R3; subst; [exists []; repeat split; constructor|].
    destruct (IH _ _ _ ltac:(eassumption) ltac:(eassumption) ltac:(eassumption)) as (vals & A & B & C & D & E). eexists ([_; _; _] :: vals). split; [|split; [apply opt_cons; [reflexivity|exact B]|split; [apply opt_cons; [reflexivity|exact C]|split; [apply opt_cons; [reflexivity|exact D]|]]]].
    - constructor; [|exact A]. repeat (constructor; [eassumption|]). constructor.
    - constructor; [reflexivity|exact E]. }
  destruct X as (vals & RV & V1 & V2 & V3 & FV).
  assert (D : datadct parse lines = Some (Some vals)).
  { unfold datadct. change (in_order [text "Ekin"; text "T"; text "Etot"]) with (signb SVc). rewrite (blank_words _ rows 3 ltac:(discriminate) NR W F3), (load_ok parse _ rows vals 3 ltac:(discriminate) W RV F3).
    destruct vals as [|v vals]; [inversion RV; congruence|]. cbn [forallb]. now rewrite (Forall_inv FV). }
  unfold vc_ekin, vc_temperature, vc_econst, vc_column. rewrite D. tauto.
Qed.
(** a file without such lines is an error, where other getters return None *)
Theorem C97_vcmd_refuted xs lines : run_file xs lines -> vc_lines xs = [] -> vc_ekin parse lines = None /\ vc_temperature parse lines = None /\ vc_econst parse lines = None.
Proof.
  intros F E. assert (N : List.filter (signb SVc) lines = []).
  { apply filter_none. induction F as [|x l xs lines S _ IH]; [constructor|]. cbn [vc_lines flat_map] in E. apply app_eq_nil in E as [E1 E2]. constructor; [|now apply IH]. rewrite (sign_line x l SVc S). destruct x; try reflexivity. discriminate E1. }
  unfold vc_ekin, vc_temperature, vc_econst, vc_column, datadct. change (in_order [text "Ekin"; text "T"; text "Etot"]) with (signb SVc). rewrite N. repeat split.
Qed.
End P.

(** ** a file *)
Definition header : list pstr := map text
  ["     lattice parameter (a_0)   =      10  a.u.";
   "     number of atoms/cell      =            2";
   "     crystal axes: (cart. coord. in units of a_0)";
   "               a(1) = ( -5  0  5 )  ";
   "               a(2) = (  0  5  5 )  ";
   "               a(3) = ( -5  5  0 )  ";
   "     site n.     atom                  positions (a_0 units)";
   "         1           Si  tau(  1) = (   0   0   0  )";
   "         2           C   tau(  2) = (  -2   2   2  )";
   "     number of k points=    8";
   "     Time step             =   150 a.u.,  7.2567 femto-seconds"]%string.
Definition md_part : list pstr := map text
  ["     convergence has been achieved in  10 iterations";
   "     Starting temperature  =   300 K";
   "     kinetic energy (Ekin) =     3 Ry";
   "     temperature           =   299 K ";
   "     convergence NOT achieved after 100 iterations: stopping";
   "     kinetic energy (Ekin) =     2 Ry";
   "     temperature           =   169 K "]%string.
Definition reads_as (t : string) (z : Z) : Prop := read_int (text t) = Some z.
Lemma not_text w x : contains w x = false -> ~ with_text w x.
Proof. intros H T. apply text_iff in T. congruence. Qed.
Ltac no_lines := match goal with |- forall l, In l ?a -> ~ ?P => let l := fresh in let H := fresh in intros l H; repeat (destruct H as [<-|H]; [|]); try contradiction end.
Example header_natoms : says_natoms header 2.
Proof.
  exists (firstn 1 header), (nth 1 header []), (skipn 2 header). split; [reflexivity|]. split.
  - intros x [<-|[]] (p & q & r & E). assert (B : in_order [text "number"; text "atoms/cell"] (text "     lattice parameter (a_0)   =      10  a.u.") = true) by (apply in_order_texts; exists p; eexists; split; [exact E|]; exists q, r; split; [reflexivity|exact I]). vm_compute in B. discriminate B.
  - exists (text "     "), (text " of "), (text "      "), (text "            "), []. split; [reflexivity|]. split; [split; [discriminate|]|intros c []]. intros c I. cbn in I. intuition congruence.
Qed.
Example header_alat : says_alat header (text "10").
Proof.
  exists [], (nth 0 header []), (skipn 1 header). split; [reflexivity|]. split; [intros x []|]. exists (text "     "), (text " (a_0)   "), (text "      "), (text "  "). split; [reflexivity|].
  split; [split; [discriminate|]; intros c I; cbn in I; intuition congruence|]. split; [split; [discriminate|]; intros c I; cbn in I; intuition congruence|]. split; [discriminate|]. intros c [<-|[<-|[]]]; (split; [reflexivity|discriminate]).
Qed.
Definition zparse (t : pstr) : option R := option_map IZR (read_int t).
Lemma zreads ts zs : map read_int ts = map Some zs -> reads1 zparse ts (map IZR zs).
Proof. revert zs. induction ts as [|t ts IH]; intros [|z zs] H; try discriminate H; [constructor|]. cbn in H. injection H as H1 H2. constructor; [unfold reads, zparse; now rewrite H1|now apply IH]. Qed.
Lemma zreads2 ts zs : map (map read_int) ts = map (map Some) zs -> reads2 zparse ts (map (map IZR) zs).
Proof. revert zs. induction ts as [|t ts IH]; intros [|z zs] H; try discriminate H; [constructor|]. cbn in H. injection H as H1 H2. constructor; [now apply zreads|now apply IH]. Qed.
Definition sites : list (pstr * list pstr) := [(text "Si", map text ["0"; "0"; "0"]%string); (text "C", map text ["-2"; "2"; "2"]%string)].
Example header_sites : table site_title site_row sites header.
Proof.
  exists (firstn 6 header), (nth 6 header []), (firstn 2 (skipn 7 header)), (skipn 9 header). split; [reflexivity|]. split; [apply site_iff; vm_compute; reflexivity|]. split.
  - intros l I T. apply site_iff in T. assert (B : existsb site_head (firstn 6 header) = true) by (apply existsb_exists; now exists l). vm_compute in B. discriminate B.
  - repeat constructor.
    + exists (text "         1           Si  tau(  1) = "), (text "   0   0   0  "), []. split; [reflexivity|]. split; [intros c I; cbn in I; intuition (subst; discriminate)|]. split; [intros c []|]. split; vm_compute; reflexivity.
    + eexists _, _. vm_compute. reflexivity.
    + exists (text "         2           C   tau(  2) = "), (text "  -2   2   2  "), []. split; [reflexivity|]. split; [intros c I; cbn in I; intuition (subst; discriminate)|]. split; [intros c []|]. split; vm_compute; reflexivity.
    + eexists _, _. vm_compute. reflexivity.
Qed.
Definition axes : list (list pstr) := map (map text) [["-5"; "0"; "5"]; ["0"; "5"; "5"]; ["-5"; "5"; "0"]]%string.
Example header_axes : table axes_title axis_row axes header.
Proof.
  exists (firstn 2 header), (nth 2 header []), (firstn 3 (skipn 3 header)), (skipn 6 header). split; [reflexivity|]. split; [apply axes_iff; vm_compute; reflexivity|]. split.
  - intros l I T. apply axes_iff in T. assert (B : existsb axes_head (firstn 2 header) = true) by (apply existsb_exists; now exists l). vm_compute in B. discriminate B.
  - repeat constructor; eexists _, _; vm_compute; reflexivity.
Qed.
Example header_read : scf_coords zparse true header = Some (Some [[0 * 10; 0 * 10; 0 * 10]; [-2 * 10; 2 * 10; 2 * 10]]%R) /\ scf_symbols zparse header = Some [text "Si"; text "C"] /\
  scf_cell zparse true header = Some (Some [[-5 * 10; 0 * 10; 5 * 10]; [0 * 10; 5 * 10; 5 * 10]; [-5 * 10; 5 * 10; 0 * 10]]%R).
Proof.
  assert (PA : zparse (text "10") = Some 10%R) by reflexivity.
  destruct (C97_structure zparse header 2 sites (text "10") 10 [[0; 0; 0]; [-2; 2; 2]]%R header_natoms ltac:(discriminate) eq_refl header_sites (zreads2 (map snd sites) [[0; 0; 0]; [-2; 2; 2]]%Z ltac:(vm_compute; reflexivity)) header_alat PA) as (A & _ & B).
  destruct (C97_cell zparse header axes (text "10") 10 [[-5; 0; 5]; [0; 5; 5]; [-5; 5; 0]]%R eq_refl header_axes (zreads2 axes [[-5; 0; 5]; [0; 5; 5]; [-5; 5; 0]]%Z ltac:(vm_compute; reflexivity)) header_alat PA) as (C & _).
  repeat split; assumption.
Qed.
Example header_cell_md : exists c, md_cell zparse 1 2 true header = Some (Some [c]).
Proof.
  eexists. apply C97_cell_md; [|apply header_read]. intros l I T. apply text_iff in T. assert (B : existsb (contains (text "CELL_PARAMETERS")) header = true) by (apply existsb_exists; now exists l). vm_compute in B. discriminate B.
Qed.
(** the file ends behind the first atom *)
Example header_broken : scf_coords zparse true (firstn 8 header) = None.
Proof.
  apply (C97_broken zparse (firstn 8 header) 2 (firstn 1 sites) (text "     site n.     atom                  positions ") (text "a_0 units") []).
  - exists (firstn 1 header), (nth 1 header []), (skipn 2 (firstn 8 header)). split; [reflexivity|]. destruct header_natoms as (a & l & b & E & N & X).
    split; [|exists (text "     "), (text " of "), (text "      "), (text "            "), []; split; [reflexivity|]; split; [split; [discriminate|]; intros c I; cbn in I; intuition congruence|intros c []]].
    intros x [<-|[]] (p & q & r & E2). assert (B : in_order [text "number"; text "atoms/cell"] (text "     lattice parameter (a_0)   =      10  a.u.") = true) by (apply in_order_texts; exists p; eexists; split; [exact E2|]; exists q, r; split; [reflexivity|exact I]). vm_compute in B. discriminate B.
  - cbn. lia.
  - exists (firstn 6 header), (firstn 1 (skipn 7 header)). split; [reflexivity|]. split; [apply site_iff; vm_compute; reflexivity|]. split.
    + intros l I T. apply site_iff in T. assert (B : existsb site_head (firstn 6 header) = true) by (apply existsb_exists; now exists l). vm_compute in B. discriminate B.
    + repeat constructor; [|eexists _, _; vm_compute; reflexivity]. exists (text "         1           Si  tau(  1) = "), (text "   0   0   0  "), []. split; [reflexivity|]. split; [intros c I; cbn in I; intuition (subst; discriminate)|]. split; [intros c []|]. split; vm_compute; reflexivity.
  - intros c I. cbn in I. intuition (subst; discriminate).
  - intros c [].
  - exists (text "units"). split; [vm_compute; tauto|vm_compute; reflexivity].
Qed.
Example header_missing : scf_symbols zparse (firstn 6 header) = Some [] /\ scf_coords zparse true (firstn 6 header) = None.
Proof. split; vm_compute; reflexivity. Qed.
Example header_k : nkpoints header = Some (Some 8).
Proof.
  apply C97_nkpoints. exists (firstn 9 header), (nth 9 header []), (skipn 10 header). split; [reflexivity|]. split.
  - intros l I T. apply text_iff in T. assert (B : existsb (contains (text "number of k points=")) (firstn 9 header) = true) by (apply existsb_exists; now exists l). vm_compute in B. discriminate B.
  - exists (text "     "), (text "    "), []. split; [reflexivity|]. split; [intros c I; cbn in I; intuition congruence|]. split; [exact I|]. apply not_text. reflexivity.
Qed.
Example header_step : timestep zparse header = Some (Some 150%R).
Proof.
  apply (C97_timestep zparse header (text "150")); [|reflexivity]. exists (firstn 10 header), (nth 10 header []), []. split; [reflexivity|]. split.
  - intros l I T. apply in_order_texts in T. assert (B : existsb (in_order [text "Time"; text "step"]) (firstn 10 header) = true) by (apply existsb_exists; now exists l). vm_compute in B. discriminate B.
  - exists (text "     "), (text " "), (text "             "), (text "   "), (text " "), (text ",  7.2567 femto-seconds"). split; [reflexivity|].
    split; [split; [discriminate|]; intros c I; cbn in I; intuition congruence|]. split; [split; [discriminate|]; intros c I; cbn in I; intuition congruence|]. split; [split; [discriminate|]; intros c I; cbn in I; intuition congruence|]. split; [discriminate|]. split; [intros c I; cbn in I |- *; intuition|]. intros c I J. cbn in I, J. intuition (subst; discriminate).
Qed.
Lemma just_b s l : signb s l = true -> (forall s', signb s' l = true -> s' = s) -> just s l.
Proof. intros A B. split; [now apply signb_iff|]. intros s' C. apply B. now apply signb_iff. Qed.
Ltac just_it := apply just_b; [vm_compute; reflexivity|intros []; vm_compute; first [reflexivity|discriminate]].
Definition md_said : list line :=
  [Converged 10; Temp true (text "300"); Ekin (text "3"); Temp false (text "299"); Plain; Ekin (text "2"); Temp false (text "169")].
Example md_shown : run_file md_said md_part.
Proof.
  repeat (apply Forall2_cons); [| | | | | | |constructor]; cbn [shows].
  - split; [just_it|]. split; [apply in_order_texts; vm_compute; reflexivity|vm_compute; reflexivity].
  - split; [just_it|]. split; [discriminate|]. split; [intros c I; cbn in I |- *; intuition|]. exists (text "     "), (text "  "), (text "   "), (text " "), []. split; [reflexivity|]. intros c I. cbn in I. intuition congruence.
  - split; [just_it|vm_compute; reflexivity].
  - split; [just_it|]. split; [discriminate|]. split; [intros c I; cbn in I |- *; intuition|]. exists (text "     "), (text "           "), (text "   "), (text " "), (text " "). split; [reflexivity|]. intros c I. cbn in I. intuition congruence.
  - intros s C. apply signb_iff in C. destruct s; vm_compute in C; discriminate C.
  - split; [just_it|vm_compute; reflexivity].
  - split; [just_it|]. split; [discriminate|]. split; [intros c I; cbn in I |- *; intuition|]. exists (text "     "), (text "           "), (text "   "), (text " "), (text " "). split; [reflexivity|]. intros c I. cbn in I. intuition congruence.
Qed.
(** the second cycle did not converge; three temperatures for two steps *)
Example md_read : scf_converged md_part = true /\ ekin zparse md_part = Some (Some [3; 2]%R) /\ temperature zparse md_part = Some (Some [300; 299; 169]%R).
Proof.
  split; [apply (C97_converged_refuted [] (skipn 1 md_said) 10); exact md_shown|].
  destruct (C97_start_refuted zparse (text "300") [(text "3", text "299"); (text "2", text "169")] md_said md_part 300 [3; 2]%R [299; 169]%R md_shown eq_refl ltac:(discriminate) eq_refl (zreads [text "3"; text "2"] [3; 2]%Z ltac:(vm_compute; reflexivity)) (zreads [text "299"; text "169"] [299; 169]%Z ltac:(vm_compute; reflexivity))) as (A & B & _).
  now split.
Qed.
Definition vc_part : list pstr := map text ["     Ekin =   7 Ry     T =  250 K      Etot =  -11"; "     Ekin =   6 Ry     T =  240 K      Etot =  -12"]%string.
Example vc_read : vc_ekin zparse vc_part = Some [7; 6]%R /\ vc_temperature zparse vc_part = Some [250; 240]%R /\ vc_econst zparse vc_part = Some [-11; -12]%R.
Proof.
  apply (C97_vcmd zparse [VcMd (text "7") (text "250") (text "-11"); VcMd (text "6") (text "240") (text "-12")]); [|discriminate|apply (zreads _ [7; 6]%Z); vm_compute; reflexivity|apply (zreads _ [250; 240]%Z); vm_compute; reflexivity|apply (zreads _ [-11; -12]%Z); vm_compute; reflexivity].
  repeat (apply Forall2_cons); [| |constructor]; (split; [just_it|]); exists []; vm_compute; reflexivity.
Qed.
Example vc_none : vc_ekin zparse md_part = None.
Proof. apply (C97_vcmd_refuted zparse md_said md_part md_shown eq_refl). Qed.

Print Assumptions C97_structure.
Print Assumptions C97_cell.
Print Assumptions C97_cell_md.
Print Assumptions C97_broken.
Print Assumptions C97_missing_refuted.
Print Assumptions C97_natoms_refuted.
Print Assumptions C97_nkpoints.
Print Assumptions C97_timestep.
Print Assumptions C97_cycles.
Print Assumptions C97_converged_refuted.
Print Assumptions C97_ekin.
Print Assumptions C97_temperature.
Print Assumptions C97_steps.
Print Assumptions C97_start_refuted.
Print Assumptions C97_vcmd.
Print Assumptions C97_vcmd_refuted.
