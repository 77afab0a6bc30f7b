(** C86: what the parsers of CP2K output read. *)
From Coq Require Import Ascii String List Arith Bool Reals ZArith Lia.
From Verif Require Import Comb CombProofs Template TemplateProofs ArrayIO ArrayIOProofs Grep GrepProofs Regex RegexProofs PdbProofs MatdynFreqProofs Lammps LammpsProofs PwOut PwOutSpec PwOutProofs Cp2k Cp2kSpec Cp2kProofs.
Import ListNotations.
Local Open Scope list_scope.
Local Open Scope nat_scope.
Local Notation length := List.length.

Section C86.
Variable parse : pstr -> option R.
(** ** Trajectories *)
(** Positions, velocities and forces are those of all steps and atoms in order; the symbols are
    those of the first step. *)
Theorem C86_trajectory n f fs lines vals : xyz_file n (f :: fs) lines -> reads3 parse (map (map snd) (f :: fs)) vals ->
  from_xyz parse (Some lines) = Some (Some vals) /\ relax_natoms (Some lines) = Some (Some n) /\
  forall frc vel, get_symbols (Some n) (Some lines) frc vel = Some (map fst f).
Proof.
  intros (lss & F & ->) H. split; [|split].
  - unfold from_xyz. now rewrite (all_frames parse n (f :: fs) lss vals F ltac:(discriminate) H).
  - unfold relax_natoms. rewrite <- (app_nil_r (concat lss)). now apply (first_number n (f :: fs)).
  - intros frc vel. cbn [get_symbols]. f_equal. now apply (first_symbols n f fs lss).
Qed.
(** A file cut behind any of its lines, as a killed run leaves it: it is read when the last step
    is complete, or when only its first line was written; otherwise the parser raises. *)
Theorem C86_cut n fs lines vals k : n <> 0 -> fs <> [] -> xyz_file n fs lines -> reads3 parse (map (map snd) fs) vals -> 0 < k <= length lines ->
  from_xyz parse (Some (firstn k lines)) = if k mod (n + 2) <=? 1 then Some (Some (firstn (k / (n + 2)) vals)) else None.
Proof.
  intros PN NE (lss & F & ->) H [K1 K2]. unfold from_xyz.
  assert (LL : length (concat lss) = (n + 2) * length fs).
  { rewrite (concat_length (n + 2)); [rewrite (f2_len F); apply Nat.mul_comm|]. clear - F. induction F as [|f ls fs lss HF _ IH]; constructor; [|exact IH]. now destruct (frame_nums _ _ _ HF) as (_ & _ & L). }
  rewrite (cut_frames parse n fs lss vals k PN K1 NE F H) by lia. destruct (k mod (n + 2) <=? 1); reflexivity.
Qed.
(** ** Tables *)
Theorem C86_energies rows lines es : table_file 7 rows lines -> reads2 parse rows (map ener_row es) -> 2 <= length es ->
  get_ekin parse (Some lines) = Some (Some (map e_kin es)) /\ get_temperature parse (Some lines) = Some (Some (map e_temp es)) /\
  get_etot parse (Some lines) = Some (Some (map e_pot es)) /\ get_econst parse (Some lines) = Some (Some (map e_cons es)).
Proof.
  intros T H L. assert (E := table_ok parse 7 rows lines _ ltac:(discriminate) T H). rewrite map_length in E. destruct (Nat.leb_spec (length es) 1); [lia|].
  assert (C : forall k g, (forall e, nth_error (ener_row e) k = Some (g e)) -> of_table (column_of parse k) (Some lines) = Some (Some (map g es))) by (intros k g G; unfold of_table, column_of; rewrite E; rewrite (column_ok ener_row g k es) by (intros; apply G); reflexivity).
  repeat split; apply C; now intros [].
Qed.
Theorem C86_matrices width rows lines rs : 11 <= width -> table_file width rows lines -> reads2 parse rows (map matrix_row_numbers rs) ->
  Forall (fun r => is_33 (m_matrix r)) rs -> 2 <= length rs ->
  get_cell parse (Some lines) = Some (Some (map m_matrix rs)) /\ get_stress parse (Some lines) = Some (Some (map m_matrix rs)).
Proof.
  intros W T H M L. assert (E := table_ok parse width rows lines _ ltac:(lia) T H). rewrite map_length in E. destruct (Nat.leb_spec (length rs) 1); [lia|].
  unfold get_cell, get_stress, of_table, repack. rewrite E, (repack_all rs M). now split.
Qed.
(** A run with one step cannot be read: numpy makes a 1d array of a table with one row. *)
Theorem C86_one_step_refuted width rows lines row : width <> 0 -> table_file width rows lines -> reads2 parse rows [row] ->
  get_ekin parse (Some lines) = None /\ get_temperature parse (Some lines) = None /\ get_etot parse (Some lines) = None /\ get_econst parse (Some lines) = None /\
  get_cell parse (Some lines) = None /\ get_stress parse (Some lines) = None.
Proof.
  intros W T H. assert (E := table_ok parse width rows lines _ W T H). cbn [length Nat.leb] in E.
  unfold get_ekin, get_temperature, get_etot, get_econst, get_cell, get_stress, of_table, column_of, repack. rewrite E. now repeat split.
Qed.
(** ** Forces in the output file, used when there is no file of forces *)
Theorem C86_outfile_forces n ps lines vals : n <> 0 -> out_file n ps lines -> blocks ps <> [] -> reads3 parse (blocks ps) vals ->
  get_forces parse (Some n) lines None = Some (Some vals).
Proof.
  intros PN (lss & F & ->) NE H. cbn [get_forces]. unfold outfile_forces. rewrite (out_count n ps lss F), egrep_keepo. destruct (out_blocks n ps lss F) as (rests & FR & ->).
  apply traj_ok; [exact NE|exact PN|now apply rests_words|exact H|now apply (blocks_shape n ps lss)].
Qed.
(** A file of forces wins. *)
Theorem C86_force_file n fs lines vals natoms out : fs <> [] -> xyz_file n fs lines -> reads3 parse (map (map snd) fs) vals ->
  get_forces parse natoms out (Some lines) = Some (Some vals).
Proof. intros NE (lss & F & ->) H. cbn [get_forces from_xyz]. now rewrite (all_frames parse n fs lss vals F NE H). Qed.
(** Files that do not exist: nothing, and no exception *)
Theorem C86_missing out : from_xyz parse None = Some None /\ relax_natoms None = Some None /\ relax_etot parse None = Some None /\ get_ekin parse None = Some None /\ get_temperature parse None = Some None /\
  get_etot parse None = Some None /\ get_econst parse None = Some None /\ get_cell parse None = Some None /\ get_stress parse None = Some None /\ get_forces parse None out None = Some None /\
  (forall pos, relax_cell parse out None pos = Some None) /\ (forall n, get_symbols n None None None = None).
Proof. repeat split. now intros [n|]. Qed.
(** ** Optimisations *)
Theorem C86_opt_energies n fs lss es vals : fs <> [] -> Forall2 (frame_lines n) fs lss -> opt_headers lss es -> reads1 parse es vals ->
  relax_etot parse (Some (concat lss)) = Some (Some vals).
Proof.
  intros NE F H R. unfold relax_etot. apply (arr1_ok parse _ es); [destruct F; [congruence|]; inversion H; subst; discriminate| |exact R]. clear R NE.
  revert es H. induction F as [|f ls fs lss HF _ IH]; intros es H; inversion H as [|? e ? es' HH HT]; subst; [reflexivity|]. cbn [concat]. rewrite filter_app, !map_app, (IH _ HT). cbn [map]. change ([e] :: map (fun t => [t]) es') with ([[e]] ++ map (fun t => [t]) es'). f_equal.
  destruct HH as (c & h & rest & -> & (HL & k & W)). destruct HF as (c' & h' & rest' & E & C & _ & L & FA). injection E as <- <- <-. cbn [List.filter].
  rewrite (no_order _ _ _ (number_no_i n c C)). replace (in_order [text "i ="; text "E"] h) with true.
  - replace (List.filter (in_order [text "i ="; text "E"]) rest) with (@nil pstr); [cbn [map]; f_equal; apply (awk_slice _ [text "i"; text "="; k; text "E"; text "="] [e] []); [exact W|reflexivity]|].
    symmetry. apply filter_none. clear - FA. induction FA as [|l a rest f (_ & _ & _ & N) _ IH]; constructor; [|exact IH]. now apply no_order.
  - symmetry. destruct HL as (a & b & d & ->). apply order_iff. exists a, (text " " ++ b ++ text "E =" ++ d). split; [reflexivity|]. exists (text " " ++ b), (text " =" ++ d). split; [now rewrite <- app_assoc|exact I].
Qed.
(** A finished cell optimisation writes one more step of positions than of cells: the last cell is
    repeated. With as many cells as positions, an unfinished run, the parser raises. *)
Theorem C86_cell_opt out width rows cells_ rs n fs pos vals : says_run out (text "CELL_OPT") -> 11 <= width -> table_file width rows cells_ ->
  reads2 parse rows (map matrix_row_numbers rs) -> Forall (fun r => is_33 (m_matrix r)) rs -> 2 <= length rs ->
  fs <> [] -> xyz_file n fs pos -> reads3 parse (map (map snd) fs) vals ->
  relax_cell parse out (Some cells_) (Some pos) =
    (if (length fs =? length rs + 1)%nat then Some (Some (map m_matrix rs ++ [last (map m_matrix rs) []])) else None).
Proof.
  intros RT W T H M L NE (lss & F & ->) HV. unfold relax_cell. rewrite (proj1 (C86_matrices width rows cells_ rs W T H M L)). rewrite (run_read out _ RT), pstr_eqb_refl.
  unfold from_xyz. rewrite (all_frames parse n fs lss vals F NE HV). rewrite !map_length. replace (length vals) with (length fs) by (rewrite <- (f2_len HV); symmetry; apply map_length). reflexivity.
Qed.
Theorem C86_geo_opt out w width rows cells_ rs pos : says_run out w -> w <> text "CELL_OPT" -> 11 <= width -> table_file width rows cells_ ->
  reads2 parse rows (map matrix_row_numbers rs) -> Forall (fun r => is_33 (m_matrix r)) rs -> 2 <= length rs ->
  relax_cell parse out (Some cells_) pos = Some (Some (map m_matrix rs)).
Proof.
  intros RT NW W T H M L. unfold relax_cell. rewrite (proj1 (C86_matrices width rows cells_ rs W T H M L)). rewrite (run_read out _ RT). destruct (pstr_eqb w (text "CELL_OPT")) eqn:E; [|reflexivity]. apply pstr_eqb_eq in E. congruence.
Qed.
(** ** Single point calculations *)
Lemma through_skip f pre l rest : Forall (fun x => f x = false) pre -> f l = true -> through f (pre ++ l :: rest) = rest.
Proof. induction 1 as [|x pre H _ IH]; intros E; cbn [app through]; [now rewrite E|]. rewrite H. auto. Qed.
Lemma spaced3 a b c p g1 g2 q : solid a -> solid b -> solid c -> blanks g1 -> blanks g2 -> spaced_in [a; b; c] (p ++ a ++ g1 ++ b ++ g2 ++ c ++ q) = true.
Proof.
  intros A B C G1 G2. apply spaced_search. exists p. eexists. split; [reflexivity|]. apply spaced_iff; [repeat (apply Forall_cons; [assumption|]); apply Forall_nil|].
  exists g1, (b ++ g2 ++ c ++ q). split; [reflexivity|]. split; [exact G1|]. exists g2, (c ++ q). split; [reflexivity|]. split; [exact G2|]. now exists q.
Qed.
Lemma title_yes t : title_line t -> is_title t = true.
Proof. intros (p & g1 & g2 & q & G1 & G2 & ->). apply spaced3; try assumption; (eexists; eexists; split; [reflexivity|discriminate]). Qed.
Lemma head_lines ls rest : scf_head ls -> force_lines (ls ++ rest) = until (contains (text "SUM OF ATOMIC FORCES")) rest.
Proof.
  intros (l0 & pre & h & e & t & -> & NP & Hh & _ & T). unfold force_lines. cbn [app tl]. rewrite <- app_assoc. cbn [app]. rewrite through_skip.
  - cbn [tl through]. now rewrite (title_yes t T).
  - apply Forall_forall. intros x I. apply no_text. now apply NP.
  - now apply yes_text.
Qed.
Lemma until_rows rows atoms rest : Forall2 scf_row rows atoms -> (rest = [] \/ exists s more, rest = s :: more /\ with_text (text "SUM OF ATOMIC FORCES") s) ->
  until (contains (text "SUM OF ATOMIC FORCES")) (rows ++ rest) = rows.
Proof.
  intros F H. induction F as [|l a rows atoms (_ & N & _) _ IH]; cbn [app until].
  - destruct H as [-> |(s & more & -> & S)]; [reflexivity|]. cbn [until]. now rewrite (yes_text _ _ S).
  - rewrite (no_text _ _ N). now rewrite IH.
Qed.
Lemma row_nb l a : scf_row l a -> blank_line l = false.
Proof. intros (_ & _ & i & k & W). now apply (not_blank _ _ _ W). Qed.
Lemma drop_first l ls : blank_line l = false -> drop_blank (l :: ls) = l :: ls. Proof. intros H. cbn. now rewrite H. Qed.
Lemma trim_full ls : Forall (fun l => blank_line l = false) ls -> trim ls = ls.
Proof.
  intros F. unfold trim. assert (D : forall x, Forall (fun l => blank_line l = false) x -> drop_blank x = x) by (intros x X; destruct X; [reflexivity|now apply drop_first]). rewrite (D ls F). rewrite D by (now apply Forall_rev). apply rev_involutive.
Qed.
(** Symbols, forces and their number, when the block of forces is complete - and also when the
    file ends early, behind any of the rows: then the atoms that follow are missing, silently. *)
Theorem C86_scf head rows atoms vals rest : scf_head head -> Forall2 scf_row rows atoms -> atoms <> [] -> reads2 parse (map snd atoms) vals ->
  (rest = [] \/ exists s more, rest = s :: more /\ with_text (text "SUM OF ATOMIC FORCES") s) ->
  natoms_symbols_forces parse (head ++ rows ++ rest) = Some (Some (Scf (length atoms) (map fst atoms) vals)).
Proof.
  intros H F NE R E. unfold natoms_symbols_forces. rewrite (head_lines _ _ H), (until_rows _ _ _ F E). rewrite trim_full by (clear - F; induction F as [|l a rows atoms HR _ IH]; constructor; [now apply (row_nb l a)|exact IH]).
  destruct rows as [|r0 rows0] eqn:ER; [inversion F; subst; congruence|]. rewrite <- ER in *. clear r0 rows0 ER E H NE.
  assert (W : exists ws, map (split_ws []) rows = ws /\ Forall2 (fun w a => length w = 6 /\ nth_error w 2 = Some (fst a) /\ skipn 3 w = snd a) ws atoms).
  { clear R. induction F as [|l a rows atoms (L & _ & i & k & W) _ (ws & E & FW)]; [exists []; split; [reflexivity|constructor]|]. exists (words l :: ws). split; [cbn [map]; now rewrite E|]. constructor; [|exact FW]. rewrite W. cbn [length]. rewrite L. repeat split. }
  destruct W as (ws & EW & FW). unfold word_rows. rewrite EW.
  assert (SAME : forallb (fun r : list pstr => (length r =? length (hd [] ws))%nat) ws = true).
  { apply forallb_forall. intros x I. apply Nat.eqb_eq. assert (G : forall y, In y ws -> length y = 6) by (clear - FW; intros y J; induction FW as [|w a ws atoms (L & _) _ IH]; [destruct J|]; destruct J as [<- |J]; [exact L|auto]). destruct ws as [|w ws]; [destruct I|]. cbn [hd]. rewrite (G x I), (G w (or_introl eq_refl)). reflexivity. }
  match goal with |- match (if ?b then _ else _) with _ => _ end = _ => replace b with true by (symmetry; exact SAME) end.
  assert (S1 : opt_map (fun r => nth_error r 2) ws = Some (map fst atoms)) by (clear - FW; induction FW as [|w a ws atoms (_ & N & _) _ IH]; [reflexivity|]; cbn [opt_map map]; rewrite N; match goal with |- match ?x with _ => _ end = _ => replace x with (Some (map fst atoms)) by (symmetry; exact IH) end; reflexivity).
  assert (S2 : opt_map (fun r => opt_map parse (skipn 3 r)) ws = Some vals).
  { clear - FW R. revert vals R. induction FW as [|w a ws atoms (_ & _ & N) _ IH]; intros vals R; inversion R as [|? v ? vals' X Y]; subst; [reflexivity|]. cbn [opt_map]. rewrite N, (opt_reads parse _ _ X), (IH _ Y). reflexivity. }
  match goal with |- match ?x with _ => _ end = _ => replace x with (Some (map fst atoms)) by (symmetry; exact S1) end.
  match goal with |- match ?x with _ => _ end = _ => replace x with (Some vals) by (symmetry; exact S2) end.
  assert (L : length ws = length atoms) by exact (f2_len FW). rewrite L. reflexivity.
Qed.
(** The total energy, if the file states one: with two the parser raises. *)
Lemma energy_b l : in_order [text "ENERGY"; text "Total"; text "energy"; text ":"] l = true <-> ~ no_energy l.
Proof.
  rewrite order_iff. unfold no_energy. split.
  - intros (p & t & -> & a & t1 & -> & b & t2 & -> & c & d & -> & _) N. apply N. now exists p, a, b, c, d.
  - intros N. destruct (in_order [text "ENERGY"; text "Total"; text "energy"; text ":"] l) eqn:E; [now apply order_iff|]. exfalso. apply N. intros (p & a & b & c & d & ->).
    assert (T : in_order [text "ENERGY"; text "Total"; text "energy"; text ":"] (p ++ text "ENERGY" ++ a ++ text "Total" ++ b ++ text "energy" ++ c ++ text ":" ++ d) = true).
    { apply order_iff. exists p. eexists. split; [reflexivity|]. exists a. eexists. split; [reflexivity|]. exists b. eexists. split; [reflexivity|]. exists c, d. split; [reflexivity|exact I]. }
    congruence.
Qed.
Lemma no_energy_b l : no_energy l -> in_order [text "ENERGY"; text "Total"; text "energy"; text ":"] l = false.
Proof. intros N. destruct (in_order _ l) eqn:E; [|reflexivity]. exfalso. apply energy_b in E. now apply E. Qed.
Lemma energy_yes l x : energy_line l x -> in_order [text "ENERGY"; text "Total"; text "energy"; text ":"] l = true.
Proof. intros (p & a & b & c & g & h & -> & _). apply energy_b. intros N. apply N. exists p, a, b, c. eexists. reflexivity. Qed.
Lemma energy_drop l x : energy_line l x -> exists g h, spaces g /\ spaces h /\ sed_drop (text ":") l = g ++ x ++ h.
Proof.
  intros (p & a & b & c & g & h & -> & G & H & NE & X). exists g, h. split; [exact G|]. split; [exact H|]. unfold sed_drop.
  set (q := p ++ text "ENERGY" ++ a ++ text "Total" ++ b ++ text "energy" ++ c). replace (p ++ text "ENERGY" ++ a ++ text "Total" ++ b ++ text "energy" ++ c ++ text ":" ++ g ++ x ++ h) with (q ++ text ":" ++ g ++ x ++ h) by (unfold q; now rewrite <- !app_assoc).
  rewrite (after_last_more (text ":") (g ++ x ++ h)); [reflexivity|]. cbn [text list_ascii_of_string app after_last]. rewrite after_last_none; [reflexivity|]. apply contains_first. intros I. apply in_app_or in I as [I|I]; [now apply G in I|]. apply in_app_or in I as [I|I]; [now apply X in I as [_ I]|now apply H in I].
Qed.
Lemma energy_nb l x : energy_line l x -> blank_line (sed_drop (text ":") l) = false /\ strip (sed_drop (text ":") l) = x.
Proof.
  intros H. pose proof H as H0. destruct H0 as (p & a & b & c & g0 & h0 & _ & _ & _ & NE & X). destruct (energy_drop l x H) as (g & h & G & Hh & ->).
  assert (FX : Forall (fun c => is_space c = false) x) by (apply Forall_forall; intros d I; now apply X). split.
  - apply (not_blank _ x []). apply words_padded; [now apply blank_space|now apply blank_space|exact NE|exact FX].
  - apply strip_padded; [now apply blank_space|now apply blank_space|exact NE|exact FX].
Qed.
Theorem C86_scf_energy a l b x v : (forall y, In y (a ++ b) -> no_energy y) -> energy_line l x -> parse x = Some v -> scf_etot parse (a ++ l :: b) = Some (Some v).
Proof.
  intros N H P. unfold scf_etot. rewrite filter_app. cbn [List.filter]. rewrite (filter_none _ a) by (apply Forall_forall; intros y I; apply no_energy_b, N, in_or_app; now left). rewrite (filter_none _ b) by (apply Forall_forall; intros y I; apply no_energy_b, N, in_or_app; now right).
  rewrite (energy_yes l x H). cbn [app map]. destruct (energy_nb l x H) as [NB ST]. rewrite trim_full by (apply Forall_cons; [exact NB|apply Forall_nil]). now rewrite ST, P.
Qed.
Theorem C86_two_energies_refuted a l b k c x y : (forall z, In z (a ++ b ++ c) -> no_energy z) -> energy_line l x -> energy_line k y -> scf_etot parse (a ++ l :: b ++ k :: c) = None.
Proof.
  intros N H K. unfold scf_etot. rewrite filter_app. cbn [List.filter]. rewrite filter_app. cbn [List.filter]. rewrite (filter_none _ a) by (apply Forall_forall; intros z I; apply no_energy_b, N, in_or_app; now left). rewrite (filter_none _ b) by (apply Forall_forall; intros z I; apply no_energy_b, N, in_or_app; right; apply in_or_app; now left).
  rewrite (filter_none _ c) by (apply Forall_forall; intros z I; apply no_energy_b, N, in_or_app; right; apply in_or_app; now right).
  rewrite (energy_yes l x H), (energy_yes k y K). cbn [app map]. rewrite trim_full; [reflexivity|]. apply Forall_cons; [apply (energy_nb l x H)|]. apply Forall_cons; [apply (energy_nb k y K)|apply Forall_nil].
Qed.
(** The stress tensor *)
Lemma stress_b l : in_order [text "STRESS TENSOR"; text "GPa"] l = true <-> exists p a b, l = p ++ text "STRESS TENSOR" ++ a ++ text "GPa" ++ b.
Proof.
  rewrite order_iff. split; [intros (p & t & -> & a & b & -> & _); now exists p, a, b|]. intros (p & a & b & ->). exists p. eexists. split; [reflexivity|]. exists a, b. split; [reflexivity|exact I].
Qed.
Lemma not_stress l : no_stress l -> is_stress l = false.
Proof. intros N. unfold is_stress. destruct (in_order _ l) eqn:E; [|reflexivity]. exfalso. apply N. now apply stress_b. Qed.
Lemma Af_none n f : forall ls old gap, Forall (fun l => f l = false) ls -> grep_Af n f 0 old gap ls = [].
Proof. induction ls as [|l ls IH]; intros old gap F; [reflexivity|]. inversion F as [|? ? E F']; subst. cbn [grep_Af]. rewrite E. now apply IH. Qed.
Lemma Af_pre n f : forall a rest gap, Forall (fun l => f l = false) a -> exists g, grep_Af n f 0 false gap (a ++ rest) = grep_Af n f 0 false g rest.
Proof. induction a as [|l a IH]; intros rest gap F; [now exists gap|]. inversion F as [|? ? E F']; subst. cbn [app grep_Af]. rewrite E. now apply IH. Qed.
Lemma Af_take n f : forall ls rest old gap, Forall (fun l => f l = false) ls -> grep_Af n f (length ls) old gap (ls ++ rest) = ls ++ grep_Af n f 0 old gap rest.
Proof. induction ls as [|l ls IH]; intros rest old gap F; [reflexivity|]. inversion F as [|? ? E F']; subst. cbn [app length grep_Af]. rewrite E. now rewrite IH. Qed.
Lemma Af_hit n f k g h rest : f h = true -> grep_Af n f k false g (h :: rest) = h :: grep_Af n f n true false rest.
Proof. intros E. cbn [grep_Af]. now rewrite E. Qed.
Lemma line_row axis l x : In axis (text "XYZ") -> stress_line axis l x -> is_row l = true /\ is_axes l = false /\ is_stress l = false /\ words l = [axis] :: x.
Proof.
  intros A (g & rest & G & -> & W & L & N).
  assert (NS : axis <> " "%char) by (intros ->; cbn in A; intuition discriminate).
  assert (EB : eat_blanks (g ++ axis :: rest) = axis :: rest) by (apply eat_all; [apply G|cbn; now apply Ascii.eqb_neq]).
  split; [|split; [|split]].
  - unfold is_row. destruct G as [NG G]. destruct g as [|c g]; [congruence|]. rewrite EB. cbn [app]. rewrite (G c (or_introl eq_refl)). replace (Ascii.eqb " " " ") with true by reflexivity. cbn [andb]. cbn in A. destruct A as [<- |[<- |[<- |[]]]]; reflexivity.
  - destruct (is_axes (g ++ axis :: rest)) eqn:E; [|reflexivity]. exfalso. apply spaced_search in E as (p & t & E & S). apply spaced_iff in S; [|repeat (apply Forall_cons; [eexists; eexists; split; [reflexivity|discriminate]|]); apply Forall_nil].
    destruct S as (g1 & t1 & -> & B1 & g2 & t2 & -> & B2 & q & ->).
    assert (INN : forall c, In c (text "XYZ") -> In c (g ++ axis :: rest) -> c = axis).
    { intros c C I. apply in_app_or in I as [I|I]; [apply (proj2 G) in I; subst c; cbn in C; intuition discriminate|]. destruct I as [<- |I]; [reflexivity|]. exfalso. apply (N c I). cbn in C |- *. tauto. }
    assert (X1 : "X"%char = axis) by (apply INN; [now left|rewrite E; apply in_or_app; right; now left]).
    assert (Y1 : "Y"%char = axis) by (apply INN; [right; now left|rewrite E; do 3 (apply in_or_app; right); apply in_or_app; left; now left]). congruence.
  - destruct (is_stress (g ++ axis :: rest)) eqn:E; [|reflexivity]. exfalso. apply stress_b in E as (p & a & b & E). assert (I : In "S"%char (g ++ axis :: rest)) by (rewrite E; apply in_or_app; right; now left).
    apply in_app_or in I as [I|I]; [now apply (proj2 G) in I|]. destruct I as [-> |I]; [cbn in A; intuition discriminate|]. apply (N _ I). now left.
  - unfold words. rewrite split_ws_blank by (apply blank_space, G). exact W.
Qed.
Theorem C86_scf_stress a h e t r1 r2 r3 b x1 x2 x3 v1 v2 v3 : (forall y, In y (a ++ e :: t :: b) -> no_stress y) -> stress_head h -> empty e -> stress_axes t ->
  stress_line "X" r1 x1 -> stress_line "Y" r2 x2 -> stress_line "Z" r3 x3 -> reads2 parse [x1; x2; x3] [v1; v2; v3] ->
  scf_stress parse (a ++ h :: e :: t :: r1 :: r2 :: r3 :: b) = Some [v1; v2; v3].
Proof.
  intros N Hh E T R1 R2 R3 H. unfold scf_stress.
  destruct (line_row "X" r1 x1 ltac:(now left) R1) as (A1 & B1 & C1 & W1). destruct (line_row "Y" r2 x2 ltac:(right; now left) R2) as (A2 & B2 & C2 & W2). destruct (line_row "Z" r3 x3 ltac:(right; right; now left) R3) as (A3 & B3 & C3 & W3).
  destruct (Af_pre 5 is_stress a (h :: e :: t :: r1 :: r2 :: r3 :: b) false) as (g & ->); [apply Forall_forall; intros y I; apply not_stress, N, in_or_app; now left|].
  assert (Sh : is_stress h = true) by (destruct Hh as (p & u & v & _ & ->); apply stress_b; now exists p, u, v).
  rewrite (Af_hit 5 is_stress 0 g h _ Sh).
  assert (FA : Forall (fun l => is_stress l = false) [e; t; r1; r2; r3]).
  { apply Forall_cons; [apply not_stress, N, in_or_app; right; now left|]. apply Forall_cons; [apply not_stress, N, in_or_app; right; right; now left|]. apply Forall_cons; [exact C1|]. apply Forall_cons; [exact C2|]. apply Forall_cons; [exact C3|apply Forall_nil]. }
  assert (TK := Af_take 5 is_stress [e; t; r1; r2; r3] b true false FA). change (length [e; t; r1; r2; r3]) with 5 in TK. change ([e; t; r1; r2; r3] ++ b) with (e :: t :: r1 :: r2 :: r3 :: b) in TK. rewrite TK.
  rewrite Af_none by (apply Forall_forall; intros y I; apply not_stress, N, in_or_app; right; right; now right). rewrite app_nil_r.
  assert (AT : is_axes t = true) by (destruct T as (p & g1 & g2 & q & G1 & G2 & ->); apply spaced3; try assumption; (eexists; eexists; split; [reflexivity|discriminate])).
  assert (RH : is_row h = false).
  { destruct Hh as (p & u & v & P & ->). unfold is_row. destruct (p ++ text "STRESS TENSOR" ++ u ++ text "GPa" ++ v) as [|c s] eqn:EE; [reflexivity|]. rewrite <- EE. rewrite eat_all; [cbn; now rewrite andb_false_r|exact P|reflexivity]. }
  assert (RE : is_row e = false).
  { unfold is_row. destruct e as [|c s] eqn:EE; [reflexivity|]. rewrite <- EE in *. destruct (eat_split e) as (p & P & E2). destruct (eat_blanks e) as [|d s2]; [now rewrite andb_false_r|]. unfold empty, words in E. rewrite E2 in E. rewrite split_ws_blank in E by (now apply blank_space).
    destruct (Ascii.eqb c " "); [|reflexivity]. cbn [andb]. destruct (is_space d) eqn:SD; [destruct (Ascii.eqb_spec d "X") as [-> |_]; [discriminate|]; destruct (Ascii.eqb_spec d "Y") as [-> |_]; [discriminate|]; destruct (Ascii.eqb_spec d "Z") as [-> |_]; [discriminate|]; reflexivity|].
    exfalso. cbn [split_ws] in E. rewrite SD in E. destruct (first_char s2 [] d) as (w & ws & E3 & _). cbn [app] in E. congruence. }
  assert (FF : forall X Y, List.filter is_row (List.filter (fun l => negb (is_axes l)) (X :: Y)) = (if negb (is_axes X) && is_row X then [X] else []) ++ List.filter is_row (List.filter (fun l => negb (is_axes l)) Y)) by (intros X Y; cbn [List.filter]; destruct (is_axes X); cbn [negb andb app List.filter]; [reflexivity|]; destruct (is_row X); reflexivity).
  rewrite !FF. rewrite RH, RE, AT, A1, A2, A3, B1, B2, B3. rewrite !andb_false_r. cbn [negb andb app List.filter].
  unfold word_rows. cbn [map]. unfold words in W1, W2, W3. rewrite W1, W2, W3. inversion H as [|? ? ? ? H1 H']; subst. inversion H' as [|? ? ? ? H2 H'']; subst. inversion H'' as [|? ? ? ? H3 _]; subst.
  assert (L1 : length x1 = 3) by now destruct R1 as (? & ? & _ & _ & _ & L & _). assert (L2 : length x2 = 3) by now destruct R2 as (? & ? & _ & _ & _ & L & _). assert (L3 : length x3 = 3) by now destruct R3 as (? & ? & _ & _ & _ & L & _).
  cbn [hd forallb length]. rewrite L1, L2, L3. cbn [Nat.eqb andb opt_map skipn]. rewrite (opt_reads parse _ _ H1), (opt_reads parse _ _ H2), (opt_reads parse _ _ H3). reflexivity.
Qed.
End C86.
(** ** Files that meet the hypotheses *)
Definition pz (t : pstr) : option R := match read_int t with Some z => Some (IZR z) | None => None end.
Lemma rd1 ws zs : map read_int ws = map Some zs -> reads1 pz ws (map IZR zs).
Proof. revert ws. induction zs as [|z zs IH]; intros [|w ws] E; try discriminate E; [constructor|]. cbn [map] in *. injection E as E1 E2. constructor; [unfold reads, pz; now rewrite E1|now apply IH]. Qed.
Lemma rd2 ws zs : map (map read_int) ws = map (map Some) zs -> reads2 pz ws (map (map IZR) zs).
Proof. revert ws. induction zs as [|z zs IH]; intros [|w ws] E; try discriminate E; [constructor|]. cbn [map] in *. injection E as E1 E2. constructor; [now apply rd1|now apply IH]. Qed.
Lemma rd3 ws zs : map (map (map read_int)) ws = map (map (map Some)) zs -> reads3 pz ws (map (map (map IZR)) zs).
Proof. revert ws. induction zs as [|z zs IH]; intros [|w ws] E; try discriminate E; [constructor|]. cbn [map] in *. injection E as E1 E2. constructor; [now apply rd2|now apply IH]. Qed.
Ltac notext := let HH := fresh in intros HH; apply text_iff in HH; vm_compute in HH; discriminate HH.
Ltac chars := let c := fresh in let I := fresh in intros c I; cbn in I; repeat (destruct I as [<- |I]; [first [reflexivity | split; [reflexivity|discriminate] | discriminate | idtac]|]); try destruct I.
Definition demo_xyz : list pstr := map text
  ["       2"; " i =        0, E =       -23"; " Al        -1        17        4"; "  N         2         3        5";
   "       2"; " i =        1, E =       -24"; " Al        -2        18        6"; "  N         7         8        9"]%string.
Definition demo_frames : list frame :=
  [[(text "Al", map text ["-1"; "17"; "4"]); (text "N", map text ["2"; "3"; "5"])]; [(text "Al", map text ["-2"; "18"; "6"]); (text "N", map text ["7"; "8"; "9"])]]%string.
Lemma atom_ok l a : words l = fst a :: snd a -> length (snd a) = 3 -> forallb (fun d => negb (match hd_error (fst a) with Some c => Ascii.eqb c d | None => false end)) (text "0123456789") = true -> contains (text "i =") l = false -> atom_line l a.
Proof.
  intros W L D N. split; [exact W|]. split; [exact L|]. split.
  - intros d I E. rewrite forallb_forall in D. specialize (D d I). rewrite E, Ascii.eqb_refl in D. discriminate.
  - intros H. apply text_iff in H. congruence.
Qed.
Lemma demo_xyz_ok : xyz_file 2 demo_frames demo_xyz.
Proof.
  exists [firstn 4 demo_xyz; skipn 4 demo_xyz]. split; [|reflexivity]. unfold demo_frames.
  apply Forall2_cons; [|apply Forall2_cons; [|apply Forall2_nil]]; (eexists; eexists; eexists; split; [reflexivity|]; split; [exists (text "       "), []; split; [chars|]; split; [chars|]; reflexivity|]).
  - split; [exists (text " "), (text "       0, "), (text "       -23"); reflexivity|]. split; [reflexivity|]. apply Forall2_cons; [|apply Forall2_cons; [|apply Forall2_nil]]; apply atom_ok; reflexivity.
  - split; [exists (text " "), (text "       1, "), (text "       -24"); reflexivity|]. split; [reflexivity|]. apply Forall2_cons; [|apply Forall2_cons; [|apply Forall2_nil]]; apply atom_ok; reflexivity.
Qed.
Definition demo_vals : arr3 := [[[-1; 17; 4]; [2; 3; 5]]; [[-2; 18; 6]; [7; 8; 9]]]%R.
Lemma demo_reads : reads3 pz (map (map snd) demo_frames) demo_vals.
Proof. refine (rd3 _ [[[-1; 17; 4]; [2; 3; 5]]; [[-2; 18; 6]; [7; 8; 9]]]%Z _); vm_compute; reflexivity. Qed.
Example C86_case : from_xyz pz (Some demo_xyz) = Some (Some demo_vals) /\ from_xyz pz (Some (firstn 5 demo_xyz)) = Some (Some (firstn 1 demo_vals)) /\ from_xyz pz (Some (firstn 7 demo_xyz)) = None.
Proof.
  split; [exact (proj1 (C86_trajectory pz 2 _ _ demo_xyz demo_vals demo_xyz_ok demo_reads))|]. split.
  - apply (C86_cut pz 2 demo_frames demo_xyz demo_vals 5); [discriminate|discriminate|exact demo_xyz_ok|exact demo_reads|cbn; lia].
  - apply (C86_cut pz 2 demo_frames demo_xyz demo_vals 7); [discriminate|discriminate|exact demo_xyz_ok|exact demo_reads|cbn; lia].
Qed.
Definition demo_cells : list pstr := map text ["#   Step   Time [fs]  Ax ..."; "   0   0   3 0 0   -1 2 0   0 0 5   30"; "   1   2   4 0 0   -1 2 0   0 0 5   40"]%string.
Definition demo_rows : list matrix_row := [MatrixRow 0 0 [[3; 0; 0]; [-1; 2; 0]; [0; 0; 5]] [30]; MatrixRow 1 2 [[4; 0; 0]; [-1; 2; 0]; [0; 0; 5]] [40]]%R.
Example C86_matrix_case : get_cell pz (Some demo_cells) = Some (Some (map m_matrix demo_rows)).
Proof.
  apply (C86_matrices pz 12 (map words (tl demo_cells)) demo_cells demo_rows); [lia| | | |cbn; lia].
  - exists (text "   Step   Time [fs]  Ax ..."), (tl demo_cells). split; [reflexivity|]. split.
    + apply Forall2_cons; [split; [|reflexivity]; intros I; cbn in I; repeat (destruct I as [I|I]; [discriminate I|]); destruct I|]. apply Forall2_cons; [split; [|reflexivity]; intros I; cbn in I; repeat (destruct I as [I|I]; [discriminate I|]); destruct I|apply Forall2_nil].
    + apply Forall_cons; [reflexivity|]. apply Forall_cons; [reflexivity|apply Forall_nil].
  - refine (rd2 _ [[0; 0; 3; 0; 0; -1; 2; 0; 0; 0; 5; 30]; [1; 2; 4; 0; 0; -1; 2; 0; 0; 0; 5; 40]]%Z _); vm_compute; reflexivity.
  - apply Forall_cons; [|apply Forall_cons; [|apply Forall_nil]]; (split; [reflexivity|]; repeat (apply Forall_cons; [reflexivity|]); apply Forall_nil).
Qed.
Definition demo_out : list pstr := map text [" GLOBAL| Run type     MD"; " ATOMIC FORCES in [a.u.]"; ""; " # Atom   Kind   Element  X  Y  Z"; "      1      1      Al     1   2   3"; "      2      2      N      4  -5   6"; " SUM OF ATOMIC FORCES   0 0"]%string.
Definition demo_block : list (list pstr) := [map text ["1"; "2"; "3"]; map text ["4"; "-5"; "6"]]%string.
Example C86_out_case : get_forces pz (Some 2) demo_out None = Some (Some [[[1; 2; 3]; [4; -5; 6]]]%R).
Proof.
  apply (C86_outfile_forces pz 2 [Line (nth 0 demo_out []); Block demo_block; Line (nth 6 demo_out [])]); [discriminate| |discriminate|].
  - exists [firstn 1 demo_out; firstn 5 (skipn 1 demo_out); skipn 6 demo_out]. split; [|reflexivity]. apply Forall2_cons; [split; [reflexivity|notext]|]. apply Forall2_cons; [|apply Forall2_cons; [split; [reflexivity|notext]|apply Forall2_nil]].
    exists (text " ATOMIC FORCES in [a.u.]"), [[]], (text " # Atom   Kind   Element  X  Y  Z"), (firstn 2 (skipn 4 demo_out)). split; [reflexivity|].
    split; [exists (text " "), (text " [a.u.]"); reflexivity|]. split; [apply Forall_cons; [reflexivity|apply Forall_nil]|]. split; [exists (text " # Atom   "), (text "   Element  X  Y  Z"); reflexivity|]. split; [notext|]. split; [reflexivity|].
    assert (B : forall k, blanks (repeat " "%char (S k))) by (intros k; split; [discriminate|intros c I; now apply repeat_spec in I]).
    apply Forall2_cons; [|apply Forall2_cons; [|apply Forall2_nil]].
    + exists (repeat " "%char 6), (text "1"), (repeat " "%char 6), (text "1"), (repeat " "%char 6), (text "Al"), (repeat " "%char 5), (text "1   2   3"). split; [reflexivity|].
      do 4 (split; [apply B|]). split; [|split; [reflexivity|split; [reflexivity|split; [notext|split; notext]]]].
      intros x [<- |[<- |[<- |[]]]]; (split; [discriminate|]; intros I; cbn in I; repeat (destruct I as [I|I]; [discriminate I|]); destruct I).
    + exists (repeat " "%char 6), (text "2"), (repeat " "%char 6), (text "2"), (repeat " "%char 6), (text "N"), (repeat " "%char 6), (text "4  -5   6"). split; [reflexivity|].
      do 4 (split; [apply B|]). split; [|split; [reflexivity|split; [reflexivity|split; [notext|split; notext]]]].
      intros x [<- |[<- |[<- |[]]]]; (split; [discriminate|]; intros I; cbn in I; repeat (destruct I as [I|I]; [discriminate I|]); destruct I).
  - refine (rd3 _ [[[1; 2; 3]; [4; -5; 6]]]%Z _); vm_compute; reflexivity.
Qed.
Definition demo_scf : list pstr := map text [" CP2K"; " ENERGY| Total FORCE_EVAL ( QS ) energy (a.u.):      -23"]%string.
Example C86_scf_case : natoms_symbols_forces pz ((text "start" :: demo_scf ++ firstn 3 (skipn 1 demo_out)) ++ firstn 1 (skipn 4 demo_out)) = Some (Some (Scf 1 [text "Al"] [[1; 2; 3]]%R)).
Proof.
  rewrite <- (app_nil_r (firstn 1 (skipn 4 demo_out))). apply (C86_scf pz _ _ [(text "Al", map text ["1"; "2"; "3"]%string)]); [| |discriminate| |now left].
  - exists (text "start"), demo_scf, (nth 1 demo_out []), [], (nth 3 demo_out []). split; [reflexivity|]. split; [intros l [<- |[<- |[]]]; notext|]. split; [exists (text " "), (text " in [a.u.]"); reflexivity|]. split; [reflexivity|].
    exists (text " # "), (text "   "), (text "   "), (text "  X  Y  Z"). split; [split; [discriminate|chars]|]. split; [split; [discriminate|chars]|]. reflexivity.
  - apply Forall2_cons; [|apply Forall2_nil]. split; [reflexivity|]. split; [notext|]. exists (text "1"), (text "1"). reflexivity.
  - refine (rd2 _ [[1; 2; 3]]%Z _); vm_compute; reflexivity.
Qed.
Definition demo_ener : list pstr := map text ["#  Step  Time  Kin  Temp  Pot  Cons  Used"; "  0  0  1  300  -23  -22  5"; "  1  2  2  310  -24  -22  5"]%string.
Ltac nohash := intros I; cbn in I; repeat (destruct I as [I|I]; [discriminate I|]); destruct I.
Example C86_ener_case : get_temperature pz (Some demo_ener) = Some (Some [300; 310]%R) /\ get_etot pz (Some demo_ener) = Some (Some [-23; -24]%R).
Proof.
  destruct (C86_energies pz (map words (tl demo_ener)) demo_ener [Ener 0 0 1 300 (-23) (-22) 5; Ener 1 2 2 310 (-24) (-22) 5]) as (_ & A & B & _); [| |cbn; lia|split; assumption].
  - exists (text "  Step  Time  Kin  Temp  Pot  Cons  Used"), (tl demo_ener). split; [reflexivity|]. split.
    + apply Forall2_cons; [split; [nohash|reflexivity]|]. apply Forall2_cons; [split; [nohash|reflexivity]|apply Forall2_nil].
    + apply Forall_cons; [reflexivity|]. apply Forall_cons; [reflexivity|apply Forall_nil].
  - refine (rd2 _ [[0; 0; 1; 300; -23; -22; 5]; [1; 2; 2; 310; -24; -22; 5]]%Z _); vm_compute; reflexivity.
Qed.
Definition demo_opt : list pstr := map text ["  1"; " i = 1, E = -3"; " Al 1 2 3"; "  1"; " i = 2, E = -4"; " Al 1 2 4"]%string.
Example C86_opt_case : relax_etot pz (Some demo_opt) = Some (Some [-3; -4]%R).
Proof.
  change demo_opt with (concat [firstn 3 demo_opt; skipn 3 demo_opt]).
  apply (C86_opt_energies pz 1 [[(text "Al", map text ["1"; "2"; "3"]%string)]; [(text "Al", map text ["1"; "2"; "4"]%string)]] _ [text "-3"; text "-4"]); [discriminate| | |refine (rd1 _ [-3; -4]%Z _); vm_compute; reflexivity].
  - apply Forall2_cons; [|apply Forall2_cons; [|apply Forall2_nil]]; (eexists; eexists; eexists; split; [reflexivity|]; split; [exists (text "  "), []; split; [chars|]; split; [chars|]; reflexivity|]).
    + split; [exists (text " "), (text "1, "), (text " -3"); reflexivity|]. split; [reflexivity|]. apply Forall2_cons; [apply atom_ok; reflexivity|apply Forall2_nil].
    + split; [exists (text " "), (text "2, "), (text " -4"); reflexivity|]. split; [reflexivity|]. apply Forall2_cons; [apply atom_ok; reflexivity|apply Forall2_nil].
  - apply Forall2_cons; [|apply Forall2_cons; [|apply Forall2_nil]]; (eexists; eexists; eexists; split; [reflexivity|]).
    + split; [exists (text " "), (text "1, "), (text " -3"); reflexivity|]. exists (text "1,"). reflexivity.
    + split; [exists (text " "), (text "2, "), (text " -4"); reflexivity|]. exists (text "2,"). reflexivity.
Qed.
Example C86_run_case : says_run demo_out (text "MD").
Proof.
  exists [], (hd [] demo_out), (tl demo_out). split; [reflexivity|]. split; [intros x []|]. exists (text " "), (text "| "), (text "     "), []. split; [reflexivity|]. split; [split; [discriminate|chars]|]. split; [chars|]. split; [discriminate|chars].
Qed.
Example C86_energy_case : scf_etot pz demo_scf = Some (Some (-23)%R).
Proof.
  apply (C86_scf_energy pz [text " CP2K"] (nth 1 demo_scf []) [] (text "-23")); [|  |reflexivity].
  - intros y [<- |[]] (p & a & b & c & d & E). apply (f_equal (contains (text "ENERGY"))) in E. replace (contains (text "ENERGY") (text " CP2K")) with false in E by reflexivity. symmetry in E. assert (T : contains (text "ENERGY") (p ++ text "ENERGY" ++ a ++ text "Total" ++ b ++ text "energy" ++ c ++ text ":" ++ d) = true) by (apply text_iff; exists p; eexists; reflexivity). congruence.
  - exists (text " "), (text "| "), (text " FORCE_EVAL ( QS ) "), (text " (a.u.)"), (text "      "), []. split; [reflexivity|]. split; [chars|]. split; [chars|]. split; [discriminate|chars].
Qed.
Definition demo_stress : list pstr := map text [" start"; " STRESS TENSOR [GPa]"; ""; "            X        Y        Z"; "  X       1        2        3"; "  Y       2        4        5"; "  Z       3        5        6"; " end"]%string.
Example C86_stress_case : scf_stress pz demo_stress = Some [[1; 2; 3]; [2; 4; 5]; [3; 5; 6]]%R.
Proof.
  apply (C86_scf_stress pz [text " start"] (nth 1 demo_stress []) [] (nth 3 demo_stress []) (nth 4 demo_stress []) (nth 5 demo_stress []) (nth 6 demo_stress []) [text " end"] (map text ["1"; "2"; "3"]%string) (map text ["2"; "4"; "5"]%string) (map text ["3"; "5"; "6"]%string)).
  - intros y I N. apply stress_b in N. cbn in I. repeat (destruct I as [<- |I]; [vm_compute in N; discriminate N|]). destruct I.
  - exists (text " "), (text " ["), (text "]"). split; [chars|reflexivity].
  - reflexivity.
  - exists (text "            "), (text "        "), (text "        "), []. split; [split; [discriminate|chars]|]. split; [split; [discriminate|chars]|reflexivity].
  - exists (text "  "), (text "       1        2        3"). split; [split; [discriminate|chars]|]. split; [reflexivity|]. split; [reflexivity|]. split; [reflexivity|]. intros c I J. cbn in I, J. intuition congruence.
  - exists (text "  "), (text "       2        4        5"). split; [split; [discriminate|chars]|]. split; [reflexivity|]. split; [reflexivity|]. split; [reflexivity|]. intros c I J. cbn in I, J. intuition congruence.
  - exists (text "  "), (text "       3        5        6"). split; [split; [discriminate|chars]|]. split; [reflexivity|]. split; [reflexivity|]. split; [reflexivity|]. intros c I J. cbn in I, J. intuition congruence.
  - refine (rd2 _ [[1; 2; 3]; [2; 4; 5]; [3; 5; 6]]%Z _); vm_compute; reflexivity.
Qed.
Print Assumptions C86_trajectory.
Print Assumptions C86_cut.
Print Assumptions C86_energies.
Print Assumptions C86_matrices.
Print Assumptions C86_one_step_refuted.
Print Assumptions C86_outfile_forces.
Print Assumptions C86_force_file.
Print Assumptions C86_missing.
Print Assumptions C86_opt_energies.
Print Assumptions C86_cell_opt.
Print Assumptions C86_geo_opt.
Print Assumptions C86_scf.
Print Assumptions C86_scf_energy.
Print Assumptions C86_two_energies_refuted.
Print Assumptions C86_scf_stress.
