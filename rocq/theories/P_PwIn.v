(** C84: input files for pw.x. *)
From Coq Require Import Ascii String List Bool Arith ZArith QArith Reals Lra Lia.
From Coq Require Import DecimalString.
From Flocq Require Import BinarySingleNaN.
From Verif Require Import Comb CombProofs P_Comb ArrayIO ArrayIOProofs Decimal TextOut TextOutSpec TextOutProofs P_TextOut Species SpeciesSpec SpeciesProofs P_Species LammpsOutProofs P_LammpsOut PwIn PwInSpec PwInProofs.
Import ListNotations.
Local Open Scope list_scope.
Local Open Scope nat_scope.
Local Notation length := List.length.

Lemma table_word s : In s table -> word s.
Proof.
  assert (G : forallb (fun s => negb (length s =? 0) && forallb (fun c => negb (is_space c)) s) table = true) by (vm_compute; reflexivity). intros H. rewrite forallb_forall in G. specialize (G s H). apply andb_true_iff in G as [A B].
  split; [intros ->; discriminate A|]. intros c C. rewrite forallb_forall in B. specialize (B c C). now apply negb_true_iff.
Qed.
Lemma table_symbol s : In s table -> symbol s.
Proof.
  assert (G : forallb (fun s => match s with c :: t => capital c && forallb small t | [] => false end) table = true) by (vm_compute; reflexivity). intros H. rewrite forallb_forall in G. specialize (G s H). destruct s as [|c t]; [discriminate|]. apply andb_true_iff in G as [A B].
  exists c, t. split; [reflexivity|]. split; [exact A|]. intros d D. rewrite forallb_forall in B. now apply B.
Qed.
(** The pseudopotential of a type is the first file in the list which starts with its symbol. *)
Theorem C84_pseudos l u r : pseudos (Many l) u = Some r <-> length l = length u /\ Forall2 (fun s p => first_with s p l) u r.
Proof.
  unfold pseudos. destruct (Nat.eqb_spec (length l) (length u)) as [E|E]; [|split; [discriminate|intros [H _]; congruence]]. destruct (Nat.eqb_spec (length (concat (map (pick l) u))) (length u)) as [E2|E2].
  - split; [intros [= <-]; split; [exact E|]; now apply pick_all|]. intros [_ H]. f_equal. now apply pick_make.
  - split; [discriminate|]. intros [_ H]. exfalso. apply E2. rewrite (pick_make l u r H). symmetry. now apply f2_length in H.
Qed.
(** Files in the order of the types (sorted symbols): every type gets its own. *)
Theorem C84_pseudos_sorted symbols fs : incl symbols table -> Forall2 file_of (symbols_unique symbols) fs -> pseudos (Many fs) (symbols_unique symbols) = Some fs.
Proof.
  intros K F. apply C84_pseudos. split; [symmetry; now apply f2_length in F|]. apply own_files; [apply unique_ascending| |exact F]. apply Forall_forall. intros s H. apply table_symbol, K. now apply unique_in.
Qed.
(** In another order a type may get the file of another element. *)
Theorem C84_pseudos_refuted : let u := symbols_unique [text "Cl"; text "C"] in let fs := [text "Cl.UPF"; text "C.UPF"] in
  Forall2 file_of u (rev fs) /\ pseudos (Many (rev fs)) u = Some (rev fs) /\ pseudos (Many fs) u = Some [text "Cl.UPF"; text "Cl.UPF"].
Proof. cbv zeta. change (symbols_unique [text "Cl"; text "C"]) with [text "C"; text "Cl"]. split; [|split; reflexivity]. cbn [rev app]. repeat constructor; exists "."%char, (text "UPF"); split; reflexivity. Qed.
(** A type without file raises; a file name for all is put behind each symbol. *)
Theorem C84_pseudos_missing (l u : list pstr) (s : pstr) : In s u -> (forall p t, In p l -> p <> s ++ t) -> pseudos (Many l) u = None.
Proof.
  intros H N. destruct (pseudos (Many l) u) as [r|] eqn:E; [|reflexivity]. exfalso. apply C84_pseudos in E as [_ F]. apply In_nth_error in H as [i H]. destruct (nth_error r i) as [p|] eqn:R.
  - destruct (Forall2_nth _ _ _ _ _ _ F H R) as (a & b & -> & [t T] & _). apply (N p t); [apply in_or_app; right; now left|exact T].
  - apply f2_length in F. assert (i < length u) by (apply nth_error_Some; congruence). apply nth_error_None in R. lia.
Qed.
Theorem C84_pseudos_one s u : exists r, pseudos (One s) u = Some r /\ Forall2 (fun sym f => f = sym ++ "."%char :: s) u r.
Proof. eexists. split; [reflexivity|]. induction u; constructor; [reflexivity|assumption]. Qed.

Definition zeros := [0; 0; 0]%Z.
(** Grid and shift: a list with a list works; arrays are added, tuples raise. *)
Theorem C84_kpoints l s : exists t, kpoints_str_pwin (PList l) (PList s) = Some t /\ lines t = [t] /\ integers t (l ++ s).
Proof. eexists. split; [reflexivity|]. cbn [elems]. destruct (ints_line (l ++ s)) as [I O]. split; [now apply lines_one|exact I]. Qed.
Theorem C84_kpoints_tuple_refuted l s : kpoints_str_pwin (PTuple l) (PList s) = None /\ kpoints_str_pwin (PList l) (PTuple s) = None.
Proof. split; reflexivity. Qed.
Theorem C84_kpoints_array_refuted a b c x y z : exists t, kpoints_str_pwin (PArr [a; b; c]) (PList [x; y; z]) = Some t /\ integers t [a + x; b + y; c + z]%Z.
Proof. eexists. split; [reflexivity|]. apply (ints_line [a + x; b + y; c + z]%Z). Qed.
Theorem C84_full l s gamma : exists t, kpoints_str_pwin_full (inr l) (PList s) gamma = Some t /\
  (elems l = [1; 1; 1]%Z -> gamma = true -> t = text "K_POINTS gamma") /\
  (elems l <> [1; 1; 1]%Z \/ gamma = false -> exists k, lines t = [text "K_POINTS automatic"; k] /\ integers k (elems l ++ s)).
Proof.
  assert (A : exists t, option_map (fun t => text "K_POINTS automatic" ++ nl ++ t) (kpoints_str_pwin (PList (elems l)) (PList s)) = Some t /\ exists k, lines t = [text "K_POINTS automatic"; k] /\ integers k (elems l ++ s)).
  { destruct (C84_kpoints (elems l) s) as (t & E & L & I). rewrite E. eexists. split; [reflexivity|]. exists t. split; [|exact I]. rewrite lines_cons by (intros H; repeat (destruct H as [H|H]; [discriminate H|]); exact H). now rewrite L. }
  unfold kpoints_str_pwin_full. destruct (list_eq_dec Z.eq_dec (elems l) [1; 1; 1]%Z) as [E|E]; [destruct gamma|].
  - eexists. split; [reflexivity|]. split; [reflexivity|]. intros [H|H]; congruence.
  - destruct A as (t & A & K). exists t. split; [exact A|]. split; [discriminate|]. intros _. exact K.
  - destruct A as (t & A & K). exists t. split; [exact A|]. split; [congruence|]. intros _. exact K.
Qed.
(** A shift given with the grid 1 1 1 is dropped without warning by default. *)
Theorem C84_gamma_shift_refuted s s' : kpoints_str_pwin_full (inr (PList [1; 1; 1]%Z)) s true = kpoints_str_pwin_full (inr (PList [1; 1; 1]%Z)) s' true.
Proof. reflexivity. Qed.
Lemma no_comma z : ~ In ","%char (show_int z).
Proof.
  assert (U : forall d, ~ In ","%char (list_ascii_of_string (DecimalString.NilEmpty.string_of_uint d))) by (induction d; cbn; intros H; repeat (destruct H as [H|H]; [discriminate H|]); auto).
  assert (N : forall d, ~ In ","%char (list_ascii_of_string (DecimalString.NilZero.string_of_uint d))) by (intros [ | | | | | | | | | | ]; try apply U; cbn; intros [H|[]]; discriminate H).
  unfold show_int, text. destruct (Z.to_int z) as [d|d]; cbn; [apply N|]. intros [H|H]; [discriminate H|now apply N in H].
Qed.
(** "nk1=3,nk2=4" *)
Theorem C84_nk base l : l <> [] -> ~ In ","%char base -> str2seq (kpoints_str base l) (Some (text ",")) =
  Some (map (fun ix => base ++ show_int (Z.of_nat (fst ix)) ++ "="%char :: show_int (snd ix)) (combine (seq 1 (length l)) l)).
Proof.
  intros NE B. unfold kpoints_str. rewrite <- (C21_str2seq_seq2str ","%char).
  - unfold seq2str. change (text ",") with [","%char]. do 2 f_equal. rewrite <- seq_shift. rewrite <- (map_id l) at 4. assert (G : forall k (m : list Z), map (fun ix => base ++ show_nat (fst ix + 1) ++ text "=" ++ show_int (snd ix)) (combine (seq k (length m)) m) = map (fun ix => base ++ show_int (Z.of_nat (fst ix)) ++ "="%char :: show_int (snd ix)) (combine (map S (seq k (length m))) (map (fun x => x) m))).
    { intros k m. revert k. induction m as [|x m IH]; intros k; [reflexivity|]. cbn [length seq combine map fst snd]. rewrite IH. f_equal. unfold show_nat. now rewrite Nat.add_1_r. }
    apply G.
  - destruct l; [congruence|discriminate].
  - apply Forall_forall. intros w H. apply in_map_iff in H as ([i x] & <- & _). cbn [fst snd]. pose proof no_comma as D.
    intros H. apply in_app_or in H as [H|H]; [now apply B|]. apply in_app_or in H as [H|[H|H]]; [now apply D in H|discriminate H|now apply D in H].
Qed.
(** ** The input file of the calculator *)
Definition numbers_of (grid : float64 -> list Z) (k : kpts_arg) (z : list Z) : Prop :=
  match k with
  | Density d => length (grid d) = 3 /\ z = grid d ++ zeros
  | Given (PArr l) => length l = 3 /\ z = l ++ zeros
  | Given (PList l) => z = l ++ zeros ++ zeros
  | Given (PTuple _) => False
  end.
Lemma grid_line grid k z : numbers_of grid k z -> exists t, kpoints_str_pwin (kpts2mp grid k) (PList zeros) = Some t /\ integers (t ++ text " 0 0 0") z /\ one_line (t ++ text " 0 0 0").
Proof.
  assert (A : forall l, length l = 3 -> exists t, kpoints_str_pwin (PArr l) (PList zeros) = Some t /\ integers (t ++ text " 0 0 0") (l ++ zeros) /\ one_line (t ++ text " 0 0 0")).
  { intros [|a [|b [|c [|]]]] L; try discriminate L. eexists. split; [reflexivity|]. cbn [elems zeros length Nat.eqb combine map fst snd]. rewrite !Z.add_0_r. apply (ints_zeros [a; b; c]). }
  destruct k as [d|[l|l|l]]; cbn [numbers_of kpts2mp].
  - intros [L ->]. now apply A.
  - intros ->. eexists. split; [reflexivity|]. cbn [elems]. rewrite (app_assoc l). apply (ints_zeros (l ++ zeros)).
  - intros [].
  - intros [L ->]. now apply A.
Qed.
Ltac lit := let H := fresh in intros H; repeat (destruct H as [H|H]; [discriminate H|]); exact H.

Lemma step a a' r r' : one_line a' -> a = a' -> r = r' -> lines a ++ r = a' :: r'.
Proof. intros O -> ->. now rewrite lines_one by exact O. Qed.
Lemma not_title title (ls : list pstr) (n : nat) : length (split_ws [] (text title)) < n -> Forall (fun l => n <= length (split_ws [] l)) ls -> ~ In (text title) ls.
Proof. intros L F H. rewrite Forall_forall in F. specialize (F _ H). exact (Nat.lt_irrefl _ (Nat.lt_le_trans _ _ _ L F)). Qed.
Lemma after_no t l ls : l <> t -> after t (l :: ls) = after t ls. Proof. intros N. cbn [after]. now destruct (list_eq_dec ascii_dec l t). Qed.
Lemma after_yes t ls : after t (t :: ls) = ls. Proof. cbn [after]. now destruct (list_eq_dec ascii_dec t t). Qed.
Lemma upto_no t l ls : l <> t -> upto t (l :: ls) = l :: upto t ls. Proof. intros N. cbn [upto]. now destruct (list_eq_dec ascii_dec l t). Qed.
Lemma upto_yes t ls : upto t (t :: ls) = []. Proof. cbn [upto]. now destruct (list_eq_dec ascii_dec t t). Qed.
Lemma after_app t a b : ~ In t a -> after t (a ++ b) = after t b.
Proof. induction a as [|l a IH]; intros N; [reflexivity|]. cbn [app]. rewrite after_no by (intros ->; apply N; now left). apply IH. intros H. apply N. now right. Qed.
Theorem C84_file str strm grid p symbols cell coords ps z :
  (forall v, one_line (str v)) -> (forall m, word (strm m)) ->
  one_line (calc_name p) -> one_line (pseudo_dir p) -> one_line (outdir p) -> one_line (diagonalization p) -> one_line (mixing_mode p) ->
  symbols <> [] -> incl symbols table -> cell <> [] -> Forall (fun r => length r = 3) cell -> length coords = length symbols -> Forall (fun r => length r = 3) coords ->
  pseudos (pp p) (symbols_unique symbols) = Some ps -> length ps = length (symbols_unique symbols) -> Forall word ps -> numbers_of grid (kpts p) z ->
  exists txt ms, write_input str strm grid p symbols cell coords = Some txt /\ Forall2 (fun s m => mass_of s = Some m) (symbols_unique symbols) ms /\
    let ls := lines txt in
    namelist "control" ls =
      [text "    calculation = 'scf'"; text "    restart_mode = 'from_scratch',"; text "    prefix = '" ++ calc_name p ++ text "'"; text "    tstress = .true."; text "    tprnfor = .true.";
       text "    pseudo_dir = '" ++ pseudo_dir p ++ text "',"; text "    outdir = '" ++ outdir p ++ text "'"; text "    wf_collect = .false."] /\
    namelist "system" ls =
      [text "    ibrav = 0,"; text "    nat = " ++ show_int (Z.of_nat (length symbols)) ++ text ","; text "    ntyp = " ++ show_int (Z.of_nat (length (symbols_unique symbols))) ++ text ",";
       text "    ecutwfc = " ++ str (ecutwfc p) ++ text ","; text "    ecutrho = " ++ str (ecutrho_of p) ++ text ","; text "    nosym = .false."] /\
    namelist "electrons" ls =
      [text "    electron_maxstep = " ++ show_int (electron_maxstep p); text "    diagonalization = '" ++ diagonalization p ++ text "'"; text "    mixing_mode = '" ++ mixing_mode p ++ text "'";
       text "    mixing_beta = " ++ str (mixing_beta p); text "    conv_thr = " ++ str (conv_thr p)] /\
    Forall2 species_line (card "ATOMIC_SPECIES" (length (symbols_unique symbols)) ls) (combine (symbols_unique symbols) (combine (map strm ms) ps)) /\
    Forall2 number_line (card "CELL_PARAMETERS angstrom" (length cell) ls) (map (map (fixed eps64)) cell) /\
    Forall2 atom_line (card "ATOMIC_POSITIONS crystal" (length symbols) ls) (combine symbols (map (map (fixed eps64)) coords)) /\
    (exists k, card "K_POINTS automatic" 1 ls = [k] /\ integers k z) /\
    In (text "    smearing = 'mv',") ls /\ In (text "    degauss = 0.005") ls.
Proof.
  intros Hs Hm P1 P2 P3 P4 P5 NE K NC RC LC RR PS LPS PW KZ. set (u := symbols_unique symbols) in *.
  destruct (C80_str_arr (fmt_e 16) four eps64 cell (fmt_prints 16 (le_n _)) gap_four NC) as (ct & EC & FC).
  destruct (C80_atpos (fmt_e 16) four eps64 symbols coords (fmt_prints 16 (le_n _)) gap_four) as (at_ & EA & FA).
  { apply Forall_forall. intros s H. apply table_word. now apply K. } { eapply Forall_impl; [|exact RR]. intros r L ->. discriminate L. } { now symmetry. } { exact NE. }
  destruct (grid_line grid (kpts p) z KZ) as (kt & EK & IK & OK).
  assert (MU : exists ms, mass_unique symbols = Some ms /\ Forall2 (fun s m => mass_of s = Some m) u ms).
  { rewrite unique_masses. destruct (opt_map mass_of (symbols_unique symbols)) as [ms|] eqn:E; [exists ms; split; [reflexivity|now apply opt_map_forall]|].
    apply opt_map_unknown in E as (s & H & N). exfalso. apply mass_none in N. apply N, K. now apply unique_in. }
  destruct MU as (ms & EM & FM). assert (NU : u <> []) by (destruct symbols as [|s r]; [congruence|]; intros E; assert (H : In s u) by (apply unique_in; now left); rewrite E in H; destruct H).
  destruct (atspec_lines u (map strm ms) ps) as (st & ES & FS & LS).
  { apply Forall_forall. intros s H. apply table_word, K. now apply unique_in. } { apply Forall_forall. intros w H. apply in_map_iff in H as (m & <- & _). apply Hm. } { exact PW. } { rewrite map_length. symmetry. now apply f2_length in FM. } { exact LPS. } { exact NU. }
  unfold write_input. fold u. rewrite EC. change [0; 0; 0]%Z with zeros. rewrite EK, PS, EM, ES, EA.
  match goal with |- context [fill_lines ?e infile_templ] => set (env := e) end.
  destruct (fill_lines_val env infile_templ) as (txt & ET & LT); [unfold infile_templ; repeat (apply Forall_cons; [repeat (apply Forall_cons; [cbn [seg_ok]; (exact I || discriminate)|]); apply Forall_nil|]); apply Forall_nil|].
  exists txt, ms. split; [exact ET|]. split; [exact FM|]. specialize (LT ltac:(discriminate)).
  assert (LX : lines txt = [[]; text "&control";
      text "    calculation = 'scf'"; text "    restart_mode = 'from_scratch',"; text "    prefix = '" ++ calc_name p ++ text "'"; text "    tstress = .true."; text "    tprnfor = .true.";
       text "    pseudo_dir = '" ++ pseudo_dir p ++ text "',"; text "    outdir = '" ++ outdir p ++ text "'"; text "    wf_collect = .false."; text "/"; text "&system";
       text "    ibrav = 0,"; text "    nat = " ++ show_int (Z.of_nat (length symbols)) ++ text ","; text "    ntyp = " ++ show_int (Z.of_nat (length u)) ++ text ",";
       text "    ecutwfc = " ++ str (ecutwfc p) ++ text ","; text "    ecutrho = " ++ str (ecutrho_of p) ++ text ","; text "    nosym = .false."; text "/";
       text "    occupations = 'smearing'"; text "    smearing = 'mv',"; text "    degauss = 0.005"; []; text "&electrons";
       text "    electron_maxstep = " ++ show_int (electron_maxstep p); text "    diagonalization = '" ++ diagonalization p ++ text "'"; text "    mixing_mode = '" ++ mixing_mode p ++ text "'";
       text "    mixing_beta = " ++ str (mixing_beta p); text "    conv_thr = " ++ str (conv_thr p); text "/"] ++ text "ATOMIC_SPECIES" :: lines st ++ text "CELL_PARAMETERS angstrom" :: lines ct ++ text "ATOMIC_POSITIONS crystal" :: lines at_ ++ [text "K_POINTS automatic"; kt ++ text " 0 0 0"; text "    "]).
  { rewrite LT. unfold infile_templ. cbn [map concat]. rewrite app_nil_r. cbn [app].
    Ltac one := first [lit|assumption|apply show_line|solve [auto]|apply one_app; [one|one]].
    Ltac same := first [reflexivity|etransitivity; [|apply (f_equal (app _)); apply app_nil_r]; reflexivity].
    repeat (apply step; [one|same|]).
    change (lines (concat [seg_val env (F "atspec")])) with (lines (st ++ [])). rewrite app_nil_r. f_equal. apply step; [one|same|].
    change (lines (concat [seg_val env (F "cell")])) with (lines (ct ++ [])). rewrite app_nil_r. f_equal. apply step; [one|same|].
    change (lines (concat [seg_val env (F "atpos")])) with (lines (at_ ++ [])). rewrite app_nil_r. f_equal. apply step; [one|same|]. apply step; [exact OK|same|]. rewrite lines_one by lit. reflexivity. }
  assert (WS : Forall (fun l => 3 <= length (split_ws [] l)) (lines st)).
  { clear -FS. induction FS as [|l smp ls r H F IH]; [constructor|]. constructor; [|exact IH]. unfold species_line in H. rewrite H. cbn [length]. lia. }
  assert (WC : Forall (fun l => 3 <= length (split_ws [] l)) (lines ct)).
  { clear -FC RC. revert FC. generalize (lines ct). induction RC as [|r cell R RC IH]; intros ls F; inversion F as [|l ? ls' ? H F']; subst; constructor; [|now apply IH]. unfold number_line, numbers in H. apply f2_length in H. rewrite H, map_length. change (3 <= @length float64 r). rewrite R. constructor. }
  assert (WA : Forall (fun l => 3 <= length (split_ws [] l)) (lines at_)).
  { clear -FA RR. revert FA. generalize (lines at_). assert (R2 : Forall (fun sr : pstr * list float64 => length (snd sr) = 3) (combine symbols (map (map (fixed eps64)) coords))).
    { apply Forall_forall. intros [s r] H. apply in_combine_r in H. apply in_map_iff in H as (r' & <- & H). cbn [snd]. rewrite map_length. rewrite Forall_forall in RR. now apply RR. }
    revert R2. generalize (combine symbols (map (map (fixed eps64)) coords)). intros c R2. induction R2 as [|r c R R2 IH]; intros ls F; inversion F as [|l ? ls' ? H F']; subst; constructor; [|now apply IH]. destruct H as (ws & E & H). rewrite E. apply f2_length in H. cbn [length]. rewrite H, R. lia. }
  assert (TS : forall t, length (split_ws [] (text t)) < 3 -> ~ In (text t) (lines st)) by (intros t Ht; now apply (not_title t _ 3)).
  assert (TC : forall t, length (split_ws [] (text t)) < 3 -> ~ In (text t) (lines ct)) by (intros t Ht; now apply (not_title t _ 3)).
  assert (TA : forall t, length (split_ws [] (text t)) < 3 -> ~ In (text t) (lines at_)) by (intros t Ht; now apply (not_title t _ 3)).
  cbv zeta. rewrite LX. cbn [app]. unfold namelist, card. change ("&" ++ "control")%string with "&control"%string. change ("&" ++ "system")%string with "&system"%string. change ("&" ++ "electrons")%string with "&electrons"%string.
  Ltac skip := repeat (rewrite after_no by discriminate); rewrite after_yes.
  Ltac take := repeat (rewrite upto_no by discriminate); rewrite upto_yes.
  split; [skip; take; reflexivity|]. split; [skip; take; reflexivity|]. split; [skip; take; reflexivity|].
  split; [skip; rewrite firstn_here by exact LS; exact FS|].
  split; [repeat (rewrite after_no by discriminate); rewrite after_app by (apply TS; apply Nat.ltb_lt; vm_compute; reflexivity); rewrite after_yes; rewrite firstn_here by (apply f2_length in FC; now rewrite map_length in FC); exact FC|].
  split; [repeat (rewrite after_no by discriminate); rewrite after_app by (apply TS; apply Nat.ltb_lt; vm_compute; reflexivity); rewrite after_no by discriminate; rewrite after_app by (apply TC; apply Nat.ltb_lt; vm_compute; reflexivity); rewrite after_yes; rewrite firstn_here by (apply f2_length in FA; rewrite FA, combine_length, map_length, LC; apply Nat.min_id); exact FA|].
  split.
  { exists (kt ++ text " 0 0 0"). split; [|exact IK]. repeat (rewrite after_no by discriminate); rewrite after_app by (apply TS; apply Nat.ltb_lt; vm_compute; reflexivity); rewrite after_no by discriminate; rewrite after_app by (apply TC; apply Nat.ltb_lt; vm_compute; reflexivity); rewrite after_no by discriminate; rewrite after_app by (apply TA; apply Nat.ltb_lt; vm_compute; reflexivity); rewrite after_yes. reflexivity. }
  split; apply (in_or_app [_; _; _; _; _; _; _; _; _; _; _; _; _; _; _; _; _; _; _; _; _; _] _); left; [do 20 right|do 21 right]; now left.
Qed.
(** The lines on smearing stand between two namelists, so pw.x never reads them. *)
Theorem C84_smearing_refuted str strm grid p symbols cell coords ps z :
  (forall v, one_line (str v)) -> (forall m, word (strm m)) ->
  one_line (calc_name p) -> one_line (pseudo_dir p) -> one_line (outdir p) -> one_line (diagonalization p) -> one_line (mixing_mode p) ->
  symbols <> [] -> incl symbols table -> cell <> [] -> Forall (fun r => length r = 3) cell -> length coords = length symbols -> Forall (fun r => length r = 3) coords ->
  pseudos (pp p) (symbols_unique symbols) = Some ps -> length ps = length (symbols_unique symbols) -> Forall word ps -> numbers_of grid (kpts p) z ->
  exists txt, write_input str strm grid p symbols cell coords = Some txt /\
    Forall (fun l => In l (lines txt) /\ ~ In l (namelist "control" (lines txt)) /\ ~ In l (namelist "system" (lines txt)) /\ ~ In l (namelist "electrons" (lines txt)))
      [text "    smearing = 'mv',"; text "    degauss = 0.005"].
Proof.
  intros H1 H2 H3 H4 H5 H6 H7 H8 H9 H10 H11 H12 H13 H14 H15 H16 H17. destruct (C84_file str strm grid p symbols cell coords ps z) as (txt & ms & E & _ & A & B & C & _ & _ & _ & _ & D1 & D2); try assumption.
  exists txt. split; [exact E|]. cbv zeta in *. apply Forall_cons; [|apply Forall_cons; [|apply Forall_nil]]; (split; [assumption|]; rewrite A, B, C; repeat split; lit).
Qed.
(** The charge density cutoff is four times the other one if not given. *)
Theorem C84_ecutrho p : (ecutrho p = None -> ecutrho_of p = Bmult mode_NE four64 (ecutwfc p)) /\ (forall r, ecutrho p = Some r -> ecutrho_of p = r) /\ B2R four64 = 4%R.
Proof. unfold ecutrho_of. split; [now intros ->|]. split; [now intros r ->|]. unfold four64, B2R, Defs.F2R. cbn. lra. Qed.
(** A grid given as tuple raises; a symbol which is not in the table, or coordinates that do not fit, raise. *)
Ltac opts := repeat match goal with |- match ?x with Some _ => _ | None => _ end = None => destruct x; try reflexivity end; reflexivity.
Theorem C84_raises str strm grid p symbols cell coords : (exists l, kpts p = Given (PTuple l)) \/ (exists s, In s symbols /\ ~ In s table) \/ length coords <> length symbols \/ pseudos (pp p) (symbols_unique symbols) = None ->
  write_input str strm grid p symbols cell coords = None.
Proof.
  unfold write_input. intros [[l E]|[(s & I & N)|[L|E]]].
  - rewrite E. cbn [kpts2mp kpoints_str_pwin seq_add option_map]. opts.
  - assert (M : mass_unique symbols = None). { rewrite unique_masses. apply opt_map_unknown. exists s. split; [now apply unique_in|now apply mass_none]. } rewrite M. opts.
  - unfold atpos_str. destruct (Nat.eqb_spec (length symbols) (length coords)) as [X|X]; [symmetry in X; congruence|]. opts.
  - rewrite E. opts.
Qed.
Definition case_params : params :=
  {| calc_name := text "aln"; pseudo_dir := text "/pseudo"; outdir := text "/scratch"; ecutwfc := one64; ecutrho := None; electron_maxstep := 500; diagonalization := text "david";
     mixing_mode := text "plain"; mixing_beta := one64; conv_thr := one64; pp := Many [text "Al.UPF"; text "N.UPF"]; kpts := Given (PList [6; 6; 4]%Z) |}.
Example C84_case : let sy := [text "N"; text "Al"; text "N"] in
  incl sy table /\ pseudos (pp case_params) (symbols_unique sy) = Some [text "Al.UPF"; text "N.UPF"] /\ Forall2 file_of (symbols_unique sy) [text "Al.UPF"; text "N.UPF"] /\ Forall word [text "Al.UPF"; text "N.UPF"] /\
  numbers_of (fun _ => [4; 4; 4]%Z) (kpts case_params) [6; 6; 4; 0; 0; 0; 0; 0; 0]%Z /\ numbers_of (fun _ => [4; 4; 4]%Z) (Density one64) [4; 4; 4; 0; 0; 0]%Z /\ one_line (calc_name case_params) /\ (forall v, one_line (fmt_e 16 v)) /\
  kpoints_str (text "nk") [3; 4]%Z = text "nk1=3,nk2=4" /\ bool2str true = text ".true." /\ kpoints_str_pwin_full (inr (PTuple [2; 2; 2]%Z)) (PList [0; 1; 0]%Z) true = Some (text "K_POINTS automatic" ++ nl ++ text "2 2 2 0 1 0").
Proof.
  cbv zeta. split; [intros s H; repeat (destruct H as [<- |H]; [first [apply (nth_error_In table 7); reflexivity|apply (nth_error_In table 13); reflexivity]|]); destruct H|].
  split; [vm_compute; reflexivity|]. split; [change (symbols_unique [text "N"; text "Al"; text "N"]) with [text "Al"; text "N"]; repeat constructor; exists "."%char, (text "UPF"); split; reflexivity|].
  split; [repeat (apply Forall_cons; [split; [discriminate|]|]); [..|apply Forall_nil]; intros c H; repeat (destruct H as [<- |H]; [reflexivity|]); destruct H|].
  split; [reflexivity|]. split; [split; reflexivity|]. split; [lit|]. split; [intros v; apply word_line, (fmt_prints 16 (le_n _))|]. repeat split.
Qed.
Print Assumptions C84_pseudos.
Print Assumptions C84_pseudos_sorted.
Print Assumptions C84_pseudos_refuted.
Print Assumptions C84_pseudos_missing.
Print Assumptions C84_pseudos_one.
Print Assumptions C84_kpoints.
Print Assumptions C84_kpoints_tuple_refuted.
Print Assumptions C84_kpoints_array_refuted.
Print Assumptions C84_full.
Print Assumptions C84_gamma_shift_refuted.
Print Assumptions C84_nk.
Print Assumptions C84_file.
Print Assumptions C84_smearing_refuted.
Print Assumptions C84_ecutrho.
Print Assumptions C84_raises.
