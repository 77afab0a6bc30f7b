(** C80: structures written as text. *)
From Coq Require Import Ascii String List Bool Arith ZArith Reals Lia Lra.
From Flocq Require Import Core BinarySingleNaN.
From Verif Require Import Comb CombProofs ArrayIO ArrayIOProofs Decimal DecimalProofs P_Decimal TextOut TextOutSpec TextOutProofs.
Import ListNotations.
Local Open Scope list_scope.
Local Open Scope nat_scope.
Local Notation length := List.length.

(** Rounding to zero: exactly the numbers not above eps in magnitude, and none if eps <= 0. *)
Theorem C80_eps (eps v : float64) : is_finite eps = true -> is_finite v = true ->
  fixed eps v = if Rlt_dec 0 (B2R eps) then if Rle_dec (Rabs (B2R v)) (B2R eps) then zero else v else v.
Proof.
  intros Fe Fv. unfold fixed, fix_val. rewrite (Bltb_correct _ _ zero eps) by (reflexivity || exact Fe). change (B2R zero) with 0%R.
  rewrite (Bleb_correct _ _ (Babs v) eps) by (try exact Fe; now rewrite is_finite_Babs). rewrite B2R_Babs.
  destruct (Rlt_bool_spec 0 (B2R eps)); destruct (Rlt_dec 0 (B2R eps)); try (exfalso; lra); [|reflexivity].
  destruct (Rle_bool_spec (Rabs (B2R v)) (B2R eps)); destruct (Rle_dec (Rabs (B2R v)) (B2R eps)); try (exfalso; lra); reflexivity.
Qed.
Theorem C80_str_arr fmt delim eps rows : prints fmt -> gap delim -> rows <> [] ->
  exists t, str_arr fmt delim eps (Rank2 rows) = Some t /\ Forall2 number_line (lines t) (map (map (fixed eps)) rows).
Proof.
  intros P G NE. eexists. split; [reflexivity|]. rewrite lines_join.
  - clear NE. induction rows as [|row rows IH]; [constructor|]. cbn [map]. constructor; [|exact IH]. rewrite <- (map_map (fixed eps) fmt). now apply row_line.
  - now destruct rows.
  - apply Forall_forall. intros l H. apply in_map_iff in H as (row & <- & _). rewrite <- (map_map (fixed eps) fmt). now apply row_one.
Qed.
Theorem C80_vector fmt delim eps l : prints fmt -> gap delim ->
  exists t, str_arr fmt delim eps (Rank1 l) = Some t /\ lines t = [t] /\ number_line t (map (fixed eps) l).
Proof.
  intros P G. eexists. split; [reflexivity|]. rewrite <- (map_map (fixed eps) fmt). split; [apply lines_one; now apply row_one|now apply row_line].
Qed.
(** The default format is one of these. *)
Lemma fmt_prints p : 16 <= p -> prints (fmt_e p).
Proof. intros P v. destruct (C79_readable p P) as [R _]. destruct (R v) as (A & B & C). split; [|exact A]. split; [exact B|]. intros c H. exact (proj1 (C c H)). Qed.
Lemma opt_map_some {A B} (f : A -> option B) (g : A -> B) l : (forall a, In a l -> f a = Some (g a)) -> opt_map f l = Some (map g l).
Proof. induction l as [|a l IH]; intros H; [reflexivity|]. cbn. rewrite (H a) by now left. now rewrite IH by (intros b Hb; apply H; now right). Qed.
Theorem C80_atpos fmt delim eps symbols coords : prints fmt -> gap delim -> Forall word symbols -> Forall (fun r => r <> []) coords ->
  length symbols = length coords -> symbols <> [] ->
  exists t, atpos_str fmt delim eps symbols coords = Some t /\ Forall2 atom_line (lines t) (combine symbols (map (map (fixed eps)) coords)).
Proof.
  intros P G W NR L NE. unfold atpos_str. rewrite L, Nat.eqb_refl.
  rewrite (opt_map_some _ (fun sr => join delim (fst sr :: map fmt (map (fixed eps) (snd sr))))).
  2:{ intros [s r] H. cbn [fst snd str_arr option_map]. f_equal. rewrite map_map. pose proof (in_combine_r _ _ _ _ H) as Hr.
      rewrite Forall_forall in NR. specialize (NR _ Hr). destruct r; [congruence|]. reflexivity. }
  cbn [option_map]. eexists. split; [reflexivity|]. rewrite lines_join.
  - clear NR NE. revert coords L. induction W as [|s symbols Ws W IH]; intros [|r coords] L; try discriminate; [constructor|]. cbn [combine map fst snd].
    constructor; [now apply atom_words|]. apply IH. now injection L.
  - destruct symbols, coords; discriminate || congruence.
  - apply Forall_forall. intros l H. apply in_map_iff in H as ([s r] & <- & H). cbn [fst snd]. apply atom_one; try assumption. rewrite Forall_forall in W. apply W. now apply in_combine_l in H.
Qed.
Theorem C80_fast str symbols coords : exact str 32 -> Forall short_word symbols -> length symbols = length coords ->
  exists t ls, atpos_str_fast str symbols coords = Some t /\ lines t = ls ++ [[]] /\ Forall2 atom_line ls (combine symbols coords).
Proof.
  intros E F L. rewrite fast_text by exact L. destruct (fast_lines str symbols coords E F) as [O A]. eexists _, _. split; [reflexivity|]. split; [|exact A].
  rewrite <- (app_nil_r (concat _)). rewrite lines_many by exact O. reflexivity.
Qed.
Lemma show_line z : one_line (show_int z). Proof. apply word_line, show_word. Qed.
Theorem C80_xyz str name symbols steps : exact str 32 -> Forall short_word symbols -> one_line name ->
  Forall (fun coords => length coords = length symbols) steps ->
  exists t frames, write_xyz str name symbols steps = Some t /\ lines t = concat frames ++ [[]] /\
    Forall2 (fun ic ls => xyz_frame (name ++ text "." ++ show_int (Z.of_nat (fst ic))) symbols (snd ic) ls) (combine (seq 1 (length steps)) steps) frames.
Proof.
  intros E F NL LS. set (L := fun coords => map (fast_line str) (combine symbols coords)).
  set (com := fun i => name ++ text "." ++ show_nat (i + 1)).
  set (txt := fun ic : nat * list (list float64) => show_nat (length symbols) ++ nl ++ com (fst ic) ++ nl ++ concat (map (fun l => l ++ nl) (L (snd ic)))).
  assert (CO : forall i, one_line (com i)).
  { intros i. unfold com. apply one_app; [exact NL|]. apply one_app; [|apply show_line]. intros [H|[]]. discriminate. }
  assert (E1 : write_xyz str name symbols steps = Some (concat (map txt (combine (seq 0 (length steps)) steps)))).
  { unfold write_xyz. rewrite (opt_map_some _ txt); [reflexivity|]. intros [i coords] H. apply in_combine_r in H. cbn [fst snd]. rewrite Forall_forall in LS. rewrite fast_text by (symmetry; now apply LS). reflexivity. }
  rewrite E1. clear E1. exists (concat (map txt (combine (seq 0 (length steps)) steps))), (map (fun ic => show_nat (length symbols) :: com (fst ic) :: L (snd ic)) (combine (seq 0 (length steps)) steps)).
  split; [reflexivity|]. split.
  - rewrite <- (app_nil_r (concat (map txt _))). change [[]] with (lines []). induction (combine (seq 0 (length steps)) steps) as [|[i c] l IH]; [reflexivity|]. cbn [map concat fst snd]. unfold txt at 1. cbn [fst snd].
    rewrite <- !app_assoc. rewrite lines_cons by apply show_line. rewrite lines_cons by apply CO. rewrite lines_many by (apply fast_lines; assumption). rewrite IH. reflexivity.
  - clear txt. generalize 0 as k. induction LS as [|c steps Lc LS IH]; intros k; [constructor|]. cbn [length seq combine map fst snd]. constructor; [|apply IH].
    exists (show_nat (length symbols)), (L c). cbn [fst snd]. split; [unfold com, show_nat; now rewrite Nat.add_1_r|]. split; [rewrite Lc; apply read_show|]. apply fast_lines; assumption.
Qed.
(** What a step of the XSF file holds after the symbol: the position and, if known, the force. *)
Definition axsf_data (conv : float64 -> float64) (coords : list (list float64)) (forces : option (list (list float64))) (data : list (list float64)) : Prop :=
  match forces with None => data = coords | Some f => Forall2 (fun d cf => d = fst cf ++ map conv (snd cf)) data (combine coords f) end.
Theorem C80_axsf str conv symbols steps : exact str 32 -> Forall short_word symbols ->
  Forall (fun st => let '(cell, coords, forces) := st in cell <> [] /\ length coords = length symbols /\ match forces with Some f => length f = length symbols | None => True end) steps ->
  exists t groups, write_axsf str conv symbols steps = Some t /\
    lines t = (text "ANIMSTEPS " ++ show_int (Z.of_nat (length steps))) :: text "CRYSTAL" :: concat groups /\
    Forall2 (fun ist ls => let '(i, (cell, coords, forces)) := ist in exists data, length data = length symbols /\ axsf_data conv coords forces data /\
      axsf_step (Z.of_nat i) symbols (map (map (fixed eps64)) cell) data ls) (combine (seq 1 (length steps)) steps) groups.
Proof.
  intros E F LS.
  set (dat := fun st : list (list float64) * list (list float64) * option (list (list float64)) => let '(_, coords, forces) := st in match forces with Some f => map (fun ab => fst ab ++ snd ab) (combine coords (map (map conv) f)) | None => coords end).
  set (L := fun coords => map (fast_line str) (combine symbols coords)).
  set (CL := fun cell : list (list float64) => map (fun row => join four (map (fun v => fmt_e 16 (fixed eps64 v)) row)) cell).
  set (body := fun ist : nat * (list (list float64) * list (list float64) * option (list (list float64))) =>
     (text "PRIMVEC " ++ show_nat (fst ist + 1)) ++ nl ++ concat (map (fun l => l ++ nl) (CL (fst (fst (snd ist))))) ++ (text "PRIMCOORD " ++ show_nat (fst ist + 1)) ++ nl ++
     (show_nat (length symbols) ++ text " 1") ++ nl ++ concat (map (fun l => l ++ nl) (L (dat (snd ist))))).
  set (grp := fun ist : nat * (list (list float64) * list (list float64) * option (list (list float64))) =>
     (text "PRIMVEC " ++ show_nat (fst ist + 1)) :: CL (fst (fst (snd ist))) ++ (text "PRIMCOORD " ++ show_nat (fst ist + 1)) :: (show_nat (length symbols) ++ text " 1") :: L (dat (snd ist))).
  assert (DL : forall st, In st steps -> length (dat st) = length symbols).
  { intros [[cell coords] forces] H. rewrite Forall_forall in LS. destruct (LS _ H) as (_ & Lc & Lf). destruct forces as [f|]; [|exact Lc]. cbn [dat]. rewrite map_length, combine_length, map_length. lia. }
  assert (E1 : write_axsf str conv symbols steps = Some (text "ANIMSTEPS " ++ show_nat (length steps) ++ nl ++ text "CRYSTAL" ++ concat (map (fun ist => nl ++ body ist) (combine (seq 0 (length steps)) steps)))).
  { unfold write_axsf. rewrite (opt_map_some _ (fun ist => nl ++ body ist)); [reflexivity|]. intros [i [[cell coords] forces]] H. apply in_combine_r in H. specialize (DL _ H).
    rewrite Forall_forall in LS. destruct (LS _ H) as (NC & Lc & Lf). cbn [str_arr].
    assert (B : bind match forces with Some f => beside coords (map (map conv) f) | None => Some coords end (atpos_str_fast str symbols) = Some (concat (map (fun l => l ++ nl) (L (dat (cell, coords, forces)))))).
    { destruct forces as [f|]; cbn [dat] in *; [unfold beside; rewrite map_length, Lc, Lf, Nat.eqb_refl|]; cbn [bind]; apply fast_text; congruence. }
    rewrite B. f_equal. unfold body. cbn [fst snd]. rewrite <- (join_many (CL cell)) by (unfold CL; destruct cell; discriminate || congruence). rewrite <- !app_assoc. reflexivity. }
  assert (BL : forall ist t, In (snd ist) steps -> lines (body ist ++ t) = grp ist ++ lines t).
  { intros ist t H. unfold body, grp. rewrite <- !app_assoc. rewrite (app_assoc (text "PRIMVEC ")). rewrite lines_cons by (apply one_app; [|apply show_line]; intros I; repeat (destruct I as [I|I]; [discriminate|]); exact I).
    rewrite lines_many by (apply Forall_forall; intros l Hl; apply in_map_iff in Hl as (row & <- & _); rewrite <- (map_map (fixed eps64) (fmt_e 16)); apply row_one; [apply fmt_prints; lia|apply gap_four]).
    rewrite (app_assoc (text "PRIMCOORD ")). rewrite lines_cons by (apply one_app; [|apply show_line]; intros I; repeat (destruct I as [I|I]; [discriminate|]); exact I).
    rewrite (app_assoc (show_nat (length symbols)) (text " 1")). rewrite lines_cons by (apply one_app; [apply show_line|]; intros I; repeat (destruct I as [I|I]; [discriminate|]); exact I).
    rewrite lines_many by (apply fast_lines; assumption). cbn [app]. rewrite <- !app_assoc. reflexivity. }
  rewrite E1. eexists _, (map (fun ist => grp ist ++ [[]]) (combine (seq 0 (length steps)) steps)). split; [reflexivity|]. split.
  - rewrite (app_assoc (text "ANIMSTEPS ")). rewrite lines_cons by (apply one_app; [|apply show_line]; intros I; repeat (destruct I as [I|I]; [discriminate|]); exact I). f_equal.
    assert (G : forall l w, (forall ist, In ist l -> In (snd ist) steps) -> one_line w -> lines (w ++ concat (map (fun ist => nl ++ body ist) l)) = w :: concat (map (fun ist => grp ist ++ [[]]) l)).
    { induction l as [|ist l IH]; intros w Hl Hw; [cbn [map concat]; rewrite app_nil_r; now apply lines_one|]. cbn [map concat]. rewrite <- !app_assoc. rewrite lines_cons by exact Hw. f_equal.
      rewrite BL by (apply Hl; now left). f_equal. change (concat (map (fun ist => nl ++ body ist) l)) with ([] ++ concat (map (fun ist => nl ++ body ist) l)). rewrite IH; [reflexivity|intros; apply Hl; now right|intros []]. }
    apply G; [|intros I; repeat (destruct I as [I|I]; [discriminate|]); exact I]. intros [i st] H. now apply in_combine_r in H.
  - clear E1 BL. revert LS DL. generalize 0 as k. induction steps as [|st steps IH]; intros k LS DL; [constructor|]. cbn [length seq combine map]. constructor.
    2:{ apply IH; [exact (Forall_inv_tail LS)|]. intros st' H. apply DL. now right. }
    pose proof (DL st (or_introl eq_refl)) as Ld. apply Forall_inv in LS. destruct st as [[cell coords] forces]. destruct LS as (NC & Lc & Lf). exists (dat (cell, coords, forces)). split; [exact Ld|]. split.
    + unfold axsf_data. cbn [dat]. destruct forces as [f|]; [|reflexivity]. clear. revert f. induction coords as [|c coords IH]; intros [|r f]; constructor; [reflexivity|apply IH].
    + eexists _, _, _, _, [], _. split; [unfold grp; cbn [fst snd]; cbn [app]; rewrite <- app_assoc; reflexivity|].
      assert (TW : forall a i, word a -> split_ws [] ((a ++ text " ") ++ show_int i) = [a; show_int i]).
      { intros a i W. rewrite <- app_assoc. apply (split_words (text " ") [a; show_int i] gap_blank). repeat constructor; try apply show_word; try apply W. }
      assert (WV : word (text "PRIMVEC")) by (split; [discriminate|]; intros x Hx; repeat (destruct Hx as [<- |Hx]; [reflexivity|]); destruct Hx).
      assert (WC : word (text "PRIMCOORD")) by (split; [discriminate|]; intros x Hx; repeat (destruct Hx as [<- |Hx]; [reflexivity|]); destruct Hx).
      assert (W1 : word (text "1")) by (split; [discriminate|]; intros x Hx; repeat (destruct Hx as [<- |Hx]; [reflexivity|]); destruct Hx).
      split; [unfold show_nat; rewrite Nat.add_1_r; apply (TW (text "PRIMVEC")); exact WV|]. split.
      { unfold CL. clear. induction cell as [|row cell IH]; [constructor|]. cbn [map]. constructor; [|exact IH]. rewrite <- (map_map (fixed eps64) (fmt_e 16)). apply row_line; [apply fmt_prints; lia|apply gap_four]. }
      split; [unfold show_nat; rewrite Nat.add_1_r; apply (TW (text "PRIMCOORD")); exact WC|]. split.
      { rewrite Ld. apply (split_words (text " ") [show_nat (length symbols); text "1"] gap_blank). repeat constructor; try apply show_word; apply W1. }
      split; [apply fast_lines; assumption|reflexivity].
Qed.
(** Symbols and rows that do not fit raise, and nothing is written. *)
Lemma opt_map_none {A B} (f : A -> option B) l a : In a l -> f a = None -> opt_map f l = None.
Proof. intros H N. induction l as [|b l IH]; [destruct H|]. cbn. destruct H as [-> |H]; [now rewrite N|]. rewrite IH by exact H. now destruct (f b). Qed.
Theorem C80_mismatch str name symbols steps coords : In coords steps -> length coords <> length symbols -> write_xyz str name symbols steps = None.
Proof.
  intros H L. unfold write_xyz. apply In_nth_error in H as [i H]. rewrite (opt_map_none _ _ (i, coords)); [reflexivity| |].
  - pose proof (nth_error_Some steps i) as NS. rewrite H in NS. assert (I : i < length steps) by (apply NS; discriminate).
    apply (nth_error_In _ i). clear NS. revert steps i H I. assert (G : forall (steps : list (list (list float64))) k i, nth_error steps i = Some coords -> nth_error (combine (seq k (length steps)) steps) i = Some (k + i, coords)).
    { induction steps as [|s steps IH]; intros k [|i] H; try discriminate; cbn [length seq combine nth_error] in *; [rewrite Nat.add_0_r; congruence|]. rewrite (IH (S k) i H). do 2 f_equal. lia. }
    intros steps i H _. now rewrite (G steps 0 i H).
  - cbn [fst snd]. unfold atpos_str_fast. destruct (Nat.eqb_spec (length symbols) (length coords)); [congruence|reflexivity].
Qed.
(** The full-precision text of numbers fits. *)
Theorem C80_exact : exact (fmt_e 16) 32.
Proof.
  intros v. destruct (fmt_prints 16 (le_n _) v) as [W R]. split; [exact W|]. split; [exact R|]. clear.
  assert (S : forall s M k, length (minus s ++ sci 16 M k) <= 32).
  { intros s M k. rewrite app_length. assert (length (minus s) <= 1) by (destruct s; cbn; lia). unfold sci. pose proof (fix_length 17 M) as L. destruct (fixdigits 17 M) as [|a b]; [cbn [length]; lia|].
    cbn [length] in *. rewrite app_length. cbn [length]. rewrite fix_length. destruct (Z.abs k <? 100)%Z; lia. }
  destruct v as [s|s| |s m e B]; [apply S|destruct s; cbn; lia|cbn; lia|]. cbn [fmt_e]. destruct (mant_expo 16 _). apply S.
Qed.
(** A name with a line end puts its rest where the atoms are expected. *)
Theorem C80_name_refuted str a b symbols coords : one_line a -> one_line b -> length coords = length symbols ->
  exists t, write_xyz str (a ++ nl ++ b) symbols [coords] = Some t /\ nth 2 (lines t) [] = b ++ text ".1".
Proof.
  intros A B L. unfold write_xyz. cbn [length seq combine opt_map fst snd]. rewrite fast_text by congruence. cbn [option_map]. eexists. split; [reflexivity|]. cbn [concat]. rewrite app_nil_r.
  rewrite lines_cons by apply show_line. rewrite <- !app_assoc. rewrite lines_cons by exact A. rewrite (app_assoc b). change (show_nat (0 + 1)) with (text "1"). rewrite <- (app_assoc b). change (text "." ++ text "1" ++ ?x) with (text ".1" ++ x).
  rewrite (app_assoc b). rewrite lines_cons; [reflexivity|]. apply one_app; [exact B|]. intros I; repeat (destruct I as [I|I]; [discriminate|]); exact I.
Qed.
(** A longer symbol is cut. *)
Theorem C80_symbol_refuted str s row : exact str 32 -> word s -> 32 < length s ->
  exists t l s', atpos_str_fast str [s] [row] = Some t /\ lines t = [l; []] /\ hd [] (split_ws [] l) = s' /\ s' <> s /\ length s' = 32.
Proof.
  intros E W L. assert (WU : word (u32 s)).
  { split; [unfold u32; destruct s; [cbn in L; lia|discriminate]|]. intros c H. apply (proj2 W). unfold u32 in H. rewrite <- (firstn_skipn 32 s). apply in_or_app. now left. }
  assert (LU : length (u32 s) = 32) by (unfold u32; rewrite firstn_length; lia).
  rewrite fast_text by reflexivity. eexists _, _, (u32 s). split; [reflexivity|]. split.
  - rewrite <- (app_nil_r (concat _)). rewrite lines_many; [reflexivity|]. constructor; [|constructor]. apply (atom_one (fun v => u32 (str v))); auto using exact_prints, gap_two.
  - split; [|split; [intros X; rewrite X in LU; lia|exact LU]]. destruct (atom_words (fun v => u32 (str v)) (text "  ") (u32 s) row (exact_prints _ E) gap_two WU) as (ws & H & _).
    change (fast_line str (s, row)) with (join (text "  ") (u32 s :: map (fun v => u32 (str v)) row)). rewrite H. reflexivity.
Qed.
(** With the default eps a non-zero number is read back as zero; three dimensions are refused. *)
Definition tiny : float64 := @B754_finite 53 1024 false 4503599627370496 (-112) eq_refl.
Theorem C80_small_refuted delim : gap delim -> B2R tiny <> 0%R /\
  exists t, str_arr (fmt_e 16) delim eps64 (Rank1 [tiny]) = Some t /\ number_line t [zero] /\ ~ number_line t [tiny].
Proof.
  intros G. assert (NZ : B2R tiny <> 0%R) by (cbn [B2R tiny]; apply F2R_neq_0; discriminate). split; [exact NZ|].
  destruct (C80_vector (fmt_e 16) delim eps64 [tiny] (fmt_prints 16 (le_n _)) G) as (t & E & _ & N). exists t. split; [exact E|].
  assert (FX : fixed eps64 tiny = zero) by (vm_compute; reflexivity). cbn [map] in N. rewrite FX in N. split; [exact N|]. intros M. unfold number_line, numbers in *.
  destruct (split_ws [] t) as [|w ws]; [inversion N|]. assert (A : read_float w = Some zero) by now inversion N. assert (B : read_float w = Some tiny) by now inversion M.
  rewrite A in B. apply NZ. assert (X : zero = tiny) by congruence. rewrite <- X. reflexivity.
Qed.
Theorem C80_rank_refuted fmt delim eps : str_arr fmt delim eps Other = None.
Proof. reflexivity. Qed.

Definition one64 : float64 := @B754_finite 53 1024 false 4503599627370496 (-52) eq_refl.
Example C80_case : gap four /\ gap (text "  ") /\ prints (fmt_e 16) /\ exact (fmt_e 16) 32 /\ Forall short_word [text "Si"; text "O"] /\ one_line (text "quartz") /\
  is_finite eps64 = true /\ fixed eps64 one64 = one64 /\ fixed eps64 tiny = zero /\ fixed zero tiny = tiny /\
  exists t, write_xyz (fun _ => text "1.5") (text "quartz") [text "Si"; text "O"] [[[one64]; [tiny]]; [[zero]; [one64]]] = Some t /\
    lines t = map text ["2"; "quartz.1"; "Si  1.5"; "O  1.5"; "2"; "quartz.2"; "Si  1.5"; "O  1.5"; ""]%string.
Proof.
  split; [exact gap_four|]. split; [exact gap_two|]. split; [exact (fmt_prints 16 (le_n _))|]. split; [exact C80_exact|]. split.
  { repeat (constructor; [split; [split; [discriminate|intros c H; repeat (destruct H as [<- |H]; [reflexivity|]); destruct H]|cbn; lia]|]). constructor. }
  split; [intros I; repeat (destruct I as [I|I]; [discriminate|]); exact I|]. repeat (split; [vm_compute; reflexivity|]). eexists. split; [vm_compute; reflexivity|]. vm_compute. reflexivity.
Qed.
Print Assumptions C80_eps.
Print Assumptions C80_str_arr.
Print Assumptions C80_vector.
Print Assumptions C80_atpos.
Print Assumptions C80_fast.
Print Assumptions C80_xyz.
Print Assumptions C80_axsf.
Print Assumptions C80_mismatch.
Print Assumptions C80_exact.
Print Assumptions C80_name_refuted.
Print Assumptions C80_symbol_refuted.
Print Assumptions C80_small_refuted.
Print Assumptions C80_rank_refuted.
