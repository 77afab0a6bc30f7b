(** Proofs for C87. *)
From Coq Require Import Ascii String List Arith Bool Lia Reals.
From Verif Require Import Comb CombProofs Template ArrayIO Grep GrepProofs Regex Lammps LammpsProofs PdbProofs PwOut PwOutSpec PwOutProofs Cp2k Cp2kSpec Cp2kProofs Cpmd CpmdSpec.
Import ListNotations.
Local Open Scope list_scope.
Local Open Scope nat_scope.
Local Notation length := List.length.

(** ** GEOMETRY *)
Lemma gaps_spaces g s : spaces g -> digit_gaps (g ++ s) = digit_gaps s.
Proof.
  induction g as [|c g IH]; intros H; [reflexivity|]. cbn [app digit_gaps]. rewrite IH by (intros x I; apply H; now right).
  rewrite (H c) by now left. destruct (g ++ s); reflexivity.
Qed.
Lemma gaps_only g : spaces g -> digit_gaps g = 0.
Proof. intros H. rewrite <- (app_nil_r g). now rewrite gaps_spaces. Qed.
Lemma bare_blank w c : bare w -> In c w -> Ascii.eqb c " " = false.
Proof. intros [_ H] I. destruct (Ascii.eqb_spec c " ") as [-> |]; [|reflexivity]. specialize (H _ I). discriminate H. Qed.
Lemma gaps_in w t : (forall c, In c w -> Ascii.eqb c " " = false) -> digit_gaps (w ++ " "%char :: t) = (match rev w with d :: _ => if digit d then 1 else 0 | [] => 0 end) + digit_gaps t.
Proof.
  induction w as [|c w IH]; intros H.
  - cbn [app digit_gaps rev]. destruct t; reflexivity.
  - cbn [app digit_gaps]. rewrite IH by (intros x I; apply H; now right). destruct w as [|d w].
    + cbn. rewrite andb_true_r. reflexivity.
    + cbn [app]. rewrite (H d) by (right; now left). rewrite andb_false_r. cbn [rev]. destruct (rev w ++ [d]) eqn:E; [destruct (rev w); discriminate E|]. reflexivity.
Qed.
Lemma gaps_end w : (forall c, In c w -> Ascii.eqb c " " = false) -> digit_gaps w = 0.
Proof.
  induction w as [|c w IH]; intros H; [reflexivity|]. cbn [digit_gaps]. rewrite IH by (intros x I; apply H; now right). destruct w as [|d w]; [reflexivity|].
  rewrite (H d) by (right; now left). now rewrite andb_false_r.
Qed.
Lemma gaps_le ws l : spaced ws l -> digit_gaps l <= length ws.
Proof.
  induction 1 as [g H|g w H W|g w ws t H W _ IH].
  - now rewrite gaps_only.
  - rewrite gaps_spaces by exact H. rewrite gaps_end by (intros c; now apply bare_blank). lia.
  - rewrite gaps_spaces by exact H. rewrite gaps_in by (intros c; now apply bare_blank). cbn [length]. destruct (rev w) as [|d ?]; [lia|]. destruct (digit d); lia.
Qed.
Lemma gaps_ge ws l : spaced ws l -> Forall ends_in_digit ws -> length ws <= S (digit_gaps l).
Proof.
  induction 1 as [g H|g w H W|g w ws t H W _ IH]; intros F; [cbn; lia|cbn; lia|].
  inversion F as [|? ? (p & d & -> & D) F2]; subst. specialize (IH F2). rewrite gaps_spaces by exact H. rewrite gaps_in by (intros c; now apply bare_blank). rewrite rev_app_distr. cbn [rev app length].
  assert (digit d = true) as -> by (cbn in D; repeat (destruct D as [<- |D]; [reflexivity|]); destruct D). lia.
Qed.
Lemma natoms_ok n lines : geometry n lines -> Cpmd.get_natoms (Some lines) = Some n.
Proof.
  intros G. unfold Cpmd.get_natoms. f_equal. induction G as [|n l ls (ws & S1 & L & F) _ IH|n l ls (ws & S1 & L) _ IH]; [reflexivity| |]; cbn [List.filter].
  - pose proof (gaps_ge ws l S1 F) as G1. rewrite L in G1. destruct (Nat.leb_spec 5 (digit_gaps l)); [cbn [length]; now rewrite IH|lia].
  - pose proof (gaps_le ws l S1). destruct (Nat.leb_spec 5 (digit_gaps l)); [lia|exact IH].
Qed.

(** ** The last block *)
Lemma Af_rows n f rows post : Forall (fun l => f l = false) rows -> Forall (fun l => f l = false) post -> length rows = n -> forall old gap, grep_Af n f n old gap (rows ++ post) = rows.
Proof.
  intros R P L. assert (G : forall m k old gap, length rows = k -> grep_Af m f k old gap (rows ++ post) = rows); [|intros; now apply G]. clear L n.
  induction R as [|l rows H _ IH]; intros m k old gap <-.
  - cbn [app length]. revert old gap. induction P as [|l post H _ IH]; intros old gap; [reflexivity|]. cbn [grep_Af]. now rewrite H.
  - cbn [app length grep_Af]. rewrite H. now rewrite IH.
Qed.
Lemma Af_last n f h rows post : f h = true -> Forall (fun l => f l = false) (rows ++ post) -> length rows = n -> forall pre k old gap, exists x, grep_Af n f k old gap (pre ++ h :: rows ++ post) = x ++ rows.
Proof.
  intros H F L. apply Forall_app in F. destruct F as [F1 F2]. induction pre as [|l pre IH]; intros k old gap.
  - cbn [app grep_Af]. rewrite H. rewrite Af_rows by assumption. exists ((if old && gap then [["-"; "-"]%char] else []) ++ [h]). now rewrite <- app_assoc.
  - cbn [app grep_Af]. destruct (f l).
    + destruct (IH n true false) as (x & ->). exists ((if old && gap then [["-"; "-"]%char] else []) ++ l :: x). now rewrite <- app_assoc.
    + destruct k; [apply IH|]. destruct (IH k old gap) as (x & ->). now exists (l :: x).
Qed.
Lemma tail_app {A} (x y : list A) n : length y = n -> tail_n n (x ++ y) = y.
Proof. intros <-. unfold tail_n. rewrite app_length. replace (length x + length y - length y) with (length x) by lia. induction x; [reflexivity|]. exact IHx. Qed.
Lemma last_ok (head : pstr -> Prop) f n lines rows : (forall l, f l = true <-> head l) -> last_block head n lines rows -> tail_n n (grep_Af n f 0 false false lines) = rows.
Proof.
  intros E (pre & h & post & -> & H & L & N). destruct (Af_last n f h rows post) with (pre := pre) (k := 0) (old := false) (gap := false) as (x & ->); [now apply E| |exact L|now apply tail_app].
  apply Forall_forall. intros l I. destruct (f l) eqn:F; [|reflexivity]. exfalso. apply (N l I). now apply E.
Qed.
Lemma is_grad_iff l : is_grad l = true <-> grad_head l.
Proof.
  unfold is_grad. rewrite spaced_search. assert (SO : Forall solid [text "ATOM"; text "COORDINATES"; text "GRADIENTS"]) by (repeat (apply Forall_cons; [eexists; eexists; split; [reflexivity|discriminate]|]); apply Forall_nil). split.
  - intros (p & t & -> & S1). apply spaced_iff in S1; [|exact SO]. destruct S1 as (g1 & t1 & -> & G1 & g2 & t2 & -> & G2 & q & ->). now exists p, g1, g2, q.
  - intros (p & g1 & g2 & q & G1 & G2 & ->). exists p. eexists. split; [reflexivity|]. apply spaced_iff; [exact SO|]. exists g1, (text "COORDINATES" ++ g2 ++ text "GRADIENTS" ++ q). split; [reflexivity|]. split; [exact G1|]. exists g2, (text "GRADIENTS" ++ q). split; [reflexivity|]. split; [exact G2|]. now exists q.
Qed.
(** ** Tables without a heading *)
Section P.
Variable parse : pstr -> option R.
Lemma table_plain width rows lines vals : width <> 0 -> Forall2 table_row lines rows -> Forall (fun r => length r = width) rows -> reads2 parse rows vals -> 2 <= length vals ->
  table parse lines = Some vals.
Proof.
  intros W T F H L. unfold table. rewrite (load_ok parse (map uncomment lines) rows vals width W); [destruct (Nat.leb_spec (length vals) 1); [lia|reflexivity]| |exact H|exact F].
  clear - T. induction T as [|l r lines rows (N & E) _ IH]; [reflexivity|]. cbn [map]. rewrite (uncomment_plain l N), E, IH. reflexivity.
Qed.
Lemma table_one width row lines vals : width <> 0 -> Forall2 table_row lines [row] -> length row = width -> reads2 parse [row] vals -> table parse lines = None.
Proof.
  intros W T F H. unfold table. rewrite (load_ok parse (map uncomment lines) [row] vals width W); [|..|exact H|apply Forall_cons; [exact F|apply Forall_nil]].
  - rewrite <- (f2_len H). reflexivity.
  - inversion T as [|l ? ? ? (N & E) T2]; subst. inversion T2; subst. cbn [map]. rewrite (uncomment_plain l N). reflexivity.
Qed.
(** ** Trajectories *)
Lemma cut_plain l : ~ with_text (text "<<<<") l -> cut_new l = l.
Proof.
  induction l as [|c l IH]; intros N; [reflexivity|]. cbn [cut_new]. destruct (is_prefix s_new (c :: l)) eqn:E.
  - exfalso. apply N. apply is_prefix_spec in E. destruct E as (t & ->). exists [], t. reflexivity.
  - f_equal. apply IH. intros (a & b & ->). apply N. now exists (c :: a), b.
Qed.
Lemma cut_marked g t : spaces g -> words (cut_new (g ++ text "<<<<" ++ t)) = [].
Proof.
  induction g as [|c g IH]; intros H.
  - reflexivity.
  - rewrite (H c) by now left. cbn [app cut_new]. replace (is_prefix s_new (" "%char :: g ++ text "<<<<" ++ t)) with false by reflexivity. unfold words in *. cbn [split_ws]. replace (is_space " "%char) with true by reflexivity. apply IH. intros x I. apply H. now right.
Qed.
Lemma traj_count rows lines : traj_file rows lines -> length (List.filter (fun l => negb (contains s_new l)) lines) = length rows.
Proof.
  induction 1 as [|l r rows ls E NE N _ IH|g t rows ls S1 _ IH]; [reflexivity| |]; cbn [List.filter].
  - replace (contains s_new l) with false by (symmetry; now apply no_text). cbn [negb length]. now rewrite IH.
  - replace (contains s_new _) with true by (symmetry; apply yes_text; now exists g, t). exact IH.
Qed.
Lemma traj_load rows lines vals width : width <> 0 -> traj_file rows lines -> Forall (fun r => length r = width) rows -> reads2 parse rows vals -> loadtxt parse (map cut_new lines) = Some vals.
Proof.
  intros W T F H. unfold loadtxt.
  replace (List.filter _ (map (split_ws []) (map cut_new lines))) with rows.
  - rewrite (opt_reads2 parse rows vals H). assert (FV := reads_shape parse (fun k => k = width) rows vals H F).
    replace (forallb _ vals) with true; [reflexivity|]. symmetry. apply forallb_forall. intros r I. apply Nat.eqb_eq. destruct vals as [|v vals]; [destruct I|]. cbn [hd]. rewrite Forall_forall in FV. rewrite (FV r I). symmetry. apply FV. now left.
  - clear - T. induction T as [|l r rows ls E NE N _ IH|g t rows ls S1 _ IH]; [reflexivity| |]; cbn [map List.filter].
    + rewrite (cut_plain l N). unfold words in E. rewrite E. destruct r; [congruence|]. now rewrite <- IH.
    + pose proof (cut_marked g t S1) as C. unfold words in C. rewrite C. exact IH.
Qed.
Lemma chunk_concat {A} n (ss : list (list A)) : Forall (fun s => length s = n) ss -> chunk n (length ss) (concat ss) = ss.
Proof. induction 1 as [|s ss <- _ IH]; [reflexivity|]. cbn [concat length chunk]. rewrite firstn_app, Nat.sub_diag, firstn_all, firstn_O, app_nil_r. f_equal. replace (skipn (length s) (s ++ concat ss)) with (concat ss) by (clear; induction s; [reflexivity|assumption]). exact IH. Qed.
(** ** Blocks *)
Section BLOCKS.
Variables (key w : pstr).
Hypothesis key_w : forall l, with_text key l -> with_text w l.
Lemma blocks_lines nc steps lss : Forall2 (block_lines key w nc) steps lss -> forall old, map words (egrep_v [w] (grep_Af 3 (contains key) 0 old false (concat lss))) = concat steps.
Proof.
  induction 1 as [|rows ls steps lss (h & rest & -> & H & L & F) _ IH]; intros old; [reflexivity|]. cbn [concat app grep_Af].
  replace (contains key h) with true by (symmetry; now apply yes_text). rewrite andb_false_r. cbn [app].
  assert (LR : length rest = 3) by (rewrite (f2_len F); exact L).
  assert (FR : Forall (fun l => contains key l = false /\ contains w l = false) rest).
  { clear - F key_w. induction F as [|l r rest rows (_ & _ & N) _ IH]; constructor; [|exact IH]. split; [apply no_text; intros T; apply N; now apply key_w|now apply no_text]. }
  assert (G : forall ls2 k, length ls2 = k -> Forall (fun l => contains key l = false /\ contains w l = false) ls2 -> forall t, grep_Af 3 (contains key) k true false (ls2 ++ t) = ls2 ++ grep_Af 3 (contains key) 0 true false t).
  { clear. induction ls2 as [|l ls2 IH]; intros k <- F t; [reflexivity|]. inversion F as [|? ? (K & _) F2]; subst. cbn [length app grep_Af]. rewrite K. now rewrite (IH _ eq_refl F2). }
  rewrite (G rest 3 LR FR). unfold egrep_v in *. cbn [List.filter existsb]. replace (contains w h) with true by (symmetry; apply yes_text; now apply key_w). cbn [orb negb].
  rewrite filter_app, map_app. rewrite IH. f_equal. clear - F. induction F as [|l r rest rows (E & _ & N) _ IH]; [reflexivity|]. cbn [List.filter]. replace (contains w l) with false by (symmetry; now apply no_text). cbn [orb negb map]. now rewrite E, IH.
Qed.
Lemma blocks_count key' nc steps lss : (forall l, with_text key l -> with_text key' l) -> (forall l, with_text key' l -> with_text w l) ->
  Forall2 (block_lines key w nc) steps lss -> grep_c key' (concat lss) = length steps.
Proof.
  intros A B. induction 1 as [|rows ls steps lss (h & rest & -> & H & L & F) _ IH]; [reflexivity|]. unfold grep_c in *. cbn [concat app List.filter]. replace (contains key' h) with true by (symmetry; apply yes_text; now apply A).
  cbn [length]. rewrite filter_app, app_length, IH. replace (List.filter (contains key') rest) with (@nil pstr); [reflexivity|]. symmetry. apply filter_none.
  clear - F B. induction F as [|l r rest rows (_ & _ & N) _ IH]; constructor; [|exact IH]. apply no_text. intros T. apply N. now apply B.
Qed.
(** a line between two blocks: grep writes "--" there *)
Lemma dashes_in f n h rest : f h = true -> forall mid, In (text "--") (grep_Af n f 0 true true (mid ++ h :: rest)).
Proof.
  intros H. induction mid as [|l mid IH]; cbn [app grep_Af].
  - rewrite H. now left.
  - destruct (f l); [now left|exact IH].
Qed.
Lemma dashes_gap nc steps lss l mid h rest : steps <> [] -> Forall2 (block_lines key w nc) steps lss -> ~ with_text key l -> with_text key h -> forall old gap,
  In (text "--") (grep_Af 3 (contains key) 0 old gap (concat lss ++ l :: mid ++ h :: rest)).
Proof.
  intros NE F NL H. assert (G : forall old gap, (old = true \/ steps <> []) -> In (text "--") (grep_Af 3 (contains key) 0 old gap (concat lss ++ l :: mid ++ h :: rest))); [|intros old gap; apply G; now right]. clear NE.
  induction F as [|rows ls steps lss (h2 & rest2 & -> & H2 & L & F) _ IH]; intros old gap O.
  - destruct O as [-> |O]; [|congruence]. cbn [concat app grep_Af]. replace (contains key l) with false by (symmetry; now apply no_text). apply dashes_in. now apply yes_text.
  - cbn [concat app grep_Af]. replace (contains key h2) with true by (symmetry; now apply yes_text). apply in_or_app. right. right.
    assert (LR : length rest2 = 3) by (rewrite (f2_len F); exact L).
    assert (FR : Forall (fun l => contains key l = false) rest2) by (clear - F key_w; induction F as [|x r rest rows (_ & _ & N) _ IH]; constructor; [apply no_text; intros T; apply N; now apply key_w|exact IH]).
    assert (G : forall ls2 k, length ls2 = k -> Forall (fun l => contains key l = false) ls2 -> forall t, grep_Af 3 (contains key) k true false (ls2 ++ t) = ls2 ++ grep_Af 3 (contains key) 0 true false t).
    { clear. induction ls2 as [|x ls2 IH]; intros k <- F t; [reflexivity|]. inversion F as [|? ? K F2]; subst. cbn [length app grep_Af]. rewrite K. now rewrite (IH _ eq_refl F2). }
    rewrite <- app_assoc. rewrite (G rest2 3 LR FR). apply in_or_app. right. apply IH. now left.
Qed.
End BLOCKS.
Lemma from_dashes lines : parse (text "--") = None -> In (text "--") lines -> fromstring parse lines = None.
Proof.
  intros P I. unfold fromstring. induction lines as [|l lines IH]; [destruct I|]. cbn [map concat].
  assert (A : forall a b, opt_map parse (a ++ b) = match opt_map parse a, opt_map parse b with Some x, Some y => Some (x ++ y) | _, _ => None end).
  { induction a as [|x a IHa]; intros b; cbn [app opt_map]; [now destruct (opt_map parse b)|]. destruct (parse x); [|reflexivity]. rewrite IHa. destruct (opt_map parse a), (opt_map parse b); reflexivity. }
  rewrite A. destruct I as [-> |I].
  - replace (split_ws [] (text "--")) with [text "--"] by reflexivity. cbn [opt_map]. now rewrite P.
  - rewrite (IH I). now destruct (opt_map parse (split_ws [] l)).
Qed.
Lemma cols_ok b c lines (txts : list (list (list pstr))) vals : txts <> [] -> b <> 0 -> c <> 0 -> map words lines = concat txts -> reads3 parse txts vals ->
  Forall (fun t => length t = b /\ Forall (fun r => length r = c) t) txts -> traj_cols parse (length txts) b c lines = Some (Some vals).
Proof.
  intros NE B C W H F. unfold traj_cols.
  assert (FV : Forall (fun v => length v = b /\ Forall (fun r => length r = c) v) vals).
  { clear - H F. revert F. induction H as [|t v txts vals HH _ IH]; intros F; constructor; inversion F as [|? ? (L1 & L2) F2]; subst; [|now apply IH]. split; [symmetry; exact (f2_len HH)|]. exact (reads_shape parse (fun k => k = c) t v HH L2). }
  replace (forallb blank_line lines) with false.
  - unfold fromstring. replace (map (split_ws []) lines) with (concat txts) by (symmetry; exact W).
    rewrite (opt_reads parse _ _ (reads_concat parse _ _ (reads_concat3 parse _ _ H))). rewrite (f2_len H). unfold reshape.
    assert (CC : concat (concat vals) = concat (map (@concat R) vals)) by (clear; induction vals as [|v vals IH]; [reflexivity|]; cbn [concat map]; now rewrite concat_app, IH).
    assert (FL : Forall (fun x : list R => length x = b * c) (map (@concat R) vals)).
    { clear - FV. induction FV as [|v vals (L1 & L2) _ IH]; constructor; [|exact IH]. rewrite <- L1. clear L1. induction L2 as [|r v L _ IH2]; [reflexivity|]. cbn [concat length]. rewrite app_length, IH2, L. reflexivity. }
    rewrite CC. assert (LL : length (concat (map (@concat R) vals)) = length vals * (b * c)).
    { rewrite <- (map_length (@concat R) vals). clear - FL. induction FL as [|x l L _ IH]; [reflexivity|]. cbn [concat length]. rewrite app_length, IH, L. lia. }
    rewrite LL, Nat.eqb_refl. rewrite <- (map_length (@concat R) vals) at 1. rewrite (chunk_concat (b * c) _ FL). f_equal. f_equal. rewrite map_map. rewrite <- (map_id vals) at 2. apply map_ext_in. intros v I. rewrite Forall_forall in FV. destruct (FV v I) as [<- L2]. now apply chunk_concat.
  - symmetry. destruct txts as [|t txts]; [congruence|]. inversion F as [|? ? (L1 & L2) _]; subst. destruct t as [|r t]; [cbn in B; lia|]. inversion L2 as [|? ? LR _]; subst. destruct lines as [|l lines]; [discriminate W|]. cbn [map concat app] in W. injection W as W _. cbn [forallb]. destruct r as [|x r]; [cbn in C; lia|]. now rewrite (not_blank _ _ _ W).
Qed.
End P.
