(** C88: phonon modes are read as matdyn.x, ph.x and dynmat.x write them. *)
From Coq Require Import Ascii String List Arith Bool Lia Reals Lra ZArith.
From Verif Require Import Comb Template TemplateProofs ArrayIO Grep Regex Lammps LammpsProofs PwOut PwOutSpec PwOutProofs Cp2k Cp2kProofs CpmdProofs Modes ModesSpec ModesProofs.
Import ListNotations.
Local Open Scope list_scope.
Local Open Scope nat_scope.
Local Notation length := List.length.

Lemma f2_concat {A B} (P : A -> B -> Prop) ls ms : Forall2 (Forall2 P) ls ms -> Forall2 P (concat ls) (concat ms).
Proof. induction 1 as [|l m1 ls ms H _ IH]; [constructor|]. cbn [concat]. now apply Forall2_app. Qed.
Lemma f2_mapl {A B C} (P : A -> B -> Prop) (f : C -> A) ls ms : Forall2 P (map f ls) ms <-> Forall2 (fun c b => P (f c) b) ls ms.
Proof.
  split.
  - revert ms. induction ls as [|c ls IH]; intros [|b ms] H; inversion H; subst; constructor; auto.
  - induction 1; constructor; auto.
Qed.
Lemma f2_shape {A B} (P : A -> B -> Prop) n ls ms : Forall2 (Forall2 P) ls ms -> Forall (fun l => length l = n) ls -> Forall (fun l => length l = n) ms.
Proof. induction 1 as [|l k ls ms H _ IH]; intros F; [constructor|]. inversion F; subst. constructor; [now rewrite <- (f2_len H)|auto]. Qed.
Lemma concat_len {A} n (ss : list (list A)) : Forall (fun s => length s = n) ss -> length (concat ss) = length ss * n.
Proof. induction 1 as [|s ss L _ IH]; [reflexivity|]. cbn [concat length]. rewrite app_length, L, IH. reflexivity. Qed.
Lemma reshape_concat {A} n (ss : list (list A)) k : Forall (fun s => length s = n) ss -> k = length ss -> reshape k n (concat ss) = Some ss.
Proof.
  intros F ->. unfold reshape. replace (length (concat ss)) with (length ss * n); [rewrite Nat.eqb_refl; f_equal; now apply chunk_concat|]. induction F as [|s ss L _ IH]; [reflexivity|]. cbn [concat length]. rewrite app_length, L, <- IH. reflexivity.
Qed.
Section C88.
Variable parse : pstr -> option R.
(** What a q-point says, in numbers *)
Lemma value_shape natoms q v : complete natoms q -> reads_q parse q v -> length (v_coords v) = 3 /\ length (v_freqs v) = 3 * natoms /\ length (v_vecs v) = 3 * natoms /\ Forall (fun m => length m = natoms) (v_vecs v).
Proof.
  intros (A & B & C) (D & E & F). split; [now rewrite <- (f2_len D)|]. split; [now rewrite <- (f2_len E)|]. split; [now rewrite <- (f2_len F)|]. clear - C F. revert C. induction F as [|m x ms xs X _ IH]; intros C; [constructor|]. inversion C; subst. constructor; [now rewrite <- (f2_len X)|auto].
Qed.
Lemma q_freqs q v : reads_q parse q v -> reads1 parse (map m_freq (q_modes q)) (v_freqs v).
Proof. intros (_ & E & _). unfold reads1. now apply f2_mapl. Qed.
Lemma q_vecs q v : reads_q parse q v -> Forall2 (Forall2 (reads_c parse)) (concat (map m_vecs (q_modes q))) (concat (v_vecs v)).
Proof. intros (_ & _ & F). apply f2_concat. now apply f2_mapl. Qed.
Lemma some_vecs natoms q : natoms <> 0 -> complete natoms q -> concat (map m_vecs (q_modes q)) <> [].
Proof. intros N (_ & B & C) E. destruct (q_modes q) as [|x ms]; [cbn in B; lia|]. inversion C as [|? ? L _]; subst. cbn [map concat] in E. destruct (m_vecs x); [cbn in N; lia|discriminate E]. Qed.
(** All q-points, frequencies and vectors of matdyn.modes, in the order of the file *)
Theorem C88_modes natoms qs lines vals : natoms <> 0 -> qs <> [] -> Forall (complete natoms) qs -> listing false (flat_map q_items qs) lines -> Forall2 (reads_q parse) qs vals ->
  read_matdyn_modes parse natoms lines = Some (map v_coords vals, map v_freqs vals, map v_vecs vals).
Proof.
  intros N NE C L H. destruct (listing_all false _ _ L) as (A & B & _ & _). destruct (of_qs qs) as (OQ & OF & OV). rewrite OQ in A. rewrite OV in B.
  assert (SH : Forall (fun v => length (v_coords v) = 3 /\ length (v_freqs v) = 3 * natoms /\ length (v_vecs v) = 3 * natoms /\ Forall (fun m => length m = natoms) (v_vecs v)) vals).
  { clear - C H. revert C. induction H as [|q v qs vals X _ IH]; intros C; [constructor|]. inversion C; subst. constructor; [now apply (value_shape natoms q)|auto]. }
  unfold read_matdyn_modes. rewrite (arr2_any parse 3 (map (sed_1 q_re) (List.filter q_line lines)) (map q_coords qs) (map v_coords vals)); [|discriminate|now destruct qs|rewrite map_map; exact A| |].
  2:{ clear - H. induction H as [|q v qs vals (X & _) _ IH]; [constructor|]. now constructor. }
  2:{ apply Forall_forall. intros t I. apply in_map_iff in I as (q & <- & I). rewrite Forall_forall in C. now destruct (C q I). }
  rewrite (vectors_ok parse _ (concat (map (fun q => concat (map m_vecs (q_modes q))) qs)) (concat (map (fun v => concat (v_vecs v)) vals))).
  2:{ destruct qs as [|q qs]; [congruence|]. cbn [map concat]. intros E. apply app_eq_nil in E as [E _]. inversion C; subst. now apply (some_vecs natoms q). }
  2:{ rewrite <- OV. now apply (vecs_three false _ lines). }
  2:{ exact B. }
  2:{ apply f2_concat. clear - H. induction H as [|q v qs vals X _ IH]; [constructor|]. constructor; [now apply q_vecs|exact IH]. }
  rewrite (reshape_concat (3 * natoms * natoms)); [| |now rewrite !map_length].
  2:{ apply Forall_forall. intros x I. apply in_map_iff in I as (v & <- & I). rewrite Forall_forall in SH. destruct (SH v I) as (_ & _ & L1 & F1). rewrite <- L1. exact (concat_len natoms (v_vecs v) F1). }
  rewrite (freqs_ok parse false _ lines (concat (map v_freqs vals)) L).
  2:{ rewrite OF. apply f2_concat. clear - H. induction H as [|q v qs vals X _ IH]; [constructor|]. constructor; [now apply q_freqs|exact IH]. }
  rewrite (reshape_concat (3 * natoms)); [| |now rewrite !map_length].
  2:{ apply Forall_forall. intros x I. apply in_map_iff in I as (v & <- & I). rewrite Forall_forall in SH. now destruct (SH v I) as (_ & ? & _). }
  f_equal. f_equal. rewrite map_map. apply map_ext_in. intros v I. rewrite Forall_forall in SH. destruct (SH v I) as (_ & _ & L1 & F1). rewrite <- L1. now apply chunk_concat.
Qed.
(** Another number of atoms than that of the file: the parser raises. *)
Theorem C88_wrong_natoms natoms other qs lines vals : natoms <> 0 -> qs <> [] -> Forall (complete natoms) qs -> listing false (flat_map q_items qs) lines -> Forall2 (reads_q parse) qs vals ->
  other <> natoms -> read_matdyn_modes parse other lines = None.
Proof.
  intros N NE C L H D. assert (E := C88_modes natoms qs lines vals N NE C L H). unfold read_matdyn_modes in *. destruct (arr2d_from_txt parse (map (sed_1 q_re) (List.filter q_line lines))) as [[qp|]|]; try discriminate E. destruct (vectors parse (List.filter vec_line lines)) as [rows|]; [|reflexivity].
  unfold reshape in E |- *. destruct (Nat.eqb_spec (length rows) (length qp * (3 * natoms * natoms))) as [LR|]; [|discriminate E]. destruct (Nat.eqb_spec (length rows) (length qp * (3 * other * other))) as [LR2|]; [exfalso|reflexivity].
  assert (Q : length qp <> 0).
  { destruct (frequencies parse lines) as [f|]; [|discriminate E]. destruct (length f =? _); [|discriminate E]. injection E as E _ _. rewrite E, map_length, <- (f2_len H). destruct qs; [congruence|discriminate]. }
  rewrite LR in LR2. apply Nat.mul_cancel_l in LR2; [|exact Q]. nia.
Qed.
(** A dyn file: the last q-point of the star, its vectors; the frequencies are those lines say that
    are in the file, however many. *)
Lemma dyn_read natoms star q is lines vq vf vecs vv : natoms <> 0 -> listing true (map IQ star ++ IQ q :: is) lines -> qs_of is = [] -> length q = 3 -> vecs_of is = concat vecs -> length vecs = 3 * natoms -> Forall (fun m => length m = natoms) vecs ->
  reads1 parse q vq -> reads1 parse (freqs_of is) vf -> Forall2 (Forall2 (Forall2 (reads_c parse))) vecs vv -> read_dyn parse natoms lines = Some (vq, vf, vv).
Proof.
  intros N L NQ LQ EV LV FV HQ HF HV. destruct (listing_all true _ _ L) as (A & B & C & _). destruct (of_star star (IQ q :: is)) as (OQ & OF & OV).
  change (qs_of (IQ q :: is)) with (q :: qs_of is) in OQ. change (freqs_of (IQ q :: is)) with (freqs_of is) in OF. change (vecs_of (IQ q :: is)) with (vecs_of is) in OV. rewrite NQ in OQ. rewrite OQ in A. rewrite OV, EV in B.
  assert (NE : concat vecs <> []). { intros E. destruct vecs as [|x vecs]; [cbn in LV; lia|]. inversion FV as [|? ? Lx _]; subst. cbn [concat] in E. destruct x; [cbn in N; lia|discriminate E]. }
  unfold read_dyn. assert (LL : exists l pre, List.filter dq_line lines = pre ++ [l] /\ words (sed_1 dq_re l) = q).
  { destruct (exists_last (l := List.filter dq_line lines)) as (pre & l & E); [intros E; rewrite E in A; symmetry in A; apply app_eq_nil in A as [_ A]; discriminate A|]. exists l, pre. split; [exact E|]. rewrite E, map_app in A. apply app_inj_tail in A as [_ A]. exact A. }
  destruct LL as (l & pre & EL & WL). rewrite EL, rev_app_distr. cbn [rev app map]. rewrite (words_read parse [sed_1 dq_re l] [q] vq); [|cbn [map]; now rewrite WL|cbn [concat]; now rewrite app_nil_r].
  replace (length vq) with 3 by (rewrite <- (f2_len HQ); congruence). cbn [Nat.eqb]. rewrite C.
  rewrite (vectors_ok parse _ (concat vecs) (concat vv) NE); [|rewrite <- EV, <- OV; now apply (vecs_three true _ lines)|exact B|now apply f2_concat].
  rewrite (reshape_concat natoms); [|exact (f2_shape _ natoms vecs vv HV FV)|exact (eq_trans (eq_sym LV) (f2_len HV))].
  rewrite (freqs_ok parse true _ lines vf L); [reflexivity|]. now rewrite OF.
Qed.
(** A q-point in a dyn file which has not three coordinates is refused. *)
Theorem C88_wrong_q natoms star q is lines vq : listing true (map IQ star ++ IQ q :: is) lines -> qs_of is = [] -> length q <> 3 -> reads1 parse q vq -> read_dyn parse natoms lines = None.
Proof.
  intros L NQ LQ HQ. destruct (listing_all true _ _ L) as (A & _). destruct (of_star star (IQ q :: is)) as (OQ & _). change (qs_of (IQ q :: is)) with (q :: qs_of is) in OQ. rewrite NQ in OQ. rewrite OQ in A.
  unfold read_dyn. assert (LL : exists l pre, List.filter dq_line lines = pre ++ [l] /\ words (sed_1 dq_re l) = q).
  { destruct (exists_last (l := List.filter dq_line lines)) as (pre & l & E); [intros E; rewrite E in A; symmetry in A; apply app_eq_nil in A as [_ A]; discriminate A|]. exists l, pre. split; [exact E|]. rewrite E, map_app in A. apply app_inj_tail in A as [_ A]. exact A. }
  destruct LL as (l & pre & EL & WL). rewrite EL, rev_app_distr. cbn [rev app map]. rewrite (words_read parse [sed_1 dq_re l] [q] vq); [|cbn [map]; now rewrite WL|cbn [concat]; now rewrite app_nil_r].
  destruct (Nat.eqb_spec (length vq) 3) as [E|]; [|reflexivity]. exfalso. apply LQ. rewrite (f2_len HQ). exact E.
Qed.
Theorem C88_dyn natoms star q lines v : natoms <> 0 -> complete natoms q -> listing true (map IQ star ++ q_items q) lines -> reads_q parse q v ->
  read_dyn parse natoms lines = Some (v_coords v, v_freqs v, v_vecs v).
Proof.
  intros N C L H. destruct (of_modes (q_modes q)) as (A & B & D). assert (C' := C). destruct C' as (C1 & C2 & C3).
  apply (dyn_read natoms star (q_coords q) (flat_map mode_items (q_modes q)) lines _ _ (map m_vecs (q_modes q))); [exact N|exact L|exact A|exact C1|exact D|now rewrite map_length| | | |].
  - apply Forall_forall. intros x I. apply in_map_iff in I as (y & <- & I). rewrite Forall_forall in C3. now apply C3.
  - now destruct H as (X & _).
  - rewrite B. now apply q_freqs.
  - destruct H as (_ & _ & X). now apply f2_mapl.
Qed.
(** Nothing checks the number of frequencies: lines that are not in the file are missing in the
    result. *)
Theorem C88_lost_frequency_refuted natoms star q is lines vq vf vecs vv : natoms <> 0 -> listing true (map IQ star ++ IQ q :: is) lines -> qs_of is = [] -> length q = 3 -> vecs_of is = concat vecs -> length vecs = 3 * natoms -> Forall (fun m => length m = natoms) vecs ->
  reads1 parse q vq -> reads1 parse (freqs_of is) vf -> Forall2 (Forall2 (Forall2 (reads_c parse))) vecs vv -> length vf <> 3 * natoms ->
  exists f, read_dyn parse natoms lines = Some (vq, f, vv) /\ length f <> length vv.
Proof. intros N L NQ LQ EV LV FV HQ HF HV D. exists vf. split; [now apply (dyn_read natoms star q is lines vq vf vecs vv)|]. rewrite <- (f2_len HV), LV. exact D. Qed.
(** All dyn files: as many q-points as asked for, in the order of their numbers *)
Lemma dyns_read natoms qs vals : natoms <> 0 -> Forall (complete natoms) qs -> Forall2 (reads_q parse) qs vals -> forall iq files,
  (forall i q, nth_error qs i = Some q -> exists star lines, files (iq + i + 1) = Some lines /\ listing true (map IQ star ++ q_items q) lines) ->
  read_dyns parse natoms (length qs) iq files = Some (map v_coords vals, map v_freqs vals, map v_vecs vals).
Proof.
  intros N C H. revert C. induction H as [|q v qs vals X _ IH]; intros C iq files F; [reflexivity|]. inversion C; subst. cbn [length read_dyns].
  destruct (F 0 q eq_refl) as (star & lines & E & L). rewrite Nat.add_0_r in E. rewrite E. rewrite (C88_dyn natoms star q lines v) by assumption.
  destruct (value_shape natoms q v) as (_ & LF & _); [assumption|assumption|]. unfold assign. rewrite LF, Nat.eqb_refl. rewrite IH; [reflexivity|assumption|]. intros i q' I. destruct (F (S i) q' I) as (star' & lines' & E' & L'). exists star', lines'. split; [|exact L']. rewrite <- E'. f_equal. lia.
Qed.
Theorem C88_all_dyn natoms qs vals files : natoms <> 0 -> Forall (complete natoms) qs -> Forall2 (reads_q parse) qs vals ->
  (forall i q, nth_error qs i = Some q -> exists star lines, files (i + 1) = Some lines /\ listing true (map IQ star ++ q_items q) lines) ->
  read_all_dyn parse natoms (length qs) files = Some (map v_coords vals, map v_freqs vals, map v_vecs vals).
Proof. intros N C H F. apply dyns_read; assumption. Qed.
(** Both ways to get the modes agree. *)
Theorem C88_agree natoms qs vals files lines : natoms <> 0 -> qs <> [] -> Forall (complete natoms) qs -> Forall2 (reads_q parse) qs vals ->
  listing false (flat_map q_items qs) lines -> (forall i q, nth_error qs i = Some q -> exists star lines, files (i + 1) = Some lines /\ listing true (map IQ star ++ q_items q) lines) ->
  read_all_dyn parse natoms (length qs) files = read_matdyn_modes parse natoms lines.
Proof. intros N NE C H L F. now rewrite (C88_all_dyn natoms qs vals), (C88_modes natoms qs lines vals). Qed.
(** A missing file raises. *)
Theorem C88_missing natoms nq files i : i < nq -> files (i + 1) = None -> read_all_dyn parse natoms nq files = None.
Proof.
  intros L E. unfold read_all_dyn. assert (G : forall nq iq i, i < nq -> files (iq + i + 1) = None -> read_dyns parse natoms nq iq files = None); [|now apply (G nq 0 i)]. clear. induction nq as [|nq IH]; intros iq i L E; [lia|]. cbn [read_dyns]. destruct i as [|i].
  - rewrite Nat.add_0_r in E. now rewrite E.
  - destruct (files (iq + 1)) as [l|]; [|reflexivity]. destruct (read_dyn parse natoms l) as [[[qq ff] vv]|]; [|reflexivity]. rewrite (IH (S iq) i); [now destruct (assign _ _)|lia|rewrite <- E; f_equal; lia].
Qed.
(** A file with one frequency line: all modes get this frequency. *)
Theorem C88_one_frequency_refuted natoms star q is lines files vq f vecs vv : natoms <> 0 -> listing true (map IQ star ++ IQ q :: is) lines -> qs_of is = [] -> length q = 3 -> vecs_of is = concat vecs -> length vecs = 3 * natoms -> Forall (fun m => length m = natoms) vecs ->
  reads1 parse q vq -> reads1 parse (freqs_of is) [f] -> Forall2 (Forall2 (Forall2 (reads_c parse))) vecs vv -> files 1 = Some lines ->
  read_all_dyn parse natoms 1 files = Some ([vq], [repeat f (3 * natoms)], [vv]).
Proof.
  intros N L NQ LQ EV LV FV HQ HF HV E. unfold read_all_dyn. cbn [read_dyns Nat.add]. rewrite E. rewrite (dyn_read natoms star q is lines vq [f] vecs vv) by assumption. unfold assign. cbn [length]. destruct (Nat.eqb_spec 1 (3 * natoms)) as [D|D]; [lia|]. reflexivity.
Qed.
(** ** dynmat.x *)
Lemma table_lines n lines rows : mode_rows n lines rows -> map words (mode_table n lines) = rows.
Proof.
  intros (pre & h & ls & post & -> & H & L & W & NP & NM). unfold mode_table.
  assert (IFF : forall l, in_order [text "mode"; text "cm-1"] l = true <-> table_head l).
  { intros l. rewrite order_iff. cbn [chain]. split; [intros (a & t & -> & b & c & -> & _); now exists a, b, c|]. intros (a & b & c & ->). exists a, (b ++ text "cm-1" ++ c). split; [reflexivity|]. now exists b, c. }
  set (f := in_order [text "mode"; text "cm-1"]) in *.
  assert (P : forall gap, grep_Af n f 0 false gap (pre ++ h :: ls ++ post) = h :: ls).
  { assert (F1 : Forall (fun l => f l = false) pre) by (apply Forall_forall; intros l I; destruct (f l) eqn:E; [|reflexivity]; exfalso; apply (NP l); [apply in_or_app; now left|now apply IFF]).
    induction F1 as [|l pre X _ IH]; intros gap.
    - cbn [app grep_Af]. replace (f h) with true by (symmetry; now apply IFF). cbn [andb app]. f_equal. apply Af_rows; [| |exact L].
      + apply Forall_forall. intros l I. destruct (f l) eqn:E; [|reflexivity]. exfalso. apply (NM l I). apply IFF in E as (a & b & c & ->). now exists a, (b ++ text "cm-1" ++ c).
      + apply Forall_forall. intros l I. destruct (f l) eqn:E; [|reflexivity]. exfalso. apply (NP l); [apply in_or_app; now right|now apply IFF].
    - cbn [app grep_Af]. rewrite X. apply IH. intros l' I. apply NP. now right. }
  rewrite P. cbn [List.filter]. replace (contains (text "mode") h) with true by (symmetry; apply yes_text; destruct H as (a & b & c & ->); now exists a, (b ++ text "cm-1" ++ c)). cbn [negb].
  rewrite filter_all; [exact W|]. apply Forall_forall. intros l I. now rewrite (no_text _ l (NM l I)).
Qed.
Lemma axsf_lines natoms bs lines : axsf_file natoms bs lines -> map words (map (awk [5; 6; 7]) (drop_heads (grep_Af (natoms + 1) (contains (text "PRIMCO")) 0 false false lines))) = concat bs.
Proof.
  intros (pre & lss & -> & NP & F). set (f := contains (text "PRIMCO")).
  assert (P : forall gap, grep_Af (natoms + 1) f 0 false gap (pre ++ concat lss) = grep_Af (natoms + 1) f 0 false (match pre with [] => gap | _ => true end) (concat lss)).
  { induction pre as [|l pre IH]; intros gap; [reflexivity|]. cbn [app grep_Af]. replace (f l) with false by (symmetry; apply no_text, NP; now left). rewrite IH by (intros x I; apply NP; now right). now destruct pre. }
  rewrite P. clear P NP. generalize (match pre with [] => false | _ => true end). intros gap.
  assert (G : forall old gap, (old = false \/ gap = false) -> map words (map (awk [5; 6; 7]) (drop_heads (grep_Af (natoms + 1) f 0 old gap (concat lss)))) = concat bs); [|apply G; now left].
  clear gap pre. induction F as [|ls b lss bs (h & c & rows & -> & H & NC & LB & FR) _ IH]; intros old gap O; [reflexivity|].
  cbn [concat app grep_Af]. replace (f h) with true by (symmetry; now apply yes_text). replace (old && gap) with false by (destruct O as [-> | ->]; [reflexivity|now rewrite andb_false_r]). cbn [app drop_heads]. fold f. replace (f h) with true by (symmetry; now apply yes_text).
  rewrite Nat.add_1_r. cbn [grep_Af]. replace (f c) with false by (symmetry; now apply no_text).
  assert (LR : length rows = natoms) by (rewrite (f2_len FR); exact LB). clear LB NC H.
  assert (Q : forall n' k rest, length rows = k -> drop_heads (grep_Af n' f k true false (rows ++ rest)) = rows ++ drop_heads (grep_Af n' f 0 true false rest)).
  { clear - FR. intros n' k rest <-. induction FR as [|l x rows b (NL & _) _ IH]; [reflexivity|]. cbn [app length grep_Af]. replace (f l) with false by (symmetry; now apply no_text). cbn [drop_heads]. fold f. replace (f l) with false by (symmetry; now apply no_text). now rewrite IH. }
  rewrite (Q _ natoms (concat lss) LR). rewrite map_app, map_app. f_equal; [|rewrite Nat.add_1_r in IH; apply IH; now right].
  clear - FR. induction FR as [|l x rows b (_ & L & s & a1 & a2 & a3 & W) _ IH]; [reflexivity|]. cbn [map]. f_equal; [|exact IH]. destruct x as [|x1 [|x2 [|x3 [|]]]]; try discriminate L. apply (awk_slice [5; 6; 7] [s; a1; a2; a3] [x1; x2; x3] [] l); [now rewrite app_nil_r|reflexivity].
Qed.
(** Frequencies from the table, vectors from the AXSF file *)
Theorem C88_dynmat natoms out axsf rows freqs bs vals : mode_rows (3 * natoms) out rows -> reads1 parse (map (fun r => nth 1 r []) rows) freqs -> Forall (fun r => 2 <= length r) rows ->
  axsf_file natoms bs axsf -> length bs = 3 * natoms -> reads3 parse bs vals -> read_dynmat parse natoms out axsf = Some ([0; 0; 0]%R, freqs, vals).
Proof.
  intros M HF W2 A LB H. unfold read_dynmat. assert (B3 : Forall (fun b => length b = natoms /\ Forall (fun r => length r = 3) b) bs).
  { destruct A as (pre & lss & _ & _ & F). clear - F. induction F as [|ls b lss bs (h & c & rows & _ & _ & _ & LB & FR) _ IH]; constructor; [|exact IH]. split; [exact LB|]. clear - FR. induction FR as [|l x rows b (_ & L & _) _ IH]; constructor; assumption. }
  assert (V3 : Forall (fun b => length b = natoms /\ Forall (fun r => length r = 3) b) vals).
  { clear - H B3. revert B3. induction H as [|t v ts vs X _ IH]; intros B3; [constructor|]. inversion B3 as [|? ? [L F] ?]; subst. constructor; [|auto]. split; [now rewrite <- (f2_len X)|]. clear - X F. revert F. induction X as [|r x rs xs Y _ IH]; intros F; [constructor|]. inversion F; subst. constructor; [now rewrite <- (f2_len Y)|auto]. }
  rewrite (words_read parse _ (concat bs) (concat (concat vals)) (axsf_lines natoms bs axsf A)).
  2:{ apply reads_concat. now apply reads_concat3. }
  replace (concat (concat vals)) with (concat (map (@concat R) vals)).
  2:{ clear. induction vals as [|v vals IH]; [reflexivity|]. cbn [map concat]. now rewrite IH, concat_app. }
  rewrite (reshape_concat (natoms * 3)).
  2:{ apply Forall_forall. intros x I. apply in_map_iff in I as (v & <- & I). rewrite Forall_forall in V3. destruct (V3 v I) as [L F]. rewrite <- L. clear - F. induction F as [|r v Lr _ IH]; [reflexivity|]. cbn [concat length]. rewrite app_length, Lr, IH. reflexivity. }
  2:{ rewrite map_length, <- (f2_len H). now symmetry. }
  rewrite (words_read parse (map (awk [2]) (mode_table (3 * natoms) out)) (map (fun r => [nth 1 r []]) rows) freqs).
  - f_equal. f_equal. rewrite map_map. rewrite <- (map_id vals) at 2. apply map_ext_in. intros v I. rewrite Forall_forall in V3. destruct (V3 v I) as [L F]. rewrite <- L. now apply chunk_concat.
  - assert (T := table_lines _ _ _ M). rewrite map_map. clear - T W2. revert rows T W2. induction (mode_table (3 * natoms) out) as [|l ls IH]; intros rows T W2; [subst; reflexivity|]. cbn [map] in T. subst rows. inversion W2 as [|? ? L2 W3]; subst. cbn [map]. f_equal; [|now apply IH].
    destruct (words l) as [|a [|b w]] eqn:E; [cbn in L2; lia|cbn in L2; lia|]. apply (awk_slice [2] [a] [b] w l); [exact E|reflexivity].
  - rewrite <- (map_map (fun r => nth 1 r []) (fun f => [f])). now rewrite single_concat.
Qed.
(** IR and Raman: the columns that are in the table, None for others *)
Theorem C88_ir_raman natoms width out rows vals cols : natoms <> 0 -> width <> 0 -> mode_rows (3 * natoms) out rows -> Forall (fun r => length r = width) rows -> reads2 parse rows vals ->
  ir_raman_array parse natoms out = Some (Some vals) /\
  exists dct, read_dynmat_ir_raman parse natoms cols out = Some dct /\
    Forall2 (fun c d => fst d = snd c /\ match snd d with Some col => fst c < width /\ Forall2 (fun r x => nth_error r (fst c) = Some x) vals col | None => width <= fst c end) cols dct.
Proof.
  intros N W M F H. assert (NE : rows <> []). { destruct M as (pre & h & ls & post & _ & _ & L & E & _). destruct ls as [|l ls]; [cbn in L; lia|]. subst rows. discriminate. }
  assert (E : ir_raman_array parse natoms out = Some (Some vals)) by (unfold ir_raman_array; apply (arr2_any parse width _ rows); [exact W|exact NE|now apply table_lines|exact H|exact F]).
  split; [exact E|]. unfold read_dynmat_ir_raman. rewrite E. eexists. split; [reflexivity|].
  assert (FV : Forall (fun v => length v = width) vals) by exact (reads_shape parse (fun k => k = width) _ _ H F).
  replace (length (hd [] vals)) with width by (destruct vals as [|v vals]; [inversion H; subst; congruence|]; symmetry; exact (Forall_inv FV)).
  induction cols as [|[i name] cols IH]; constructor; [|exact IH]. cbn [fst snd]. split; [reflexivity|]. destruct (Nat.leb_spec (i + 1) width) as [L|L]; [|lia]. split; [lia|]. clear - FV L. induction FV as [|v vals LV _ IH]; constructor; [|exact IH]. apply nth_error_nth'. lia.
Qed.
End C88.

(** ** Examples *)
Definition pz (t : pstr) : option R := match read_int t with Some z => Some (IZR z) | None => None end.
(** lines as they are printed *)
Definition omega_l (i x f : pstr) : pstr := text "     " ++ text "omega" ++ i ++ text "=" ++ x ++ text "[" ++ text "THz] " ++ text "=" ++ text "   " ++ f ++ text " " ++ text "[" ++ text "cm-1]".
Definition vec_l (t : pstr) : pstr := text " " ++ text "(" ++ t ++ text ")" ++ [].
Definition q_l (t : pstr) : pstr := text "  " ++ text "q" ++ text " " ++ text "=" ++ t.
Definition dq_l (t : pstr) : pstr := text "  " ++ text "q" ++ text " " ++ text "=" ++ text " " ++ text "(" ++ t ++ text ")" ++ text " ".
Definition lacks (cs s : pstr) : bool := forallb (fun c => negb (existsb (Ascii.eqb c) s)) cs.
Lemma lacks_ok cs s : lacks cs s = true -> without cs s.
Proof. intros H c C I. unfold lacks in H. rewrite forallb_forall in H. specialize (H c C). apply negb_true_iff in H. assert (X : existsb (Ascii.eqb c) s = true) by (apply existsb_exists; exists c; split; [exact I|apply Ascii.eqb_refl]). congruence. Qed.
Ltac blank := let c := fresh in let I := fresh in intros c I; cbn in I; repeat (destruct I as [<- |I]; [reflexivity|]); destruct I.
Lemma omega_ok i x f : f <> [] -> forallb (fun c => negb (is_space c)) f = true -> lacks (text "oq=[") (i ++ x ++ text "THz] " ++ f ++ text "cm-1]") = true -> says_omega (omega_l i x f) f.
Proof.
  intros NE S1 L. exists (text "     "), i, x, (text "THz] "), (text "   "), (text " "), (text "cm-1]"). split; [reflexivity|]. split; [blank|]. split; [exact NE|]. split; [intros c I; rewrite forallb_forall in S1; specialize (S1 c I); now destruct (is_space c)|]. now apply lacks_ok.
Qed.
Lemma vec_ok t v : lacks (text "oq=)") t = true -> length v = 3 -> words t = flat v -> says_vec (vec_l t) v.
Proof. intros L E W. exists (text " "), t, []. split; [reflexivity|]. split; [blank|]. split; [now apply lacks_ok|]. now split. Qed.
Lemma q_ok t q : lacks (text "=()o") t = true -> words t = q -> says_q false (q_l t) q.
Proof.
  intros L W. apply lacks_ok in L. exists (text "  "), (text " "), [], t, []. split; [reflexivity|]. split; [blank|]. split; [intros c C; apply L; cbn in C |- *; tauto|]. split; [exact W|]. split.
  - intros H. apply opens_iff in H. discriminate H.
  - intros H. assert (X : In "o"%char (q_l t)) by (destruct H as (a & b & ->); apply in_or_app; right; now left). unfold q_l in X. repeat (apply in_app_or in X as [X|X]); try (cbn in X; intuition discriminate). revert X. apply L. cbn. tauto.
Qed.
Lemma dq_ok t q : lacks (text "=()o") t = true -> words t = q -> says_q true (dq_l t) q.
Proof.
  intros L W. apply lacks_ok in L. exists (text "  "), (text " "), (text " "), t, (text " "). split; [reflexivity|]. split; [blank|]. split; [intros c C; apply L; cbn in C |- *; tauto|]. split; [exact W|]. split.
  - intros H. apply opens_iff in H. discriminate H.
  - intros H. assert (X : In "o"%char (dq_l t)) by (destruct H as (a & b & ->); apply in_or_app; right; now left). unfold dq_l in X. repeat (apply in_app_or in X as [X|X]); try (cbn in X; intuition discriminate). revert X. apply L. cbn. tauto.
Qed.
Lemma other_ok l : q_line l = false -> vec_line l = false -> omega_line l = false -> no_data l.
Proof. intros A B C. split; [intros H; apply assigns_iff in H; congruence|]. split; [intros H; apply opens_iff in H; congruence|]. intros H. apply text_iff in H. unfold omega_line in C. congruence. Qed.
Definition pr (a b : string) : pstr * pstr := (text a, text b).
Definition demo_q (c : list pstr) (f : string) : qpoint := QPoint c [Mode (text f) [[pr "1" "0"; pr "0" "2"; pr "-3" "0"]]; Mode (text "67") [[pr "0" "0"; pr "1" "0"; pr "0" "0"]]; Mode (text "90") [[pr "4" "-5"; pr "0" "0"; pr "0" "0"]]].
Definition demo_modes (f : string) : list pstr := [text " ****"; omega_l (text "( 1) ") (text "  -2 ") (text f); vec_l (text "  1 0   0 2   -3 0  "); omega_l (text "( 2) ") (text "  2 ") (text "67"); vec_l (text " 0 0  1 0  0 0  "); omega_l (text "( 3) ") (text "  3 ") (text "90"); vec_l (text " 4 -5  0 0  0 0  "); text " ****"].
Definition demo_v (c : list R) (f : R) : qvalue := QValue c [f; 67; 90]%R [[[(1, 0); (0, 2); (-3, 0)]]; [[(0, 0); (1, 0); (0, 0)]]; [[(4, -5); (0, 0); (0, 0)]]]%R.
Lemma demo_modes_ok paren f is ls : text f <> [] -> forallb (fun c => negb (is_space c)) (text f) = true -> lacks (text "oq=[") (text "( 1) " ++ text "  -2 " ++ text "THz] " ++ text f ++ text "cm-1]") = true -> listing paren is ls ->
  listing paren (flat_map mode_items (q_modes (demo_q [] f)) ++ is) (demo_modes f ++ ls).
Proof.
  intros A B C L. cbn [demo_q q_modes flat_map mode_items m_freq m_vecs map app demo_modes].
  apply li_other; [now apply other_ok|]. apply li_item; [now apply omega_ok|]. apply li_item; [apply vec_ok; reflexivity|].
  apply li_item; [apply omega_ok; [discriminate|reflexivity|reflexivity]|]. apply li_item; [apply vec_ok; reflexivity|]. apply li_item; [apply omega_ok; [discriminate|reflexivity|reflexivity]|]. apply li_item; [apply vec_ok; reflexivity|]. apply li_other; [now apply other_ok|exact L].
Qed.
Definition c0 := map text ["0"; "0"; "0"]%string.
Definition c1 := map text ["0"; "0"; "-1"]%string.
Definition demo_file : list pstr := text "     diagonalizing the dynamical matrix ..." :: q_l (text "   0   0   0") :: demo_modes "-67" ++ q_l (text "   0   0   -1") :: demo_modes "30" ++ [].
Lemma demo_listing : listing false (flat_map q_items [demo_q c0 "-67"; demo_q c1 "30"]) demo_file.
Proof.
  apply li_other; [now apply other_ok|]. cbn [flat_map]. rewrite app_nil_r. unfold q_items. cbn [q_coords demo_q]. rewrite <- app_comm_cons. apply li_item; [now apply q_ok|].
  apply (demo_modes_ok false "-67"); [discriminate|reflexivity|reflexivity|]. apply li_item; [now apply q_ok|]. assert (X := demo_modes_ok false "30" [] [] ltac:(discriminate) eq_refl eq_refl (li_nil false)). rewrite app_nil_r in X. exact X.
Qed.
Lemma demo_complete : Forall (complete 1) [demo_q c0 "-67"; demo_q c1 "30"].
Proof. repeat (apply Forall_cons; [repeat split; repeat (apply Forall_cons; [reflexivity|]); apply Forall_nil|]); apply Forall_nil. Qed.
Lemma pz_ok t z : read_int t = Some z -> pz t = Some (IZR z).
Proof. intros H. unfold pz. now rewrite H. Qed.
Lemma demo_read c f vc z : Forall2 (fun t x => pz t = Some x) c vc -> read_int (text f) = Some z -> reads_q pz (demo_q c f) (demo_v vc (IZR z)).
Proof.
  intros C F. split; [exact C|]. split.
  - apply Forall2_cons; [now apply pz_ok|]. apply Forall2_cons; [apply (pz_ok _ 67); reflexivity|]. apply Forall2_cons; [apply (pz_ok _ 90); reflexivity|apply Forall2_nil].
  - assert (E : forall a b x y, read_int (text a) = Some x -> read_int (text b) = Some y -> reads_c pz (pr a b) (IZR x, IZR y)) by (intros a b x y A B; split; now apply pz_ok).
    repeat (apply Forall2_cons; [apply Forall2_cons; [repeat (apply Forall2_cons; [apply E; reflexivity|]); apply Forall2_nil|apply Forall2_nil]|]); apply Forall2_nil.
Qed.
Lemma demo_reads : Forall2 (reads_q pz) [demo_q c0 "-67"; demo_q c1 "30"] [demo_v [0; 0; 0]%R (-67); demo_v [0; 0; -1]%R 30].
Proof.
  apply Forall2_cons; [|apply Forall2_cons; [|apply Forall2_nil]].
  - apply demo_read; [|reflexivity]. repeat (apply Forall2_cons; [apply (pz_ok _ 0); reflexivity|]); apply Forall2_nil.
  - apply demo_read; [|reflexivity]. apply Forall2_cons; [apply (pz_ok _ 0); reflexivity|]. apply Forall2_cons; [apply (pz_ok _ 0); reflexivity|]. apply Forall2_cons; [apply (pz_ok _ (-1)); reflexivity|apply Forall2_nil].
Qed.
Example C88_modes_case : read_matdyn_modes pz 1 demo_file = Some ([[0; 0; 0]; [0; 0; -1]], [[-67; 67; 90]; [30; 67; 90]],
    [[[[(1, 0); (0, 2); (-3, 0)]]; [[(0, 0); (1, 0); (0, 0)]]; [[(4, -5); (0, 0); (0, 0)]]]; [[[(1, 0); (0, 2); (-3, 0)]]; [[(0, 0); (1, 0); (0, 0)]]; [[(4, -5); (0, 0); (0, 0)]]]])%R /\ read_matdyn_modes pz 2 demo_file = None.
Proof.
  split; [exact (C88_modes pz 1 [demo_q c0 "-67"; demo_q c1 "30"] _ _ ltac:(discriminate) ltac:(discriminate) demo_complete demo_listing demo_reads)|].
  exact (C88_wrong_natoms pz 1 2 [demo_q c0 "-67"; demo_q c1 "30"] _ _ ltac:(discriminate) ltac:(discriminate) demo_complete demo_listing demo_reads ltac:(discriminate)).
Qed.
(** a star of two q-points; the second one is diagonalized *)
Definition demo_dyn (q : string) (f : string) : list pstr := dq_l (text "   1   0   0") :: text "   1  1" :: dq_l (text q) :: demo_modes f ++ [].
Lemma dyn_listing q c f : lacks (text "=()o") (text q) = true -> words (text q) = c -> text f <> [] -> forallb (fun c => negb (is_space c)) (text f) = true -> lacks (text "oq=[") (text "( 1) " ++ text "  -2 " ++ text "THz] " ++ text f ++ text "cm-1]") = true ->
  listing true (map IQ [map text ["1"; "0"; "0"]%string] ++ q_items (demo_q c f)) (demo_dyn q f).
Proof.
  intros A B C D E. cbn [map app]. apply li_item; [now apply dq_ok|]. apply li_other; [now apply other_ok|]. apply li_item; [now apply dq_ok|]. assert (X := demo_modes_ok true f [] [] C D E (li_nil true)). rewrite app_nil_r in X. exact X.
Qed.
Example C88_agree_case : let files := fun i => match i with 1 => Some (demo_dyn "0 0 0" "-67") | 2 => Some (demo_dyn "0  0 -1" "30") | _ => None end in
  read_all_dyn pz 1 2 files = read_matdyn_modes pz 1 demo_file /\ read_all_dyn pz 1 3 files = None.
Proof.
  intros files. split; [|apply (C88_missing pz 1 3 files 2); [lia|reflexivity]].
  apply (C88_agree pz 1 [demo_q c0 "-67"; demo_q c1 "30"] _ files demo_file ltac:(discriminate) ltac:(discriminate) demo_complete demo_reads demo_listing).
  intros [|[|i]] q E; [| |destruct i; discriminate E].
  - injection E as <-. eexists [_], _. split; [reflexivity|]. apply dyn_listing; [reflexivity|reflexivity|discriminate|reflexivity|reflexivity].
  - injection E as <-. eexists [_], _. split; [reflexivity|]. apply dyn_listing; [reflexivity|reflexivity|discriminate|reflexivity|reflexivity].
Qed.
(** one frequency line, three modes *)
Definition demo_cut : list pstr := [dq_l (text "0 0 0"); omega_l (text "( 1) ") (text "  -2 ") (text "67"); vec_l (text "1 0 0 2 -3 0"); vec_l (text "0 0 1 0 0 0"); vec_l (text "4 -5 0 0 0 0")].
Example C88_one_case : read_dyn pz 1 demo_cut = Some ([0; 0; 0], [67], [[[(1, 0); (0, 2); (-3, 0)]]; [[(0, 0); (1, 0); (0, 0)]]; [[(4, -5); (0, 0); (0, 0)]]])%R /\
  read_all_dyn pz 1 1 (fun _ => Some demo_cut) = Some ([[0; 0; 0]], [[67; 67; 67]], [[[[(1, 0); (0, 2); (-3, 0)]]; [[(0, 0); (1, 0); (0, 0)]]; [[(4, -5); (0, 0); (0, 0)]]]])%R.
Proof.
  pose (vecs := map m_vecs (q_modes (demo_q [] "67"))).
  assert (L : listing true (map IQ [] ++ IQ c0 :: IOmega (text "67") :: map IVec (concat vecs)) demo_cut).
  { cbn [map app vecs demo_q q_modes m_vecs concat]. apply li_item; [now apply dq_ok|]. apply li_item; [apply omega_ok; [discriminate|reflexivity|reflexivity]|]. repeat (apply li_item; [apply vec_ok; reflexivity|]). apply li_nil. }
  destruct (demo_read c0 "67" [0; 0; 0]%R 67) as (R1 & _ & R3); [repeat (apply Forall2_cons; [apply (pz_ok _ 0); reflexivity|]); apply Forall2_nil|reflexivity|].
  assert (HV : Forall2 (Forall2 (Forall2 (reads_c pz))) vecs (v_vecs (demo_v [] 67))) by (apply f2_mapl; exact R3).
  assert (HF : reads1 pz (freqs_of (IOmega (text "67") :: map IVec (concat vecs))) [67%R]) by (apply Forall2_cons; [apply (pz_ok _ 67); reflexivity|apply Forall2_nil]).
  assert (F1 : Forall (fun m : list (list (pstr * pstr)) => length m = 1) vecs) by (repeat (apply Forall_cons; [reflexivity|]); apply Forall_nil).
  split.
  - apply (dyn_read pz 1 [] c0 (IOmega (text "67") :: map IVec (concat vecs)) demo_cut _ _ vecs); [discriminate|exact L|reflexivity|reflexivity|reflexivity|reflexivity|exact F1|exact R1|exact HF|exact HV].
  - apply (C88_one_frequency_refuted pz 1 [] c0 (IOmega (text "67") :: map IVec (concat vecs)) demo_cut (fun _ => Some demo_cut) _ _ vecs); [discriminate|exact L|reflexivity|reflexivity|reflexivity|reflexivity|exact F1|exact R1|exact HF|exact HV|reflexivity].
Qed.
Definition demo_out : list pstr := map text ["  Program DYNMAT"; " mode   [cm-1]    [THz]      IR"; "  1  10  3  0"; "  2  20  6  1"; "  3  30  9  2"; "  DYNMAT  : 0.00s CPU"]%string.
Definition demo_axsf : list pstr := map text ["ANIMSTEPS 3"; "PRIMVEC"; " 1 0 0"; "PRIMCOORD  1"; "  1 1"; " Al 0 0 0  1 2 3"; "PRIMCOORD 2"; "  1 1"; " Al 0 0 0  4 5 6"; "PRIMCOORD 3"; "  1 1"; " Al 0 0 0 7 8 9"]%string.
Ltac notext := let HH := fresh in intros HH; apply text_iff in HH; vm_compute in HH; discriminate HH.
Definition demo_tab : list (list pstr) := map words (firstn 3 (skipn 2 demo_out)).
Lemma demo_table : mode_rows 3 demo_out demo_tab.
Proof.
  assert (IFF : forall l, table_head l -> in_order [text "mode"; text "cm-1"] l = true) by (intros l (a & b & c & ->); apply order_iff; exists a, (b ++ text "cm-1" ++ c); split; [reflexivity|]; now exists b, c).
  exists (firstn 1 demo_out), (nth 1 demo_out []), (firstn 3 (skipn 2 demo_out)), (skipn 5 demo_out). split; [reflexivity|]. split; [exists (text " "), (text "   ["), (text "]    [THz]      IR"); reflexivity|]. split; [reflexivity|]. split; [reflexivity|]. split.
  - intros l I H. apply IFF in H. cbn [demo_out map firstn skipn app] in I. destruct I as [<- |[<- |[]]]; vm_compute in H; discriminate H.
  - intros l I. cbn [demo_out map firstn skipn app] in I. destruct I as [<- |[<- |[<- |[]]]]; notext.
Qed.
Lemma rd1 ws zs : map read_int ws = map Some zs -> reads1 pz ws (map IZR zs).
Proof. revert ws. induction zs as [|z zs IH]; intros [|w ws] E; try discriminate E; [constructor|]. cbn [map] in *. injection E as E1 E2. constructor; [now apply pz_ok|now apply IH]. Qed.
Lemma rd2 ws zs : map (map read_int) ws = map (map Some) zs -> reads2 pz ws (map (map IZR) zs).
Proof. revert ws. induction zs as [|z zs IH]; intros [|w ws] E; try discriminate E; [constructor|]. cbn [map] in *. injection E as E1 E2. constructor; [now apply rd1|now apply IH]. Qed.
Lemma rd3 ws zs : map (map (map read_int)) ws = map (map (map Some)) zs -> reads3 pz ws (map (map (map IZR)) zs).
Proof. revert ws. induction zs as [|z zs IH]; intros [|w ws] E; try discriminate E; [constructor|]. cbn [map] in *. injection E as E1 E2. constructor; [now apply rd2|now apply IH]. Qed.
Example C88_dynmat_case : read_dynmat pz 1 demo_out demo_axsf = Some ([0; 0; 0], [10; 20; 30], [[[1; 2; 3]]; [[4; 5; 6]]; [[7; 8; 9]]])%R.
Proof.
  apply (C88_dynmat pz 1 demo_out demo_axsf demo_tab [10; 20; 30]%R [[map text ["1"; "2"; "3"]%string]; [map text ["4"; "5"; "6"]%string]; [map text ["7"; "8"; "9"]%string]]); [exact demo_table| | | |reflexivity|].
  - refine (rd1 _ [10; 20; 30]%Z _). vm_compute. reflexivity.
  - repeat (apply Forall_cons; [apply Nat.leb_le; vm_compute; reflexivity|]); apply Forall_nil.
  - exists (firstn 3 demo_axsf), [firstn 3 (skipn 3 demo_axsf); firstn 3 (skipn 6 demo_axsf); skipn 9 demo_axsf]. split; [reflexivity|]. split; [intros l I; cbn [demo_axsf map firstn] in I; destruct I as [<- |[<- |[<- |[]]]]; notext|].
    repeat (apply Forall2_cons; [eexists _, _, _; split; [reflexivity|]; split; [eexists [], _; reflexivity|]; split; [notext|]; split; [reflexivity|]; apply Forall2_cons; [split; [notext|]; split; [reflexivity|]; eexists _, _, _, _; reflexivity|apply Forall2_nil]|]); apply Forall2_nil.
  - refine (rd3 _ [[[1; 2; 3]]; [[4; 5; 6]]; [[7; 8; 9]]]%Z _). vm_compute. reflexivity.
Qed.
Example C88_ir_case : exists dct, read_dynmat_ir_raman pz 1 [(3, text "ir"); (4, text "raman")] demo_out = Some dct /\ map snd dct = [Some [0; 1; 2]%R; None].
Proof.
  destruct (C88_ir_raman pz 1 4 demo_out demo_tab [[1; 10; 3; 0]; [2; 20; 6; 1]; [3; 30; 9; 2]]%R [(3, text "ir"); (4, text "raman")]) as (_ & dct & E & F); [discriminate|discriminate|exact demo_table|repeat (apply Forall_cons; [vm_compute; reflexivity|]); apply Forall_nil| |].
  - refine (rd2 _ [[1; 10; 3; 0]; [2; 20; 6; 1]; [3; 30; 9; 2]]%Z _). vm_compute. reflexivity.
  - exists dct. split; [exact E|]. inversion F as [|? d1 ? ? [_ A] F2]; subst. inversion F2 as [|? d2 ? ? [_ B] F3]; subst. inversion F3; subst. cbn [map]. destruct (snd d1) as [col|]; [|cbn in A; lia]. destruct (snd d2) as [col2|]; [cbn in B; lia|]. f_equal. f_equal.
    destruct A as [_ A]. cbn [fst] in A. inversion A as [|? x1 ? ? X1 A2]; subst. inversion A2 as [|? x2 ? ? X2 A3]; subst. inversion A3 as [|? x3 ? ? X3 A4]; subst. inversion A4; subst. cbn in X1, X2, X3. congruence.
Qed.

(** a q-point with two coordinates *)
Example C88_wrong_q_case : read_dyn pz 1 [dq_l (text "0 0"); omega_l (text "( 1) ") (text "  -2 ") (text "67"); vec_l (text "1 0 0 2 -3 0")] = None.
Proof.
  apply (C88_wrong_q pz 1 [] [text "0"; text "0"] [IOmega (text "67"); IVec [(text "1", text "0"); (text "0", text "2"); (text "-3", text "0")]] _ [0; 0]%R); [|reflexivity|discriminate|refine (rd1 _ [0; 0]%Z _); vm_compute; reflexivity].
  cbn [map app]. apply li_item; [now apply dq_ok|]. apply li_item; [apply omega_ok; [discriminate|reflexivity|reflexivity]|]. apply li_item; [apply vec_ok; reflexivity|]. apply li_nil.
Qed.

Print Assumptions C88_modes.
Print Assumptions C88_wrong_q.
Print Assumptions C88_wrong_natoms.
Print Assumptions C88_dyn.
Print Assumptions C88_lost_frequency_refuted.
Print Assumptions C88_all_dyn.
Print Assumptions C88_agree.
Print Assumptions C88_missing.
Print Assumptions C88_one_frequency_refuted.
Print Assumptions C88_dynmat.
Print Assumptions C88_ir_raman.
