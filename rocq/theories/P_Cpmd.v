(** C87: output files of CPMD runs are read as they are written. *)
From Coq Require Import Ascii String List Arith Bool Lia Reals Lra ZArith.
From Verif Require Import Comb Template TemplateProofs ArrayIO Grep Regex Decimal Lammps LammpsProofs PwOut PwOutSpec PwOutProofs Cp2k Cp2kSpec Cp2kProofs Cpmd CpmdSpec CpmdProofs.
Import ListNotations.
Local Open Scope list_scope.
Local Open Scope nat_scope.
Local Notation length := List.length.

Section C87.
Variable parse : pstr -> option R.
(** ** Single calculations *)
(** GEOMETRY gives the number of atoms, whatever lines about the cell are in it. *)
Theorem C87_natoms n lines : geometry n lines -> Cpmd.get_natoms (Some lines) = Some n.
Proof. apply natoms_ok. Qed.
(** GEOMETRY.scale: cell, symbols and coordinates, in the order of the file *)
Theorem C87_scale n lines crows cell rows atoms xs : n <> 0 -> last_block (with_text (text "CELL MATRIX (BOHR)")) 3 lines crows -> reads2 parse (map words crows) cell -> Forall (fun r => length r = 3) (map words crows) ->
  last_block (with_text (text "SCALED ATOMIC COORDINATES")) n lines rows -> Forall2 scale_row rows atoms -> reads2 parse (map snd atoms) xs ->
  scf_cell parse (Some n) (Some lines) = Some (Some cell) /\ get_coords_frac parse (Some n) (Some lines) = Some (Some xs) /\ Cpmd.get_symbols parse (Some n) (Some lines) = Some (Some (map fst atoms)).
Proof.
  intros PN B1 H1 F1 B2 FR H2. assert (E : scale_file parse (Some n) (Some lines) = Some (Some (Scale (Some cell) xs (map fst atoms)))).
  { unfold scale_file. rewrite (last_ok _ _ _ _ _ (text_iff _) B1), (last_ok _ _ _ _ _ (text_iff _) B2).
    assert (L3 : length crows = 3) by (destruct B1 as (? & ? & ? & _ & _ & L & _); exact L).
    rewrite (arr2_ok parse crows (map words crows) cell); [|destruct crows; [discriminate L3|discriminate]|reflexivity|exact H1|exact F1].
    assert (LN : length rows = n) by (destruct B2 as (? & ? & ? & _ & _ & L & _); exact L).
    assert (NB : List.filter (fun l => negb (blank_line l)) rows = rows).
    { apply filter_all. clear - FR. induction FR as [|l a rows atoms (L & i & W) _ IH]; constructor; [|exact IH]. destruct (snd a) as [|x ?] eqn:E; [discriminate L|]. now rewrite (not_blank l x _ W). }
    rewrite NB. clear NB. assert (WR : word_rows rows = Some (map words rows)).
    { unfold word_rows. match goal with |- (if ?b then _ else _) = _ => replace b with true; [reflexivity|] end. symmetry. apply forallb_forall. intros r I. apply Nat.eqb_eq.
      assert (G : forall y, In y (map (split_ws []) rows) -> length y = 5). { clear - FR. intros y J. induction FR as [|l a rows atoms (L & i & W) _ IH]; [destruct J|]. destruct J as [<- |J]; [|auto]. unfold words in W. rewrite W, app_length, L. reflexivity. }
      destruct rows as [|r0 rows]; [destruct I|]. cbn [map hd] in *. rewrite (G r I). symmetry. apply G. now left. }
    rewrite WR. destruct rows as [|r0 rows0] eqn:ER; [cbn in LN; congruence|]. rewrite <- ER in *. replace (map words rows) with (words r0 :: map words rows0) by now rewrite ER. cbv beta iota. replace (words r0 :: map words rows0) with (map words rows) by now rewrite ER.
    assert (S1 : opt_map (fun r => nth_error r 3) (map words rows) = Some (map fst atoms)).
    { clear - FR. induction FR as [|l a rows atoms (L & i & W) _ IH]; [reflexivity|]. cbn [map opt_map]. rewrite W. destruct (snd a) as [|x [|y [|z [|]]]]; try discriminate L. cbn [nth_error app]. match goal with |- match ?q with _ => _ end = _ => replace q with (Some (map fst atoms)) by (symmetry; exact IH) end. reflexivity. }
    assert (S2 : opt_map (fun r => opt_map parse (firstn 3 r)) (map words rows) = Some xs).
    { clear - FR H2. revert xs H2. induction FR as [|l a rows atoms (L & i & W) _ IH]; intros xs H; inversion H as [|? v ? vs X Y]; subst; [reflexivity|]. cbn [map opt_map]. rewrite W. replace (firstn 3 (snd a ++ [fst a; i])) with (snd a) by (rewrite firstn_app, L, Nat.sub_diag, <- L, firstn_all; cbn [firstn]; now rewrite app_nil_r). rewrite (opt_reads parse _ _ X), (IH _ Y). reflexivity. }
    rewrite S1, S2. reflexivity. }
  unfold scf_cell, get_coords_frac, Cpmd.get_symbols, from_scale. rewrite E. repeat split.
Qed.
(** The output: energy, stress and gradients printed last. *)
Theorem C87_scf_stress out rows s : last_block (with_text (text "TOTAL STRESS TENSOR")) 3 out rows -> reads2 parse (map words rows) s -> Forall (fun r => length r = 3) (map words rows) -> Cpmd.scf_stress parse out = Some (Some s).
Proof.
  intros B H F. unfold Cpmd.scf_stress. rewrite (last_ok _ _ _ _ _ (text_iff _) B). assert (L3 : length rows = 3) by (destruct B as (? & ? & ? & _ & _ & L & _); exact L).
  apply (arr2_ok parse rows (map words rows)); [destruct rows; [discriminate L3|discriminate]|reflexivity|exact H|exact F].
Qed.
Theorem C87_scf_etot a l b x v : with_text (text "TOTAL ENERGY =") l -> (forall k, In k b -> ~ with_text (text "TOTAL ENERGY =") k) ->
  (exists k u, words l = [k; text "TOTAL"; text "ENERGY"; text "="; x] ++ u) -> parse x = Some v -> Cpmd.scf_etot parse (a ++ l :: b) = Some (Some v).
Proof.
  intros H N (k & u & W) P. unfold Cpmd.scf_etot. rewrite filter_app. cbn [List.filter]. replace (contains _ l) with true by (symmetry; now apply yes_text). rewrite (filter_none _ b) by (apply Forall_forall; intros y I; apply no_text, N, I).
  rewrite tail_app by reflexivity. cbn [map]. unfold float_from_txt. assert (E : split_ws [] (awk [5] l) = [x]) by (apply (awk_slice [5] [k; text "TOTAL"; text "ENERGY"; text "="] [x] u); [exact W|reflexivity]).
  cbn [forallb]. rewrite (not_blank _ _ _ E). cbn [andb concat]. rewrite app_nil_r. replace (strip (awk [5] l)) with x; [now rewrite P|].
  assert (XW : bare x) by (pose proof (words_ok l) as F; rewrite W in F; cbn [app] in F; do 4 apply Forall_inv_tail in F; apply Forall_inv in F; exact F).
  unfold awk, field. cbn [map]. unfold words in W. rewrite W. cbn [nth app]. unfold join. symmetry. apply strip_word; [apply XW|]. apply Forall_forall. apply XW.
Qed.
Theorem C87_scf_gradients n out rows xs gs vx vg : n <> 0 -> last_block grad_head n out rows -> Forall2 grad_row rows (combine xs gs) -> length xs = n -> length gs = n ->
  reads2 parse xs vx -> reads2 parse gs vg -> scf_forces parse (Some n) out = Some (Some vg).
Proof.
  intros PN B F LX LG HX HG. unfold scf_forces. rewrite (last_ok _ _ _ _ _ is_grad_iff B).
  assert (LR : length rows = n) by (destruct B as (? & ? & ? & _ & _ & L & _); exact L). clear B.
  assert (G : map words (map (awk [3; 4; 5; 6; 7; 8]) rows) = map (fun p => fst p ++ snd p) (combine xs gs)).
  { clear - F. induction F as [|l p rows ps (L1 & L2 & i & s & W) _ IH]; [reflexivity|]. cbn [map]. rewrite IH. f_equal. apply (awk_slice _ [i; s] (fst p ++ snd p) []); [rewrite app_nil_r; exact W|]. rewrite app_length, L1, L2. reflexivity. }
  assert (R2 : reads2 parse (map (fun p => fst p ++ snd p) (combine xs gs)) (map (fun p => fst p ++ snd p) (combine vx vg))).
  { clear - HX HG. revert gs vg HG. induction HX as [|x v xs vx X _ IH]; intros gs vg HG; [constructor|]. destruct HG as [|g u gs vg U HG]; [constructor|]. cbn [combine map fst snd]. constructor; [now apply Forall2_app|now apply IH]. }
  assert (S6 : Forall (fun t => length t = 6) (map (fun p : list pstr * list pstr => fst p ++ snd p) (combine xs gs))).
  { clear - F. induction F as [|l p rows ps (L1 & L2 & _) _ IH]; constructor; [rewrite app_length, L1, L2; reflexivity|exact IH]. }
  assert (NE : map (fun p : list pstr * list pstr => fst p ++ snd p) (combine xs gs) <> []) by (intros E; apply (f_equal (@length _)) in E; rewrite map_length, <- (f2_len F) in E; cbn in E; congruence).
  unfold arr2d_from_txt. rewrite (blank_words _ _ 6 ltac:(discriminate) NE G S6).
  rewrite (load_ok parse _ _ _ 6 ltac:(discriminate) G R2 S6). f_equal. f_equal. rewrite map_map. clear - F HX HG LX LG LR.
  assert (LV : Forall (fun v => length v = 3) vx). { assert (FX : Forall (fun t => length t = 3) xs). { clear - F LX LG LR. revert gs LG F. subst n. revert rows LR. induction xs as [|x xs IH]; intros rows LR gs LG F; [constructor|]. destruct gs as [|g gs]; [discriminate LG|]. cbn [combine] in F. inversion F as [|l ? rows2 ? (L1 & _) F2]; subst. constructor; [exact L1|]. cbn in LR, LG. apply (IH rows2 ltac:(lia) gs ltac:(lia) F2). } exact (reads_shape parse (fun k => k = 3) _ _ HX FX). }
  assert (LL : length vx = length vg) by (rewrite <- (f2_len HX), <- (f2_len HG); congruence). clear - LV LL. revert vg LL. induction LV as [|v vx L _ IH]; intros [|g vg] LL; try discriminate LL; [reflexivity|]. cbn [combine map fst snd]. rewrite IH by (cbn in LL; lia). f_equal. rewrite <- L. apply skipn_app_exact.
Qed.
(** The heading says that gradients are printed, which are minus the forces. They are returned as
    forces without a change of sign. *)
Lemma opp_same (fs : list (list R)) : map (map Ropp) fs = fs -> forall f c, In f fs -> In c f -> c = 0%R.
Proof.
  induction fs as [|g fs IH]; intros E f c I J; [destruct I|]. cbn [map] in E. injection E as E1 E2. destruct I as [<- |I]; [|now apply (IH E2 f)].
  clear - E1 J. induction g as [|x g IH]; [destruct J|]. cbn [map] in E1. injection E1 as E1 E2. destruct J as [<- |J]; [lra|now apply IH].
Qed.
Theorem C87_force_sign_refuted n out rows xs gs vx forces f c : n <> 0 -> last_block grad_head n out rows -> Forall2 grad_row rows (combine xs gs) -> length xs = n -> length gs = n ->
  reads2 parse xs vx -> reads2 parse gs (map (map Ropp) forces) -> In f forces -> In c f -> c <> 0%R -> scf_forces parse (Some n) out <> Some (Some forces).
Proof.
  intros PN B F LX LG HX HG I J NZ. rewrite (C87_scf_gradients n out rows xs gs vx _ PN B F LX LG HX HG). intros E. injection E as E. apply NZ. now apply (opp_same forces E f).
Qed.
Theorem C87_converged out : scf_converged out = true <-> forall l, In l out -> ~ with_text (text "BUT NO CONVERGENCE") l.
Proof.
  unfold scf_converged. rewrite negb_true_iff. split.
  - intros E l I T. apply text_iff in T. assert (X : existsb (contains (text "BUT NO CONVERGENCE")) out = true) by (apply existsb_exists; now exists l). congruence.
  - intros N. destruct (existsb _ out) eqn:E; [|reflexivity]. apply existsb_exists in E. destruct E as (l & I & T). exfalso. apply (N l I). now apply text_iff.
Qed.
(** ** ENERGIES *)
Lemma energies_read k rows lines steps : Forall2 table_row lines rows -> Forall (fun r => length r = match k with VariableCell => 9 | FixedCell => 8 | Lanczos => 6 end) rows ->
  reads2 parse rows (map (columns k) steps) -> 2 <= length steps -> forall key, energy parse key (Some lines) = Some (match index key (match order (length (columns k (hd (Step 0 0 0 0 0 0 0 0 0) steps))) with Some o => o | None => [] end) with Some i => Some (map (fun s => nth i (columns k s) 0%R) steps) | None => None end).
Proof.
  intros T F H L key. unfold energy, energies. rewrite (table_plain parse (match k with VariableCell => 9 | FixedCell => 8 | Lanczos => 6 end) rows lines (map (columns k) steps)); [|destruct k; discriminate|exact T|exact F|exact H|rewrite map_length; exact L].
  replace (length (hd [] (map (columns k) steps))) with (length (columns k (hd (Step 0 0 0 0 0 0 0 0 0) steps))) by (destruct steps; [cbn in L; lia|reflexivity]).
  destruct k; cbn [columns length order]; destruct (index key _); try reflexivity; now rewrite map_map.
Qed.
Theorem C87_energies k rows lines steps : Forall2 table_row lines rows -> Forall (fun r => length r = match k with VariableCell => 9 | FixedCell => 8 | Lanczos => 6 end) rows ->
  reads2 parse rows (map (columns k) steps) -> 2 <= length steps ->
  Cpmd.get_temperature parse (Some lines) = Some (Some (map tempp steps)) /\ Cpmd.get_etot parse (Some lines) = Some (Some (map eks steps)) /\ Cpmd.get_ekin parse (Some lines) = Some (Some (map eclassic steps)) /\
  get_ekin_elec parse (Some lines) = Some (match k with Lanczos => None | _ => Some (map ekinc steps) end) /\
  get_ekin_cell parse (Some lines) = Some (match k with VariableCell => Some (map ekinh steps) | _ => None end) /\
  (forall kb Ha, kb <> 0%R -> get_temperature_cell parse kb Ha (Some lines) = Some (match k with VariableCell => Some (map (fun s => ekinh s * Ha * 2 / (9 * kb))%R steps) | _ => None end)) /\
  Cpmd.get_econst parse (Some lines) = Some (Some (map (match k with Lanczos => eks | _ => eham end) steps)).
Proof.
  intros T F H L. assert (E := energies_read k rows lines steps T F H L).
  assert (KE : get_ekin_cell parse (Some lines) = Some (match k with VariableCell => Some (map ekinh steps) | _ => None end)) by (unfold get_ekin_cell; rewrite E; destruct k; reflexivity).
  split; [unfold Cpmd.get_temperature; rewrite E; destruct k; reflexivity|]. split; [unfold Cpmd.get_etot; rewrite E; destruct k; reflexivity|]. split; [unfold Cpmd.get_ekin; rewrite E; destruct k; reflexivity|].
  split; [unfold get_ekin_elec; rewrite E; destruct k; reflexivity|]. split; [exact KE|]. split.
  - intros kb Ha NZ. unfold get_temperature_cell. rewrite KE. destruct k; [|reflexivity|reflexivity]. f_equal. f_equal. rewrite map_map. apply map_ext. intros s. field. exact NZ.
  - unfold Cpmd.get_econst. assert (EH := E Eham). assert (EK := E Eks). unfold Cpmd.get_etot. rewrite EK. unfold energy in EH, EK. destruct (energies parse (Some lines)) as [[d|]|]; [|destruct k; discriminate EK|discriminate EH]. injection EH as ->. destruct k; reflexivity.
Qed.
(** ECLASSIC is the energy of the ions with their kinetic energy, EKS + K. It is returned as the
    kinetic energy. *)
Lemma shift_same (a b : list R) : length a = length b -> map (fun p => fst p + snd p)%R (combine a b) = a -> forall x, In x b -> x = 0%R.
Proof. revert b. induction a as [|x a IH]; intros [|y b] L E z I; try discriminate L; [destruct I|]. cbn [combine map fst snd] in E. injection E as E1 E2. destruct I as [<- |I]; [lra|]. apply (IH b); [cbn in L; lia|exact E2|exact I]. Qed.
Theorem C87_ekin_refuted k rows lines steps (ions : step -> R) s : Forall2 table_row lines rows -> Forall (fun r => length r = match k with VariableCell => 9 | FixedCell => 8 | Lanczos => 6 end) rows ->
  reads2 parse rows (map (columns k) steps) -> 2 <= length steps -> (forall s, In s steps -> eclassic s = eks s + ions s)%R -> In s steps -> eks s <> 0%R ->
  Cpmd.get_ekin parse (Some lines) = Some (Some (map (fun s => ions s + eks s)%R steps)) /\ Cpmd.get_ekin parse (Some lines) <> Some (Some (map ions steps)).
Proof.
  intros T F H L C I NZ. destruct (C87_energies k rows lines steps T F H L) as (_ & _ & E & _). rewrite E. split.
  - f_equal. f_equal. apply map_ext_in. intros x J. rewrite (C x J). lra.
  - intros X. injection X as X. apply NZ. clear E T F H L NZ. induction steps as [|x steps IH]; [destruct I|]. cbn [map] in X. injection X as X1 X2. destruct I as [<- |I]; [rewrite (C x) in X1 by (now left); lra|]. apply IH; [intros y J; apply C; now right|exact I|exact X2].
Qed.
(** Runs with Lanczos diagonalisation: what is conserved is ECLASSIC, but "econst" is EKS. *)
Theorem C87_econst_refuted rows lines steps (ions : step -> R) s c : Forall2 table_row lines rows -> Forall (fun r => length r = 6) rows ->
  reads2 parse rows (map (columns Lanczos) steps) -> 2 <= length steps -> (forall s, In s steps -> eclassic s = c /\ c = eks s + ions s)%R -> In s steps -> ions s <> 0%R ->
  Cpmd.get_econst parse (Some lines) = Some (Some (map (fun s => c - ions s)%R steps)) /\ Cpmd.get_econst parse (Some lines) <> Some (Some (map eclassic steps)).
Proof.
  intros T F H L C I NZ. destruct (C87_energies Lanczos rows lines steps T F H L) as (_ & _ & _ & _ & _ & _ & E). rewrite E. split.
  - f_equal. f_equal. apply map_ext_in. intros x J. destruct (C x J). lra.
  - intros X. injection X as X. apply NZ. clear E T F H L NZ. induction steps as [|x steps IH]; [destruct I|]. cbn [map] in X. injection X as X1 X2. destruct I as [<- |I]; [destruct (C x) as [C1 C2]; [now left|]; lra|]. apply IH; [intros y J; apply C; now right|exact I|exact X2].
Qed.
(** A run of one step, or a file with another number of columns: the parser raises. *)
Theorem C87_one_step_refuted width row lines vals key : width <> 0 -> Forall2 table_row lines [row] -> length row = width -> reads2 parse [row] vals -> energy parse key (Some lines) = None.
Proof. intros W T F H. unfold energy, energies. now rewrite (table_one parse width row lines vals W T F H). Qed.
Theorem C87_columns width rows lines vals key : width <> 0 -> ~ In width [6; 8; 9] -> Forall2 table_row lines rows -> Forall (fun r => length r = width) rows -> reads2 parse rows vals -> energy parse key (Some lines) = None.
Proof.
  intros W N T F H. unfold energy, energies. destruct (le_lt_dec 2 (length vals)) as [L|L].
  - rewrite (table_plain parse width rows lines vals W T F H L). assert (FV := reads_shape parse (fun k => k = width) _ _ H F). destruct vals as [|v vals]; [cbn in L; lia|]. cbn [hd]. inversion FV as [|? ? LV _]; subst.
    destruct (order (length v)) eqn:O; [|reflexivity]. exfalso. apply N. cbn. destruct (length v) as [|[|[|[|[|[|[|[|[|[|]]]]]]]]]]; try discriminate O; tauto.
  - destruct rows as [|r [|r2 rows]].
    + inversion T; subst. inversion H; subst. reflexivity.
    + now rewrite (table_one parse width r lines vals W T ltac:(now apply Forall_inv in F) H).
    + rewrite <- (f2_len H) in L. cbn in L. lia.
Qed.
(** ** TRAJECTORY and FTRAJECTORY *)
Lemma traj_read n nf steps rows lines : n <> 0 -> steps <> [] -> 2 <= n * length steps -> traj_file rows lines -> reads2 parse rows (map arow_numbers (concat steps)) -> Forall (fun s => length s = n /\ Forall (arow_ok nf) s) steps ->
  let nlines := length (List.filter (fun l => negb (contains s_new l)) lines) in
  nlines mod n = 0 /\ read3 parse (nlines / n) n (7 + nf) lines = Some (map (map arow_numbers) steps).
Proof.
  intros PN NE L2 T H F. cbv zeta. rewrite (traj_count rows lines T).
  assert (LC : length (concat steps) = length steps * n). { clear - F. induction F as [|s steps (L & _) _ IH]; [reflexivity|]. cbn [concat length]. rewrite app_length, IH, L. lia. }
  assert (LR : length rows = length steps * n) by (rewrite (f2_len H), map_length; exact LC).
  rewrite LR. split; [apply Nat.mod_mul; exact PN|]. rewrite Nat.div_mul by exact PN. unfold read3.
  assert (WV : Forall (fun r => length r = 7 + nf) (map arow_numbers (concat steps))).
  { apply Forall_forall. intros r I. apply in_map_iff in I. destruct I as (a & <- & I). apply in_concat in I. destruct I as (s & I1 & I2). rewrite Forall_forall in F. destruct (F s I1) as [_ G]. rewrite Forall_forall in G. destruct (G a I2) as (A & B & C). unfold arow_numbers. cbn [length]. rewrite !app_length, A, B, C. lia. }
  assert (WR : Forall (fun r => length r = 7 + nf) rows).
  { clear - H WV. revert WV. induction H as [|r v rows vals X _ IH]; intros WV; constructor; inversion WV; subst; [rewrite (f2_len X); assumption|auto]. }
  rewrite (traj_load parse rows lines _ (7 + nf) ltac:(lia) T WR H). rewrite map_length, LC.
  replace (1 <? length steps * n) with true by (symmetry; apply Nat.ltb_lt; lia). rewrite (Nat.mul_comm n), Nat.eqb_refl. cbn [andb].
  replace (length (hd [] (map arow_numbers (concat steps)))) with (7 + nf).
  - rewrite Nat.eqb_refl. f_equal. rewrite concat_map. rewrite <- (map_length (map arow_numbers) steps). apply chunk_concat. apply Forall_forall. intros x I. apply in_map_iff in I. destruct I as (s & <- & I). rewrite map_length. rewrite Forall_forall in F. now apply F.
  - destruct (map arow_numbers (concat steps)) as [|v vs] eqn:E; [apply (f_equal (@length _)) in E; rewrite map_length, LC in E; cbn in E; lia|]. cbn [hd]. symmetry. rewrite Forall_forall in WV. apply WV. now left.
Qed.
Lemma part_x nf s : arow_ok nf s -> firstn 3 (skipn 1 (arow_numbers s)) = a_x s /\ firstn 3 (skipn 4 (arow_numbers s)) = a_v s /\ skipn 7 (arow_numbers s) = a_f s.
Proof. intros (A & B & _). unfold arow_numbers. destruct s as [i x v f]. cbn [a_step a_x a_v a_f] in *. destruct x as [|x1 [|x2 [|x3 [|]]]]; try discriminate A. destruct v as [|v1 [|v2 [|v3 [|]]]]; try discriminate B. repeat split. Qed.
Lemma parts nf steps (g : list R -> list R) (h : arow -> list R) : (forall s, arow_ok nf s -> g (arow_numbers s) = h s) -> Forall (fun s => Forall (arow_ok nf) s) steps -> map (map g) (map (map arow_numbers) steps) = map (map h) steps.
Proof. intros E F. rewrite map_map. apply map_ext_in. intros s I. rewrite map_map. apply map_ext_in. intros a J. apply E. rewrite Forall_forall in F. specialize (F s I). rewrite Forall_forall in F. now apply F. Qed.
(** Every atom at every step, in the order of the file; lines written by restarts do not matter. *)
Theorem C87_trajectory n steps rows lines : n <> 0 -> 2 <= n * length steps -> traj_file rows lines -> reads2 parse rows (map arow_numbers (concat steps)) -> Forall (fun s => length s = n /\ Forall (arow_ok 0) s) steps ->
  Cpmd.get_coords parse (Some n) None (Some lines) = Some (Some (map (map a_x) steps)) /\ get_velocity parse (Some n) None (Some lines) = Some (Some (map (map a_v) steps)) /\
  Cpmd.get_forces parse (Some n) None (Some lines) = Some None.
Proof.
  intros PN L T H F. assert (NE : steps <> []) by (destruct steps; [cbn in L; lia|discriminate]). destruct (traj_read n 0 steps rows lines PN NE L T H F) as [M R3]. cbn [Nat.add] in R3.
  assert (F2 : Forall (fun s => Forall (arow_ok 0) s) steps) by (eapply Forall_impl; [|exact F]; intros s [_ A]; exact A).
  unfold Cpmd.get_coords, get_velocity, Cpmd.get_forces, trajectory. destruct (Nat.eqb_spec n 0); [congruence|]. rewrite M. cbn [Nat.eqb negb]. rewrite R3. cbn [t_coords t_velocity t_forces].
  rewrite (parts 0 steps _ a_x) by (assumption || (intros s A; apply (part_x 0 s A))). rewrite (parts 0 steps _ a_v) by (assumption || (intros s A; apply (part_x 0 s A))). repeat split.
Qed.
(** FTRAJECTORY wins, and has the forces. *)
Theorem C87_forces n steps rows lines tr : n <> 0 -> 2 <= n * length steps -> traj_file rows lines -> reads2 parse rows (map arow_numbers (concat steps)) -> Forall (fun s => length s = n /\ Forall (arow_ok 3) s) steps ->
  Cpmd.get_coords parse (Some n) (Some lines) tr = Some (Some (map (map a_x) steps)) /\ get_velocity parse (Some n) (Some lines) tr = Some (Some (map (map a_v) steps)) /\
  Cpmd.get_forces parse (Some n) (Some lines) tr = Some (Some (map (map a_f) steps)).
Proof.
  intros PN L T H F. assert (NE : steps <> []) by (destruct steps; [cbn in L; lia|discriminate]). destruct (traj_read n 3 steps rows lines PN NE L T H F) as [M R3]. cbn [Nat.add] in R3.
  assert (F2 : Forall (fun s => Forall (arow_ok 3) s) steps) by (eapply Forall_impl; [|exact F]; intros s [_ A]; exact A).
  unfold Cpmd.get_coords, get_velocity, Cpmd.get_forces, trajectory. destruct (Nat.eqb_spec n 0); [congruence|]. rewrite M. cbn [Nat.eqb negb]. rewrite R3. cbn [t_coords t_velocity t_forces].
  rewrite (parts 3 steps _ a_x) by (assumption || (intros s A; apply (part_x 3 s A))). rewrite (parts 3 steps _ a_v) by (assumption || (intros s A; apply (part_x 3 s A))). rewrite (parts 3 steps _ a_f) by (assumption || (intros s A; apply (part_x 3 s A))). repeat split.
Qed.
(** A file that ends inside a step is not read. *)
Theorem C87_cut n rows lines : n <> 0 -> length rows mod n <> 0 -> traj_file rows lines -> trajectory parse (Some n) None (Some lines) = None /\ forall tr, trajectory parse (Some n) (Some lines) tr = None.
Proof.
  intros PN M T. unfold trajectory. rewrite (traj_count rows lines T). destruct (Nat.eqb_spec n 0); [congruence|]. destruct (Nat.eqb_spec (length rows mod n) 0); [congruence|]. now split.
Qed.
(** One atom and one step: not read. *)
Theorem C87_single_refuted row lines vals : row <> [] -> traj_file [row] lines -> reads2 parse [row] vals -> trajectory parse (Some 1) None (Some lines) = None.
Proof.
  intros NE T H. unfold trajectory. rewrite (traj_count _ _ T). cbn [length Nat.eqb]. unfold read3. destruct row as [|x row]; [congruence|]. rewrite (traj_load parse [x :: row] lines vals (length (x :: row)) ltac:(discriminate) T ltac:(apply Forall_cons; [reflexivity|apply Forall_nil]) H).
  rewrite <- (f2_len H). reflexivity.
Qed.
(** ** CELL and STRESS *)
Lemma with_more a b l : with_text (a ++ b) l -> with_text a l.
Proof. intros (p & q & ->). exists p, (b ++ q). now rewrite !app_assoc. Qed.
Lemma with_word a w b l : with_text (a ++ w ++ b) l -> with_text w l.
Proof. intros (p & q & ->). exists (p ++ a), (b ++ q). now rewrite <- !app_assoc. Qed.
Theorem C87_cell ncols steps lines vals : 3 <= ncols -> steps <> [] -> block_file (text "CELL PARAMETERS") (text "CELL") ncols steps lines -> reads3 parse steps vals ->
  Cpmd.get_cell parse (Some lines) = Some (Some (map (map (firstn 3)) vals)).
Proof.
  intros NC NE (lss & F & ->) H. unfold Cpmd.get_cell.
  assert (KW : forall l, with_text (text "CELL PARAMETERS") l -> with_text (text "CELL") l) by (intros l; apply (with_more (text "CELL") (text " PARAMETERS"))).
  rewrite (blocks_count (text "CELL PARAMETERS") (text "CELL") (text "CELL PARAMETERS") ncols steps lss (fun _ x => x) KW F).
  assert (SH : Forall (fun t : list (list pstr) => length t = 3 /\ Forall (fun r => length r = ncols) t) steps).
  { clear - F. induction F as [|rows ls steps lss (h & rest & _ & _ & L & G) _ IH]; constructor; [|exact IH]. split; [exact L|]. clear - G. induction G as [|l r rest rows (_ & E & _) _ IH]; constructor; assumption. }
  replace (length (split_ws [] _)) with ncols.
  - rewrite (cols_ok parse 3 ncols _ steps vals NE ltac:(discriminate) ltac:(lia) (blocks_lines _ _ KW ncols steps lss F false) H SH). reflexivity.
  - destruct F as [|rows ls steps lss (h & rest & -> & _ & L & G) _]; [congruence|]. destruct rows as [|r rows]; [discriminate L|]. inversion G as [|l ? rest2 ? (W & E & _) _]; subst. cbn [concat app firstn]. unfold tail_n. cbn [length Nat.sub skipn hd]. reflexivity.
Qed.
Theorem C87_stress steps lines vals : steps <> [] -> block_file (text "TOTAL STRESS TENSOR") (text "TOTAL") 3 steps lines -> reads3 parse steps vals ->
  Cpmd.get_stress parse (Some lines) = Some (Some vals).
Proof.
  intros NE (lss & F & ->) H. unfold Cpmd.get_stress.
  assert (KW : forall l, with_text (text "TOTAL STRESS TENSOR") l -> with_text (text "TOTAL") l) by (intros l; apply (with_more (text "TOTAL") (text " STRESS TENSOR"))).
  rewrite (blocks_count (text "TOTAL STRESS TENSOR") (text "TOTAL") (text "TOTAL STRESS") 3 steps lss (with_more (text "TOTAL STRESS") (text " TENSOR")) (with_more (text "TOTAL") (text " STRESS")) F).
  assert (SH : Forall (fun t : list (list pstr) => length t = 3 /\ Forall (fun r => length r = 3) t) steps).
  { clear - F. induction F as [|rows ls steps lss (h & rest & _ & _ & L & G) _ IH]; constructor; [|exact IH]. split; [exact L|]. clear - G. induction G as [|l r rest rows (_ & E & _) _ IH]; constructor; assumption. }
  now rewrite (cols_ok parse 3 3 _ steps vals NE ltac:(discriminate) ltac:(discriminate) (blocks_lines _ _ KW 3 steps lss F false) H SH).
Qed.
(** A line between two blocks, as restarts write it to TRAJECTORY: CELL and STRESS are not read. *)
Theorem C87_gap_refuted : parse (text "--") = None ->
  (forall ncols steps lss l mid h rest, steps <> [] -> Forall2 (block_lines (text "CELL PARAMETERS") (text "CELL") ncols) steps lss -> ~ with_text (text "CELL PARAMETERS") l -> with_text (text "CELL PARAMETERS") h ->
     Cpmd.get_cell parse (Some (concat lss ++ l :: mid ++ h :: rest)) = None) /\
  (forall steps lss l mid h rest, steps <> [] -> Forall2 (block_lines (text "TOTAL STRESS TENSOR") (text "TOTAL") 3) steps lss -> ~ with_text (text "TOTAL STRESS TENSOR") l -> with_text (text "TOTAL STRESS TENSOR") h ->
     Cpmd.get_stress parse (Some (concat lss ++ l :: mid ++ h :: rest)) = None).
Proof.
  intros P. assert (G : forall w n b c ls, existsb (fun p => contains p (text "--")) [w] = false -> In (text "--") ls -> traj_cols parse n b c (egrep_v [w] ls) = None).
  { intros w n b c ls E I. assert (J : In (text "--") (egrep_v [w] ls)) by (apply filter_In; split; [exact I|]; now rewrite E). unfold traj_cols.
    replace (forallb blank_line (egrep_v [w] ls)) with false; [now rewrite (from_dashes parse _ P J)|]. symmetry. destruct (forallb _ _) eqn:Q; [|reflexivity]. rewrite forallb_forall in Q. specialize (Q _ J). discriminate Q. }
  split.
  - intros ncols steps lss l mid h rest NE F NL H. unfold Cpmd.get_cell. rewrite G; [reflexivity|reflexivity|]. apply (dashes_gap _ (text "CELL") ltac:(intros x; apply (with_more (text "CELL") (text " PARAMETERS"))) ncols steps); assumption.
  - intros steps lss l mid h rest NE F NL H. unfold Cpmd.get_stress. rewrite G; [reflexivity|reflexivity|]. apply (dashes_gap _ (text "TOTAL") ltac:(intros x; apply (with_more (text "TOTAL") (text " STRESS TENSOR"))) 3 steps); assumption.
Qed.
(** Files that do not exist: nothing; but without GEOMETRY the trajectory raises. *)
Theorem C87_missing : Cpmd.get_natoms None = None /\ (forall n, scale_file parse n None = Some None) /\ (forall key, energy parse key None = Some None) /\ Cpmd.get_econst parse None = Some None /\
  (forall n, trajectory parse (Some n) None None = Some None) /\ (forall f t, trajectory parse None f t = None) /\ Cpmd.get_cell parse None = Some None /\ Cpmd.get_stress parse None = Some None.
Proof. repeat split. Qed.
End C87.

(** ** Examples *)
(** numbers without a point, so that they can be computed here *)
Definition pz (t : pstr) : option R := match read_int t with Some z => Some (IZR z) | None => None end.
Lemma rd1 ws zs : map read_int ws = map Some zs -> reads1 pz ws (map IZR zs).
Proof. revert ws. induction zs as [|z zs IH]; intros [|w ws] E; try discriminate E; [constructor|]. cbn [map] in *. injection E as E1 E2. constructor; [unfold reads, pz; now rewrite E1|now apply IH]. Qed.
Lemma rd2 ws zs : map (map read_int) ws = map (map Some) zs -> reads2 pz ws (map (map IZR) zs).
Proof. revert ws. induction zs as [|z zs IH]; intros [|w ws] E; try discriminate E; [constructor|]. cbn [map] in *. injection E as E1 E2. constructor; [now apply rd1|now apply IH]. Qed.
Lemma rd3 ws zs : map (map (map read_int)) ws = map (map (map Some)) zs -> reads3 pz ws (map (map (map IZR)) zs).
Proof. revert ws. induction zs as [|z zs IH]; intros [|w ws] E; try discriminate E; [constructor|]. cbn [map] in *. injection E as E1 E2. constructor; [now apply rd2|now apply IH]. Qed.
Ltac notext := let HH := fresh in intros HH; apply text_iff in HH; vm_compute in HH; discriminate HH.
Ltac chars := let c := fresh in let I := fresh in intros c I; cbn in I; repeat (destruct I as [<- |I]; [first [reflexivity | split; [reflexivity|discriminate] | discriminate | idtac]|]); try destruct I.
Definition demo_geo : list pstr := map text [" -1.5 3.2 -0.03 -9.0 1.7 2.5"; "2.7 1.5 4.72 2.0 -8.4 -2"; "5.6 -2.9E-002 -1.2E-002"]%string.
Fixpoint joinw (ws : list pstr) : pstr := match ws with [] => [] | [w] => w | w :: t => w ++ " "%char :: joinw t end.
Lemma sp_line ws g : spaces g -> Forall bare ws -> spaced ws (g ++ joinw ws).
Proof.
  intros G F. revert g G. induction F as [|w ws B F IH]; intros g G; [cbn [joinw]; rewrite app_nil_r; now apply sp_nil|]. destruct ws as [|w2 ws]; [now apply sp_one|].
  change (joinw (w :: w2 :: ws)) with (w ++ " "%char :: joinw (w2 :: ws)). apply sp_cons; [exact G|exact B|]. apply (IH []). intros c [].
Qed.
Example C87_natoms_case : Cpmd.get_natoms (Some demo_geo) = Some 2.
Proof.
  assert (B : forall ws, forallb (fun w => negb (match w with [] => true | _ => false end) && forallb (fun c => negb (is_space c)) w) ws = true -> Forall bare ws).
  { intros ws E. apply Forall_forall. intros w I. rewrite forallb_forall in E. specialize (E w I). apply andb_true_iff in E. destruct E as [E1 E2]. rewrite forallb_forall in E2. split; [destruct w; [discriminate E1|discriminate]|]. intros c J. specialize (E2 c J). now destruct (is_space c). }
  assert (D : forall ws, forallb (fun w => existsb (Ascii.eqb (last w " "%char)) (text "0123456789")) ws = true -> Forall ends_in_digit ws).
  { intros ws E. apply Forall_forall. intros w I. rewrite forallb_forall in E. specialize (E w I). apply existsb_exists in E. destruct E as (d & J & E). apply Ascii.eqb_eq in E. exists (removelast w), d. split; [|exact J].
    rewrite <- E. apply app_removelast_last. intros ->. cbn [last] in E. rewrite <- E in J. cbn in J. intuition discriminate. }
  apply C87_natoms. apply geo_a; [|apply geo_a; [|apply geo_o; [|apply geo_nil]]].
  - exists (words (nth 0 demo_geo [])). split; [apply (sp_line (words (nth 0 demo_geo [])) (text " ")); [chars|apply B; vm_compute; reflexivity]|]. split; [reflexivity|].
    apply D. vm_compute. reflexivity.
  - exists (words (nth 1 demo_geo [])). split; [apply (sp_line (words (nth 1 demo_geo [])) []); [chars|apply B; vm_compute; reflexivity]|]. split; [reflexivity|].
    apply D. vm_compute. reflexivity.
  - exists (words (nth 2 demo_geo [])). split; [apply (sp_line (words (nth 2 demo_geo [])) []); [chars|apply B; vm_compute; reflexivity]|]. apply Nat.leb_le; vm_compute; reflexivity.
Qed.
Definition demo_scale : list pstr := map text ["CELL MATRIX (BOHR)"; "  5 -1 0"; " -3 4 0"; "  0 0 9"; ""; "SCALED ATOMIC COORDINATES"; "  0 3 -1   Al    1"; " 2 1 4  N   2"]%string.
Example C87_scale_case : scf_cell pz (Some 2) (Some demo_scale) = Some (Some [[5; -1; 0]; [-3; 4; 0]; [0; 0; 9]]%R) /\ get_coords_frac pz (Some 2) (Some demo_scale) = Some (Some [[0; 3; -1]; [2; 1; 4]]%R) /\
  Cpmd.get_symbols pz (Some 2) (Some demo_scale) = Some (Some [text "Al"; text "N"]).
Proof.
  apply (C87_scale pz 2 demo_scale (firstn 3 (skipn 1 demo_scale)) _ (skipn 6 demo_scale) [(text "Al", map text ["0"; "3"; "-1"]%string); (text "N", map text ["2"; "1"; "4"]%string)]); [discriminate| | | | | |].
  - exists [], (hd [] demo_scale), (skipn 4 demo_scale). split; [reflexivity|]. split; [exists [], []; reflexivity|]. split; [reflexivity|]. intros l I. cbn [demo_scale map skipn firstn app] in I. repeat (destruct I as [<- |I]; [notext|]). destruct I.
  - refine (rd2 _ [[5; -1; 0]; [-3; 4; 0]; [0; 0; 9]]%Z _); vm_compute; reflexivity.
  - repeat (apply Forall_cons; [reflexivity|]); apply Forall_nil.
  - exists (firstn 5 demo_scale), (nth 5 demo_scale []), []. split; [reflexivity|]. split; [exists [], []; reflexivity|]. split; [reflexivity|]. intros l I. cbn [demo_scale map skipn firstn app] in I. repeat (destruct I as [<- |I]; [notext|]). destruct I.
  - apply Forall2_cons; [split; [reflexivity|exists (text "1"); reflexivity]|]. apply Forall2_cons; [split; [reflexivity|exists (text "2"); reflexivity]|apply Forall2_nil].
  - refine (rd2 _ [[0; 3; -1]; [2; 1; 4]]%Z _); vm_compute; reflexivity.
Qed.
Definition demo_out : list pstr := map text [" START"; "   ATOM          COORDINATES            GRADIENTS (-FORCES)"; "   1 Al  0 3 -1   7 8 9"; "   2 N  2 1 4   -7 -8 0"; ""]%string.
Example C87_gradients_case : scf_forces pz (Some 2) demo_out = Some (Some [[7; 8; 9]; [-7; -8; 0]]%R) /\ scf_forces pz (Some 2) demo_out <> Some (Some [[-7; -8; -9]; [7; 8; 0]]%R).
Proof.
  assert (B : last_block grad_head 2 demo_out (firstn 2 (skipn 2 demo_out))).
  { exists (firstn 1 demo_out), (nth 1 demo_out []), [[]]. split; [reflexivity|]. split; [|split; [reflexivity|]].
    - exists (text "   "), (text "          "), (text "            "), (text " (-FORCES)"). split; [split; [discriminate|chars]|]. split; [split; [discriminate|chars]|reflexivity].
    - intros l I. cbn [demo_out map skipn firstn app] in I. repeat (destruct I as [<- |I]; [let HH := fresh in intros HH; apply is_grad_iff in HH; vm_compute in HH; discriminate HH|]). destruct I. }
  assert (F : Forall2 grad_row (firstn 2 (skipn 2 demo_out)) (combine [map text ["0"; "3"; "-1"]%string; map text ["2"; "1"; "4"]%string] [map text ["7"; "8"; "9"]%string; map text ["-7"; "-8"; "0"]%string])).
  { apply Forall2_cons; [split; [reflexivity|]; split; [reflexivity|]; exists (text "1"), (text "Al"); reflexivity|]. apply Forall2_cons; [split; [reflexivity|]; split; [reflexivity|]; exists (text "2"), (text "N"); reflexivity|apply Forall2_nil]. }
  assert (HX : reads2 pz [map text ["0"; "3"; "-1"]%string; map text ["2"; "1"; "4"]%string] (map (map IZR) [[0; 3; -1]; [2; 1; 4]]%Z)) by (apply rd2; vm_compute; reflexivity).
  assert (HG : reads2 pz [map text ["7"; "8"; "9"]%string; map text ["-7"; "-8"; "0"]%string] [[7; 8; 9]; [-7; -8; 0]]%R) by (refine (rd2 _ [[7; 8; 9]; [-7; -8; 0]]%Z _); vm_compute; reflexivity).
  split; [exact (C87_scf_gradients pz 2 demo_out _ _ _ _ _ ltac:(discriminate) B F eq_refl eq_refl HX HG)|].
  assert (HN : reads2 pz [map text ["7"; "8"; "9"]%string; map text ["-7"; "-8"; "0"]%string] (map (map Ropp) [[-7; -8; -9]; [7; 8; 0]]%R)).
  { replace (map (map Ropp) [[-7; -8; -9]; [7; 8; 0]]%R) with [[7; 8; 9]; [-7; -8; 0]]%R; [exact HG|]. cbn [map]. repeat (f_equal; try lra). }
  apply (C87_force_sign_refuted pz 2 demo_out _ _ _ _ _ [-7; -8; -9]%R (-7)%R ltac:(discriminate) B F eq_refl eq_refl HX HN); [now left|now left|lra].
Qed.
Definition demo_ener : list pstr := map text ["  1  300  -24  -20  3   1"; "  2  310  -25  -20  4   1"]%string.
Definition demo_steps : list step := [Step 1 0 0 300 (-24) (-20) 0 3 1; Step 2 0 0 310 (-25) (-20) 0 4 1].
Lemma demo_rows : Forall2 table_row demo_ener (map words demo_ener).
Proof. apply Forall2_cons; [|apply Forall2_cons; [|apply Forall2_nil]]; (split; [cbn; intuition discriminate|reflexivity]). Qed.
Example C87_energies_case : Cpmd.get_temperature pz (Some demo_ener) = Some (Some [300; 310]%R) /\ Cpmd.get_ekin pz (Some demo_ener) <> Some (Some [-20 - -24; -20 - -25]%R) /\ Cpmd.get_econst pz (Some demo_ener) <> Some (Some [-20; -20]%R).
Proof.
  assert (H : reads2 pz (map words demo_ener) (map (columns Lanczos) demo_steps)) by (refine (rd2 _ [[1; 300; -24; -20; 3; 1]; [2; 310; -25; -20; 4; 1]]%Z _); vm_compute; reflexivity).
  assert (W : Forall (fun r : list pstr => length r = 6) (map words demo_ener)) by (repeat (apply Forall_cons; [reflexivity|]); apply Forall_nil).
  split; [exact (proj1 (C87_energies pz Lanczos _ _ demo_steps demo_rows W H (le_n 2)))|]. split.
  - refine (proj2 (C87_ekin_refuted pz Lanczos _ _ demo_steps (fun s => eclassic s - eks s)%R (Step 1 0 0 300 (-24) (-20) 0 3 1) demo_rows W H (le_n 2) _ (or_introl eq_refl) _)); [intros s _; lra|cbn; lra].
  - refine (proj2 (C87_econst_refuted pz _ _ demo_steps (fun s => eclassic s - eks s)%R (Step 1 0 0 300 (-24) (-20) 0 3 1) (-20)%R demo_rows W H (le_n 2) _ (or_introl eq_refl) _)); [intros s [<- |[<- |[]]]; cbn; lra|cbn; lra].
Qed.
Example C87_one_case : energy pz Eks (Some (firstn 1 demo_ener)) = None /\ energy pz Eks (Some [text "1 2 3"; text "4 5 6"]) = None.
Proof.
  split.
  - apply (C87_one_step_refuted pz 6 (words (hd [] demo_ener)) _ (map (map IZR) [[1; 300; -24; -20; 3; 1]]%Z)); [discriminate| |reflexivity|apply rd2; vm_compute; reflexivity].
    apply Forall2_cons; [|apply Forall2_nil]. split; [cbn; intuition discriminate|reflexivity].
  - apply (C87_columns pz 3 (map words [text "1 2 3"; text "4 5 6"]) _ (map (map IZR) [[1; 2; 3]; [4; 5; 6]]%Z)); [discriminate|cbn; lia| |repeat (apply Forall_cons; [reflexivity|]); apply Forall_nil|apply rd2; vm_compute; reflexivity].
    apply Forall2_cons; [|apply Forall2_cons; [|apply Forall2_nil]]; (split; [cbn; intuition discriminate|reflexivity]).
Qed.
(** two atoms, two steps, a restart between them *)
Definition demo_traj : list pstr := map text [" 1 0 3 -1 2 4 5"; " 1 7 7 7 8 8 8"; "  <<<<<<  NEW DATA  >>>>>>"; " 2 1 3 -1 2 4 6"; " 2 7 7 9 8 8 9"]%string.
Definition demo_atoms : list (list arow) := [[ARow 1 [0; 3; -1] [2; 4; 5] []; ARow 1 [7; 7; 7] [8; 8; 8] []]; [ARow 2 [1; 3; -1] [2; 4; 6] []; ARow 2 [7; 7; 9] [8; 8; 9] []]]%R.
Lemma demo_traj_ok : traj_file (map words (firstn 2 demo_traj ++ skipn 3 demo_traj)) demo_traj.
Proof.
  apply tf_row; [reflexivity|discriminate|notext|]. apply tf_row; [reflexivity|discriminate|notext|]. apply (tf_new (text "  ") (text "<<  NEW DATA  >>>>>>")); [chars|].
  apply tf_row; [reflexivity|discriminate|notext|]. apply tf_row; [reflexivity|discriminate|notext|]. apply tf_nil.
Qed.
Example C87_trajectory_case : Cpmd.get_coords pz (Some 2) None (Some demo_traj) = Some (Some [[[0; 3; -1]; [7; 7; 7]]; [[1; 3; -1]; [7; 7; 9]]]%R) /\ get_velocity pz (Some 2) None (Some demo_traj) = Some (Some [[[2; 4; 5]; [8; 8; 8]]; [[2; 4; 6]; [8; 8; 9]]]%R) /\
  trajectory pz (Some 3) None (Some demo_traj) = None.
Proof.
  assert (H : reads2 pz (map words (firstn 2 demo_traj ++ skipn 3 demo_traj)) (map arow_numbers (concat demo_atoms))) by (refine (rd2 _ [[1; 0; 3; -1; 2; 4; 5]; [1; 7; 7; 7; 8; 8; 8]; [2; 1; 3; -1; 2; 4; 6]; [2; 7; 7; 9; 8; 8; 9]]%Z _); vm_compute; reflexivity).
  destruct (C87_trajectory pz 2 demo_atoms _ _ ltac:(discriminate) ltac:(cbn; lia) demo_traj_ok H) as (A & B & _); [repeat (apply Forall_cons; [split; [reflexivity|]; repeat (apply Forall_cons; [repeat split|]); apply Forall_nil|]); apply Forall_nil|].
  split; [exact A|]. split; [exact B|]. refine (proj1 (C87_cut pz 3 _ _ _ _ demo_traj_ok)); discriminate.
Qed.
Definition demo_ftraj : list pstr := map text [" 1 0 3 -1 2 4 5 1 2 3"; " 2 7 7 7 8 8 8 4 5 6"]%string.
Example C87_forces_case : Cpmd.get_forces pz (Some 1) (Some demo_ftraj) (Some demo_traj) = Some (Some [[[1; 2; 3]]; [[4; 5; 6]]]%R) /\ trajectory pz (Some 1) None (Some [text "1 0 3 -1 2 4 5"]) = None.
Proof.
  split.
  - apply (C87_forces pz 1 [[ARow 1 [0; 3; -1] [2; 4; 5] [1; 2; 3]]; [ARow 2 [7; 7; 7] [8; 8; 8] [4; 5; 6]]]%R (map words demo_ftraj) demo_ftraj (Some demo_traj)); [discriminate|cbn; lia| | |].
    + apply tf_row; [reflexivity|discriminate|notext|]. apply tf_row; [reflexivity|discriminate|notext|]. apply tf_nil.
    + refine (rd2 _ [[1; 0; 3; -1; 2; 4; 5; 1; 2; 3]; [2; 7; 7; 7; 8; 8; 8; 4; 5; 6]]%Z _); vm_compute; reflexivity.
    + repeat (apply Forall_cons; [split; [reflexivity|]; repeat (apply Forall_cons; [repeat split|]); apply Forall_nil|]); apply Forall_nil.
  - apply (C87_single_refuted pz (words (text "1 0 3 -1 2 4 5")) _ (map (map IZR) [[1; 0; 3; -1; 2; 4; 5]]%Z)); [discriminate| |apply rd2; vm_compute; reflexivity]. apply tf_row; [reflexivity|discriminate|notext|]. apply tf_nil.
Qed.
Definition demo_cell : list pstr := map text ["   CELL PARAMETERS at Step:           1"; " 5 0 0 1 0 0"; " -3 4 0 0 1 0"; " 0 0 9 0 0 1"; "   CELL PARAMETERS at Step:           2"; " 6 0 0 1 0 0"; " -3 4 0 0 1 0"; " 0 0 9 0 0 1"]%string.
Lemma demo_blocks : Forall2 (block_lines (text "CELL PARAMETERS") (text "CELL") 6) [map words (firstn 3 (skipn 1 demo_cell)); map words (skipn 5 demo_cell)] [firstn 4 demo_cell; skipn 4 demo_cell].
Proof.
  apply Forall2_cons; [|apply Forall2_cons; [|apply Forall2_nil]]; (eexists; eexists; split; [reflexivity|]; split; [eexists (text "   "), _; reflexivity|]; split; [reflexivity|]);
    repeat (apply Forall2_cons; [split; [reflexivity|]; split; [reflexivity|notext]|]); apply Forall2_nil.
Qed.
Example C87_cell_case : Cpmd.get_cell pz (Some demo_cell) = Some (Some [[[5; 0; 0]; [-3; 4; 0]; [0; 0; 9]]; [[6; 0; 0]; [-3; 4; 0]; [0; 0; 9]]]%R) /\
  Cpmd.get_cell pz (Some (demo_cell ++ text "  <<<<<<  NEW DATA  >>>>>>" :: demo_cell)) = None.
Proof.
  split.
  - refine (C87_cell pz 6 _ demo_cell _ ltac:(lia) _ (ex_intro _ _ (conj demo_blocks eq_refl)) (rd3 _ [[[5; 0; 0; 1; 0; 0]; [-3; 4; 0; 0; 1; 0]; [0; 0; 9; 0; 0; 1]]; [[6; 0; 0; 1; 0; 0]; [-3; 4; 0; 0; 1; 0]; [0; 0; 9; 0; 0; 1]]]%Z _)); [discriminate|vm_compute; reflexivity].
  - assert (P : pz (text "--") = None) by (vm_compute; reflexivity). refine (proj1 (C87_gap_refuted pz P) 6 _ _ _ [] (hd [] demo_cell) (tl demo_cell) _ demo_blocks _ _); [discriminate|notext|eexists (text "   "), _; reflexivity].
Qed.
Definition demo_stress : list pstr := map text ["   TOTAL STRESS TENSOR (kB): Step:           1"; " -64 -2 -1"; " -2 -66 0"; " -1 0 21"]%string.
Example C87_stress_case : Cpmd.get_stress pz (Some demo_stress) = Some (Some [[[-64; -2; -1]; [-2; -66; 0]; [-1; 0; 21]]]%R).
Proof.
  refine (C87_stress pz [map words (tl demo_stress)] demo_stress _ _ _ (rd3 _ [[[-64; -2; -1]; [-2; -66; 0]; [-1; 0; 21]]]%Z _)); [discriminate| |vm_compute; reflexivity].
  exists [demo_stress]. split; [|reflexivity]. apply Forall2_cons; [|apply Forall2_nil]. eexists; eexists; split; [reflexivity|]; split; [eexists (text "   "), _; reflexivity|]; split; [reflexivity|]. repeat (apply Forall2_cons; [split; [reflexivity|]; split; [reflexivity|notext]|]); apply Forall2_nil.
Qed.
Example C87_converged_case : scf_converged demo_out = true /\ scf_converged [text " ! BUT NO CONVERGENCE"] = false.
Proof. split; vm_compute; reflexivity. Qed.

Print Assumptions C87_natoms.
Print Assumptions C87_scale.
Print Assumptions C87_scf_stress.
Print Assumptions C87_scf_etot.
Print Assumptions C87_scf_gradients.
Print Assumptions C87_force_sign_refuted.
Print Assumptions C87_converged.
Print Assumptions C87_energies.
Print Assumptions C87_ekin_refuted.
Print Assumptions C87_econst_refuted.
Print Assumptions C87_one_step_refuted.
Print Assumptions C87_columns.
Print Assumptions C87_trajectory.
Print Assumptions C87_forces.
Print Assumptions C87_cut.
Print Assumptions C87_single_refuted.
Print Assumptions C87_cell.
Print Assumptions C87_stress.
Print Assumptions C87_gap_refuted.
Print Assumptions C87_missing.
