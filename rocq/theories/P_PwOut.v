(** C85: what the parsers of pw.x output files read. *)
From Coq Require Import Ascii String List Arith Bool Reals ZArith Lia Lra.
From Verif Require Import Comb CombProofs Template TemplateProofs ArrayIO ArrayIOProofs Grep GrepProofs Regex RegexProofs PdbProofs Lammps LammpsProofs PwOut PwOutSpec PwOutProofs.
Import ListNotations.
Local Open Scope list_scope.
Local Open Scope nat_scope.
Local Notation length := List.length.

(** ** Counting, rows *)
Lemma count_len {A} (sel : piece -> list A) m ps : (forall p, length (sel p) = match kind p with Some m' => if mark_dec m' m then 1 else 0 | None => 0 end) -> count m ps = length (flat_map sel ps).
Proof.
  intros H. unfold count. induction ps as [|p ps IH]; [reflexivity|]. cbn [List.filter flat_map]. rewrite app_length, <- IH, H. destruct (kind p) as [m'|]; [destruct (mark_dec m' m)|]; reflexivity.
Qed.
Lemma f2_awk (P : pstr -> list pstr -> Prop) f rest rows : (forall l x, P l x -> words (f l) = x) -> Forall2 P rest rows -> map words (map f rest) = rows.
Proof. intros H F. induction F as [|l x rest rows L _ IH]; [reflexivity|]. cbn [map]. now rewrite (H _ _ L), IH. Qed.
Lemma f2_data (P : pstr -> list pstr -> Prop) rest rows : (forall l x, P l x -> data l) -> Forall2 P rest rows -> Forall data rest.
Proof. intros H F. induction F as [|l x rest rows L _ IH]; constructor; [|exact IH]. now apply (H l x). Qed.
Lemma f2_three (P : pstr -> list pstr -> Prop) rest rows : (forall l x, P l x -> length x = 3) -> Forall2 P rest rows -> Forall (fun r => length r = 3) rows.
Proof. intros H F. induction F as [|l x rest rows L _ IH]; constructor; [|exact IH]. now apply (H l x). Qed.
Section FILE.
Variables (natoms : nat) (ps : list piece) (lss : list (list pstr)).
Hypothesis F : Forall2 (prints natoms) ps lss.
Lemma pos_tails : map words (map (awk [2; 3; 4]) (tails MPos (combine ps lss))) = concat (positions ps).
Proof.
  induction F as [|p ls qs mss H HF IH]; [|specialize (IH HF)]; [reflexivity|]. cbn [combine tails flat_map fst snd]. fold (tails MPos (combine qs mss)). rewrite !map_app, IH. cbn [positions flat_map]. fold (positions qs). rewrite concat_app. f_equal.
  destruct p; try reflexivity. destruct H as (h & rest & -> & _ & _ & _ & R). cbn. rewrite app_nil_r.
  apply (f2_awk pos_row); [|exact R]. intros l x (_ & sym & fl & L & W). apply (awk_slice _ [sym] x fl); [exact W|now rewrite L].
Qed.
Lemma stress_tails : map words (map (awk [4; 5; 6]) (tails MStress (combine ps lss))) = concat (stresses ps).
Proof.
  induction F as [|p ls qs mss H HF IH]; [|specialize (IH HF)]; [reflexivity|]. cbn [combine tails flat_map fst snd]. fold (tails MStress (combine qs mss)). rewrite !map_app, IH. cbn [stresses flat_map]. fold (stresses qs). rewrite concat_app. f_equal.
  destruct p; try reflexivity. destruct H as (h & rest & -> & _ & _ & R). cbn. rewrite app_nil_r.
  apply (f2_awk stress_row); [|exact R]. intros l x (_ & a & b & c & L & W). apply (awk_slice _ [a; b; c] x []); [now rewrite app_nil_r|now rewrite L].
Qed.
Lemma cell_tails : map words (tails MCell (combine ps lss)) = concat (cells ps).
Proof.
  induction F as [|p ls qs mss H HF IH]; [|specialize (IH HF)]; [reflexivity|]. cbn [combine tails flat_map fst snd]. fold (tails MCell (combine qs mss)). rewrite !map_app, IH. cbn [cells flat_map]. fold (cells qs). rewrite concat_app. f_equal.
  destruct p; try reflexivity. destruct H as (h & rest & -> & _ & _ & _ & R). cbn. rewrite app_nil_r. rewrite <- (map_id rest). apply (f2_awk cell_row); [|exact R]. now intros l x (_ & L & W).
Qed.
Lemma pos_behind : Forall2 (fun p ls => forall h r, ls = h :: r -> kind p = Some MPos -> length r = natoms /\ Forall data r) ps lss.
Proof.
  induction F as [|p ls qs mss H HF IH]; [|specialize (IH HF)]; constructor; [|exact IH]. intros h r -> K. destruct p; try discriminate K. destruct H as (h' & rest & E & _ & _ & L & R). injection E as <- <-.
  split; [now rewrite (f2_len R)|]. apply (f2_data pos_row _ _ ltac:(now intros ? ? [? _]) R).
Qed.
Lemma stress_behind : Forall2 (fun p ls => forall h r, ls = h :: r -> kind p = Some MStress -> length r = 3 /\ Forall data r) ps lss.
Proof.
  induction F as [|p ls qs mss H HF IH]; [|specialize (IH HF)]; constructor; [|exact IH]. intros h r -> K. destruct p; try discriminate K. destruct H as (h' & rest & E & _ & L & R). injection E as <- <-.
  split; [now rewrite (f2_len R)|]. apply (f2_data stress_row _ _ ltac:(now intros ? ? [? _]) R).
Qed.
Lemma cell_behind : Forall2 (fun p ls => forall h r, ls = h :: r -> kind p = Some MCell -> length r = 3 /\ Forall data r) ps lss.
Proof.
  induction F as [|p ls qs mss H HF IH]; [|specialize (IH HF)]; constructor; [|exact IH]. intros h r -> K. destruct p; try discriminate K. destruct H as (h' & rest & E & _ & _ & L & R). injection E as <- <-.
  split; [now rewrite (f2_len R)|]. apply (f2_data cell_row _ _ ltac:(now intros ? ? [? _]) R).
Qed.
Lemma pos_shape : Forall (fun t => length t = natoms /\ Forall (fun r => length r = 3) t) (positions ps).
Proof.
  induction F as [|p ls qs mss H HF IH]; [|specialize (IH HF)]; [constructor|]. cbn [positions flat_map]. apply Forall_app. split; [|exact IH]. destruct p; try constructor; [|constructor]. destruct H as (h & rest & -> & _ & _ & L & R).
  split; [exact L|]. apply (f2_three pos_row _ _ ltac:(now intros ? ? (_ & ? & ? & ? & _)) R).
Qed.
Lemma stress_shape : Forall (fun t => length t = 3 /\ Forall (fun r => length r = 3) t) (stresses ps).
Proof.
  induction F as [|p ls qs mss H HF IH]; [|specialize (IH HF)]; [constructor|]. cbn [stresses flat_map]. apply Forall_app. split; [|exact IH]. destruct p; try constructor; [|constructor]. destruct H as (h & rest & -> & _ & L & R).
  split; [exact L|]. apply (f2_three stress_row _ _ ltac:(now intros ? ? (_ & ? & ? & ? & ? & _)) R).
Qed.
Lemma cell_shape : Forall (fun t => length t = 3 /\ Forall (fun r => length r = 3) t) (cells ps).
Proof.
  induction F as [|p ls qs mss H HF IH]; [|specialize (IH HF)]; [constructor|]. cbn [cells flat_map]. apply Forall_app. split; [|exact IH]. destruct p; try constructor; [|constructor]. destruct H as (h & rest & -> & _ & _ & L & R).
  split; [exact L|]. apply (f2_three cell_row _ _ ltac:(now intros ? ? (_ & ? & _)) R).
Qed.
Lemma force_row_three ls fs : force_rows ls fs -> Forall (fun r => length r = 3) fs.
Proof. induction 1 as [|l ls fs P _ IH|l ls f fs [O (i & t & L & W)] _ IH]; [constructor|exact IH|constructor; assumption]. Qed.
Lemma force_shape : Forall (fun bs => bs <> [] /\ Forall (fun b => length b = natoms) bs /\ Forall (fun r => length r = 3) (concat bs)) (forces ps).
Proof.
  induction F as [|p ls qs mss H HF IH]; [|specialize (IH HF)]; [constructor|]. cbn [forces flat_map]. apply Forall_app. split; [|exact IH]. destruct p; try constructor; [|constructor]. destruct H as (h & rest & -> & _ & R & NE & L).
  split; [exact NE|]. split; [exact L|]. now apply (force_row_three rest).
Qed.
Lemma n_pos : grep_c s_pos (concat lss) = length (positions ps).
Proof. unfold grep_c. change (contains s_pos) with (hasb MPos). rewrite (count_lines natoms ps lss MPos) by (discriminate || exact F). apply count_len. now intros []. Qed.
Lemma n_stress : grep_c s_p (concat lss) = length (stresses ps).
Proof. unfold grep_c. change (contains s_p) with (hasb MStress). rewrite (count_lines natoms ps lss MStress) by (discriminate || exact F). apply count_len. now intros []. Qed.
Lemma n_cell : grep_c s_cell (concat lss) = length (cells ps).
Proof. unfold grep_c. change (contains s_cell) with (hasb MCell). rewrite (count_lines natoms ps lss MCell) by (discriminate || exact F). apply count_len. now intros []. Qed.
Lemma n_forces : length (List.filter is_forces (concat lss)) = length (forces ps).
Proof. change is_forces with (hasb MForces). rewrite (count_lines natoms ps lss MForces) by (discriminate || exact F). apply count_len. now intros []. Qed.
End FILE.
(** ** The raw arrays *)
Section RAW.
Variable parse : pstr -> option R.
Variables (natoms : nat) (ps : list piece) (lines : list pstr).
Hypothesis F : file natoms ps lines.
Lemma etot_all es : energies ps <> [] -> reads1 parse (energies ps) es -> etot_raw parse lines = Some (Some es).
Proof. destruct F as (lss & P & ->). intros NE H. unfold etot_raw. apply (arr1_ok parse _ (energies ps)); [exact NE|now apply (energy_lines natoms)|exact H]. Qed.
Lemma etot_none : energies ps = [] -> etot_raw parse lines = Some None.
Proof.
  destruct F as (lss & P & ->). intros E. unfold etot_raw, arr1d_from_txt. pose proof (energy_lines natoms ps lss P) as W. rewrite E in W. apply map_eq_nil in W. now rewrite W.
Qed.
Lemma stress_all ss : stresses ps <> [] -> reads3 parse (stresses ps) ss -> stress_raw parse lines = Some (Some ss).
Proof.
  destruct F as (lss & P & ->). intros NE H. unfold stress_raw. rewrite (n_stress _ _ _ P). destruct (Nat.ltb_spec 0 (length (stresses ps))) as [_|B]; [|destruct (stresses ps); [congruence|cbn in B; lia]].
  rewrite (after_file natoms 3 MStress s_p ps lss eq_refl ltac:(discriminate) P (stress_behind _ _ _ P)).
  apply traj_ok; [exact NE|discriminate|now apply (stress_tails natoms)|exact H|now apply (stress_shape natoms ps lss)].
Qed.
Lemma cell_all cs : cells ps <> [] -> reads3 parse (cells ps) cs -> cell_raw parse lines = Some (Some cs).
Proof.
  destruct F as (lss & P & ->). intros NE H. unfold cell_raw. rewrite (n_cell _ _ _ P).
  rewrite (after_file natoms 3 MCell s_cell ps lss eq_refl ltac:(discriminate) P (cell_behind _ _ _ P)).
  apply traj_ok; [exact NE|discriminate|now apply (cell_tails natoms)|exact H|now apply (cell_shape natoms ps lss)].
Qed.
Hypothesis NA : says_natoms lines natoms.
Hypothesis PN : natoms <> 0.
Lemma coords_all xs : positions ps <> [] -> reads3 parse (positions ps) xs -> coords_raw parse lines = Some (Some xs).
Proof.
  intros NE H. unfold coords_raw. rewrite (natoms_read _ _ NA). destruct F as (lss & P & ->). rewrite (n_pos _ _ _ P).
  rewrite (after_file natoms natoms MPos s_pos ps lss eq_refl ltac:(discriminate) P (pos_behind _ _ _ P)).
  apply traj_ok; [exact NE|exact PN|now apply (pos_tails natoms)|exact H|now apply (pos_shape natoms ps lss)].
Qed.
Lemma concat_same {A} k n (l : list (list (list A))) : Forall (fun bs => length bs = k /\ Forall (fun b => length b = n) bs) l -> Forall (fun b => length b = k * n) (map (@concat _) l).
Proof. intros H. apply Forall_map. eapply Forall_impl; [|exact H]. intros bs [L FB]. rewrite (concat_length n) by exact FB. now rewrite L. Qed.
(** every step prints as many blocks *)
Lemma forces_all k fs : forces ps <> [] -> Forall (fun bs => length bs = k) (forces ps) -> reads4 parse (forces ps) fs -> forces_raw parse lines = Some (Some (map (@concat _) fs)).
Proof.
  intros NE K H. unfold forces_raw. rewrite (natoms_read _ _ NA). destruct F as (lss & P & ->). rewrite (n_forces _ _ _ P).
  assert (LP : 0 < length (forces ps)) by (destruct (forces ps); [congruence|cbn; lia]). destruct (Nat.ltb_spec 0 (length (forces ps))) as [_|B]; [|lia].
  assert (SH := force_shape _ _ _ P).
  assert (H2 : reads2 parse (concat (map (@concat _) (forces ps))) (concat (map (@concat _) fs))).
  { clear - H. induction H as [|t x ts xs H _ IH]; [constructor|]. cbn [map concat]. apply Forall2_app; [|exact IH]. now apply reads_concat3. }
  assert (L3 : Forall (fun t => length t = 3) (concat (map (@concat _) (forces ps)))).
  { clear - SH. induction SH as [|bs l (_ & _ & T) _ IH]; [constructor|]. cbn [map concat]. apply Forall_app. now split. }
  assert (SK : Forall (fun bs => length bs = k /\ Forall (fun b => length b = natoms) bs) (forces ps)) by (clear - K SH; induction SH as [|bs l (_ & T & _) _ IH]; inversion K; subst; constructor; auto).
  assert (KP : k <> 0).
  { destruct (forces ps) as [|bs l]; [congruence|]. inversion SH as [|? ? (N & _) _]; inversion K; subst. destruct bs; [congruence|discriminate]. }
  assert (LL : length (concat (map (@concat _) (forces ps))) = length (forces ps) * (k * natoms)) by (rewrite (concat_length (k * natoms)) by (now apply concat_same); now rewrite map_length).
  assert (NE2 : concat (map (@concat _) (forces ps)) <> []).
  { intros E. rewrite E in LL. cbn [length] in LL. symmetry in LL. apply Nat.eq_mul_0 in LL as [LL|LL]; [lia|]. apply Nat.eq_mul_0 in LL as [LL|LL]; lia. }
  rewrite (arr2_ok parse _ _ _ NE2 (force_lines natoms ps lss P) H2 L3).
  assert (LX : length (concat (map (@concat _) fs)) = length (forces ps) * (k * natoms)) by (rewrite <- (f2_len H2); exact LL). rewrite LX.
  rewrite (Nat.mul_comm (length (forces ps))), Nat.div_mul by lia. destruct (Nat.eqb_spec natoms 0) as [|_]; [congruence|]. rewrite Nat.mod_mul by exact PN. rewrite Nat.eqb_refl. rewrite (Nat.mul_comm (length (forces ps))), Nat.eqb_refl. cbn [andb].
  rewrite (proj2 (forallb_forall _ _)) by (intros r I; apply Nat.eqb_eq; pose proof (reads_shape parse (fun n => n = 3) _ _ H2 L3) as FX; rewrite Forall_forall in FX; now apply FX).
  f_equal. f_equal. rewrite (f2_len H). rewrite <- (map_length (@concat _) fs). apply chunk_concat. apply concat_same.
  clear - SK H. induction H as [|t x ts xs H _ IH]; [constructor|]. inversion SK as [|? ? [LK FN] SK']; subst. constructor; [|auto]. split; [now rewrite <- (f2_len H)|].
  clear - H FN. induction H as [|b y bs ys Hb _ IH]; [constructor|]. inversion FN; subst. constructor; [now rewrite <- (f2_len Hb)|auto].
Qed.
Lemma forces_none : forces ps = [] -> forces_raw parse lines = Some None.
Proof. intros E. unfold forces_raw. rewrite (natoms_read _ _ NA). destruct F as (lss & P & ->). rewrite (n_forces _ _ _ P), E. reflexivity. Qed.
Lemma matched {A} xs (a b : list A) : positions ps <> [] -> reads3 parse (positions ps) xs -> length b = length (positions ps) -> match_nstep parse lines (Some (a ++ b)) = Some (Some b).
Proof.
  intros NE H L. unfold match_nstep. rewrite (coords_all xs NE H). rewrite <- (f2_len H). rewrite app_length.
  assert (LP : length (positions ps) <> 0) by (destruct (positions ps); [congruence|discriminate]).
  destruct (Nat.ltb_spec (length (positions ps)) (length a + length b)) as [LT|GE].
  - destruct (Nat.eqb_spec (length (positions ps)) 0); [congruence|]. rewrite skipn_app, skipn_all2 by lia. replace (length a + length b - length (positions ps) - length a) with 0 by lia. reflexivity.
  - destruct a; [reflexivity|cbn in GE; lia].
Qed.
End RAW.
(** ** Units *)
Definition nb (c : ascii) : bool := negb (bracket c).
Definition ne (w : pstr) : bool := match w with [] => false | _ => true end.
Lemma bare_words : forall s acc, Forall (fun c => is_space c = false) acc -> split_ws (List.filter nb acc) (List.filter nb s) = List.filter ne (map (List.filter nb) (split_ws acc s)).
Proof.
  assert (SB : forall c, is_space c = true -> nb c = true) by (apply imp_cases; reflexivity).
  induction s as [|c s IH]; intros acc FA; cbn [List.filter split_ws].
  - destruct acc as [|a acc]; [reflexivity|]. cbn [map List.filter]. destruct (List.filter nb (a :: acc)) eqn:E; cbn [ne]; cbn [List.filter] in E; rewrite E; reflexivity.
  - destruct (is_space c) eqn:S.
    + rewrite (SB c S). cbn [split_ws]. rewrite S. specialize (IH [] ltac:(constructor)). cbn [List.filter] in IH. destruct acc as [|a acc]; [exact IH|]. cbn [map List.filter]. cbn [List.filter]. destruct (if nb a then a :: List.filter nb acc else List.filter nb acc) eqn:E; cbn [ne]; rewrite IH; reflexivity.
    + rewrite <- IH by (apply Forall_app; split; [exact FA|now constructor]). rewrite filter_app. cbn [List.filter]. destruct (nb c) eqn:N.
      * cbn [split_ws]. rewrite S. reflexivity.
      * now rewrite app_nil_r.
Qed.
Lemma before_eq_id x : ~ In "="%char x -> before_eq x = x.
Proof. induction x as [|c x IH]; intros N; [reflexivity|]. cbn. destruct (Ascii.eqb_spec c "=") as [-> |_]; [exfalso; apply N; now left|]. f_equal. apply IH. intros I. apply N. now right. Qed.
Lemma unit_bare u x : names_unit u x -> List.filter ne (map (List.filter nb) u) = [x] /\ before_eq x = x.
Proof.
  intros (NE & C & U). assert (K : List.filter nb x = x).
  { clear - C. induction x as [|c x IH]; [reflexivity|]. cbn. rewrite IH by (intros d I; apply C; now right). replace (nb c) with true; [reflexivity|]. symmetry. unfold nb, bracket.
    specialize (C c (or_introl eq_refl)). repeat match goal with |- context [Ascii.eqb c ?d] => destruct (Ascii.eqb_spec c d) as [-> |]; [exfalso; apply C; cbn; tauto|] end. reflexivity. }
  split; [|apply before_eq_id; intros I; apply (C _ I); cbn; tauto].
  assert (X : List.filter ne [x] = [x]) by (destruct x; [congruence|reflexivity]).
  destruct U as [-> |[-> | ->]]; cbn [map]; [now rewrite K| |]; rewrite !filter_app; cbn [text list_ascii_of_string List.filter]; cbn; rewrite K, app_nil_r; exact X.
Qed.
Section HEADER.
Variables (natoms : nat) (ps : list piece) (lss : list (list pstr)).
Hypothesis F : Forall2 (prints natoms) ps lss.
Lemma first_head m key (sel : piece -> list (list pstr)) : hasb m = contains key -> m <> MForce ->
  (forall p, kind p <> Some m -> sel p = []) -> (forall p ls, prints natoms p ls -> kind p = Some m -> exists h rest u, ls = h :: rest /\ only m h /\ words h = key :: u /\ sel p = [u]) ->
  match flat_map sel ps with
  | [] => grep_m1 key (concat lss) = []
  | u :: _ => exists h, grep_m1 key (concat lss) = [h] /\ words h = key :: u
  end.
Proof.
  intros E N S1 S2. induction F as [|p ls qs mss H HF IH]; [reflexivity|specialize (IH HF)]. cbn [flat_map concat].
  assert (D : {kind p = Some m} + {kind p <> Some m}) by (repeat decide equality). destruct D as [K|K].
  - destruct (S2 p ls H K) as (h & rest & u & -> & O & W & ->). cbn [app]. exists h. split; [|exact W]. unfold grep_m1. cbn [find]. rewrite <- E. now rewrite (only_yes _ _ O).
  - rewrite (S1 p K). cbn [app]. rewrite grep_m1_skip; [exact IH|]. rewrite <- E. now apply (piece_no natoms p).
Qed.
Lemma unit_none key h : words h = [key] -> Forall (fun c => nb c = true) key -> forall ls, grep_m1 key ls = [h] -> header_unit key ls = None.
Proof.
  intros W NB ls G. unfold header_unit. rewrite G. cbn [concat]. rewrite app_nil_r. change (fun c => negb (bracket c)) with nb. pose proof (bare_words h [] ltac:(constructor)) as B. cbn [List.filter] in B. rewrite B.
  change (split_ws [] h) with (words h). rewrite W. cbn [map List.filter]. destruct (ne (List.filter nb key)); reflexivity.
Qed.
Lemma unit_some key h u x : words h = key :: u -> key <> [] -> Forall (fun c => nb c = true) key -> names_unit u x -> forall ls, grep_m1 key ls = [h] -> header_unit key ls = Some x.
Proof.
  intros W NK NB U ls G. unfold header_unit. rewrite G. cbn [concat]. rewrite app_nil_r. change (fun c => negb (bracket c)) with nb. pose proof (bare_words h [] ltac:(constructor)) as B. cbn [List.filter] in B. rewrite B.
  change (split_ws [] h) with (words h). rewrite W. cbn [map List.filter].
  assert (K : List.filter nb key = key) by (clear - NB; induction NB as [|c k H _ IH]; [reflexivity|]; cbn; now rewrite H, IH).
  destruct (unit_bare u x U) as [-> BE]. rewrite K. destruct key; [congruence|]. cbn [ne]. now rewrite BE.
Qed.
Lemma pos_unit u us x : position_units ps = u :: us -> names_unit u x -> header_unit s_pos (concat lss) = Some x.
Proof.
  intros E U. pose proof (first_head MPos s_pos (fun p => match p with Positions u _ => [u] | _ => [] end) eq_refl ltac:(discriminate)) as H. fold (position_units ps) in H. rewrite E in H.
  destruct H as (h & G & W); [intros [] K; try reflexivity; now destruct K| |apply (unit_some s_pos h u x W); [discriminate|repeat constructor|exact U|exact G]].
  intros p ls P K. destruct p; try discriminate K. destruct P as (h & rest & -> & O & W & _). exists h, rest, unit_. auto.
Qed.
Lemma pos_no_unit us : position_units ps = [] :: us -> header_unit s_pos (concat lss) = None.
Proof.
  intros E. pose proof (first_head MPos s_pos (fun p => match p with Positions u _ => [u] | _ => [] end) eq_refl ltac:(discriminate)) as H. fold (position_units ps) in H. rewrite E in H.
  destruct H as (h & G & W); [intros [] K; try reflexivity; now destruct K| |apply (unit_none s_pos h W); [repeat constructor|exact G]].
  intros p ls P K. destruct p; try discriminate K. destruct P as (h & rest & -> & O & W & _). exists h, rest, unit_. auto.
Qed.
Lemma cell_unit u us x : cell_units ps = u :: us -> names_unit u x -> header_unit s_cell (concat lss) = Some x.
Proof.
  intros E U. pose proof (first_head MCell s_cell (fun p => match p with Cell u _ => [u] | _ => [] end) eq_refl ltac:(discriminate)) as H. fold (cell_units ps) in H. rewrite E in H.
  destruct H as (h & G & W); [intros [] K; try reflexivity; now destruct K| |apply (unit_some s_cell h u x W); [discriminate|repeat constructor|exact U|exact G]].
  intros p ls P K. destruct p; try discriminate K. destruct P as (h & rest & -> & O & W & _). exists h, rest, unit_. auto.
Qed.
Lemma cell_no_unit us : cell_units ps = [] :: us -> header_unit s_cell (concat lss) = None.
Proof.
  intros E. pose proof (first_head MCell s_cell (fun p => match p with Cell u _ => [u] | _ => [] end) eq_refl ltac:(discriminate)) as H. fold (cell_units ps) in H. rewrite E in H.
  destruct H as (h & G & W); [intros [] K; try reflexivity; now destruct K| |apply (unit_none s_cell h W); [repeat constructor|exact G]].
  intros p ls P K. destruct p; try discriminate K. destruct P as (h & rest & -> & O & W & _). exists h, rest, unit_. auto.
Qed.
End HEADER.
Lemma units_len ps : length (position_units ps) = length (positions ps).
Proof. induction ps as [|[] ps IH]; cbn; auto. Qed.
Lemma cunits_len ps : length (cell_units ps) = length (cells ps).
Proof. induction ps as [|[] ps IH]; cbn; auto. Qed.
(** ** Theorems *)
Definition times (f : R) : arr3 -> arr3 := map (map (map (fun x => (x * f)%R))).
Section THEOREMS.
Variable parse : pstr -> option R.
Variables Angstrom Bohr : R.
Let coords := get_coords parse Angstrom Bohr.
(** Positions: all blocks in order, times the unit the first block names. *)
Theorem C85_coords natoms ps lines u us x xs ax a : file natoms ps lines -> says_natoms lines natoms -> natoms <> 0 -> says_alat lines ax -> parse ax = Some a ->
  reads3 parse (positions ps) xs -> position_units ps = u :: us -> names_unit u x ->
  coords true lines = Some (if pstr_eqb x (text "bohr") then Some xs else if pstr_eqb x (text "alat") then Some (times a xs)
                            else if pstr_eqb x (text "angstrom") then Some (map (map (map (fun v => (v * Angstrom / Bohr)%R))) xs) else None) /\
  get_coords_frac parse lines = Some (if pstr_eqb x (text "crystal") then Some xs else None).
Proof.
  intros F NA PN SA PA RX EU NU. assert (NE : positions ps <> []) by (intros E; pose proof (units_len ps) as L; rewrite E, EU in L; discriminate L).
  unfold coords, get_coords, get_coords_frac. rewrite (coords_all parse natoms ps lines F NA PN xs NE RX), (alat_read parse lines ax a SA PA).
  destruct F as (lss & P & ->). rewrite (pos_unit natoms ps lss P u us x EU NU). split; repeat (destruct (pstr_eqb x _)); reflexivity.
Qed.
(** The class documents ATOMIC_POSITIONS without a unit: there are no coordinates at all. *)
Theorem C85_no_unit_refuted natoms ps lines us xs ax a : file natoms ps lines -> says_natoms lines natoms -> natoms <> 0 -> says_alat lines ax -> parse ax = Some a ->
  reads3 parse (positions ps) xs -> position_units ps = [] :: us -> coords true lines = Some None /\ get_coords_frac parse lines = Some None.
Proof.
  intros F NA PN SA PA RX EU. assert (NE : positions ps <> []) by (intros E; pose proof (units_len ps) as L; rewrite E, EU in L; discriminate L).
  unfold coords, get_coords, get_coords_frac. rewrite (coords_all parse natoms ps lines F NA PN xs NE RX), (alat_read parse lines ax a SA PA).
  destruct F as (lss & P & ->). now rewrite (pos_no_unit natoms ps lss P us EU).
Qed.
(** Cells in the unit of the first block; without a unit in units of alat. *)
Theorem C85_cell natoms ps lines u us cs ax a el : file natoms ps lines -> says_alat lines ax -> parse ax = Some a -> reads3 parse (cells ps) cs -> cell_units ps = u :: us ->
  (names_unit u (text "bohr") -> get_cell_md parse Angstrom Bohr true lines el = Some (Some cs)) /\
  (names_unit u (text "angstrom") -> get_cell_md parse Angstrom Bohr true lines el = Some (Some (map (map (map (fun v => (v * Angstrom / Bohr)%R))) cs))) /\
  (u = [] -> get_cell_md parse Angstrom Bohr true lines el = Some (Some (times a cs))).
Proof.
  intros F SA PA RX EU. assert (NE : cells ps <> []) by (intros E; pose proof (cunits_len ps) as L; rewrite E, EU in L; discriminate L).
  unfold get_cell_md. rewrite (cell_all parse natoms ps lines F cs NE RX). pose proof (alat_read parse lines ax a SA PA) as RA. destruct F as (lss & P & ->). split; [|split].
  - intros NU. now rewrite (cell_unit natoms ps lss P u us _ EU NU).
  - intros NU. now rewrite (cell_unit natoms ps lss P u us _ EU NU).
  - intros ->. rewrite (cell_no_unit natoms ps lss P us EU). unfold with_alat. now rewrite RA.
Qed.
(** Without a positions block, or a cells block, there is nothing. *)
Lemma headers_lines lines xs : alat_headers lines xs -> map words (map (sed_1 factor_re) (List.filter (contains s_cell) lines)) = map (fun x => [x]) xs.
Proof.
  induction 1 as [|l ls xs N _ IH|g x ls xs B NE C _ IH]; [reflexivity| |]; cbn [List.filter].
  - replace (contains s_cell l) with false; [exact IH|]. symmetry. destruct (contains s_cell l) eqn:E; [|reflexivity]. now apply (hasb_iff MCell) in E.
  - replace (contains s_cell _) with true by (symmetry; apply (hasb_iff MCell); exists []; eexists; reflexivity). cbn [map]. f_equal; [|exact IH].
    assert (FC : all float_char x) by (apply Forall_forall; intros c I; apply C in I; cbv in I; repeat destruct I as [<- |I]; try reflexivity; destruct I).
    change (text "CELL_PARAMETERS (alat=" ++ g ++ x ++ text ")") with (text "CELL_PARAMETERS (" ++ text "alat=" ++ g ++ x ++ text ")"). rewrite sed_factor by assumption.
    unfold words. apply split_ws_last; [|exact NE]. eapply Forall_impl; [|exact FC]. apply not_cases. reflexivity.
Qed.
Lemma headers_nonempty lines xs : alat_headers lines xs -> xs <> [] -> exists l, find (in_order [s_cell; text "alat"; text "="]) lines = Some l.
Proof.
  induction 1 as [|l ls xs N _ IH|g x ls xs B NE C _ IH]; intros H; [congruence| |]; cbn [find].
  - destruct (in_order _ l); [now exists l|now apply IH].
  - replace (in_order _ _) with true; [eexists; reflexivity|]. symmetry. apply order_iff. exists [], (text " (alat=" ++ g ++ x ++ text ")"). split; [reflexivity|]. exists (text " ("). eexists. split; [reflexivity|]. exists []. eexists. split; [reflexivity|exact I].
Qed.
(** CELL_PARAMETERS (alat= x): each cell times the x of its own header, also when runs with
    different x are in one file. *)
Theorem C85_cell_alat natoms ps lines u us cs ts fs el : file natoms ps lines -> reads3 parse (cells ps) cs -> cell_units ps = u :: us -> alat_headers lines ts -> reads1 parse ts fs ->
  length fs = length cs -> header_unit s_cell lines = Some (text "alat") ->
  get_cell_md parse Angstrom Bohr true lines el = Some (Some (map (fun q => map (map (fun v => (v * fst q)%R)) (snd q)) (combine fs cs))).
Proof.
  intros F RX EU AH RF L HU. assert (NE : cells ps <> []) by (intros E; pose proof (cunits_len ps) as LC; rewrite E, EU in LC; discriminate LC).
  unfold get_cell_md. rewrite (cell_all parse natoms ps lines F cs NE RX), HU. cbn [pstr_eqb]. replace (pstr_eqb (text "alat") (text "bohr")) with false by reflexivity. replace (pstr_eqb (text "alat") (text "alat")) with true by reflexivity.
  assert (NT : ts <> []) by (intros ->; inversion RF; subst; rewrite <- (f2_len RX) in L; destruct (cells ps); [congruence|discriminate L]).
  unfold cell_factors. destruct (headers_nonempty _ _ AH NT) as [l ->]. rewrite (arr1_ok parse _ ts fs NT (headers_lines _ _ AH) RF).
  unfold broadcast. rewrite L, Nat.eqb_refl. f_equal. f_equal. clear. revert cs. induction fs as [|f fs IH]; intros [|c cs]; try reflexivity. cbn. now rewrite IH.
Qed.
(** CELL_PARAMETERS (alat) without a value: in units of the lattice parameter of the file. *)
Theorem C85_cell_plain_alat natoms ps lines u us cs ax a el : file natoms ps lines -> says_alat lines ax -> parse ax = Some a -> reads3 parse (cells ps) cs -> cell_units ps = u :: us ->
  names_unit u (text "alat") -> (forall l, In l lines -> ~ exists p q r t, l = p ++ s_cell ++ q ++ text "alat" ++ r ++ text "=" ++ t) ->
  get_cell_md parse Angstrom Bohr true lines el = Some (Some (times a cs)).
Proof.
  intros F SA PA RX EU NU NV. assert (NE : cells ps <> []) by (intros E; pose proof (cunits_len ps) as L; rewrite E, EU in L; discriminate L).
  unfold get_cell_md. rewrite (cell_all parse natoms ps lines F cs NE RX). pose proof (alat_read parse lines ax a SA PA) as RA.
  assert (FN : find (in_order [s_cell; text "alat"; text "="]) lines = None).
  { destruct (find _ lines) as [l|] eqn:E; [|reflexivity]. apply find_some in E. destruct E as [I E]. exfalso. apply (NV l I). apply order_iff in E. destruct E as (p & t & -> & q & t2 & -> & r & t3 & -> & _). now exists p, q, r, t3. }
  destruct F as (lss & P & ->). rewrite (cell_unit natoms ps lss P u us _ EU NU). unfold cell_factors. rewrite FN. unfold with_alat. now rewrite RA.
Qed.
Lemma times_1 xs : times 1 xs = xs.
Proof. unfold times. rewrite <- (map_id xs) at 2. apply map_ext. intros f. rewrite <- (map_id f) at 2. apply map_ext. intros r. rewrite <- (map_id r) at 2. apply map_ext. intros v. apply Rmult_1_r. Qed.
(** use_alat=False: positions and cells in units of alat stay as they are, no lattice parameter is
    needed. *)
Theorem C85_without_alat natoms ps lines : file natoms ps lines ->
  (forall u us xs, says_natoms lines natoms -> natoms <> 0 -> reads3 parse (positions ps) xs -> position_units ps = u :: us -> names_unit u (text "alat") -> coords false lines = Some (Some xs)) /\
  (forall u us cs el, reads3 parse (cells ps) cs -> cell_units ps = u :: us -> names_unit u (text "alat") \/ u = [] -> get_cell_md parse Angstrom Bohr false lines el = Some (Some cs)).
Proof.
  intros F. split.
  - intros u us xs NA PN RX EU NU. assert (NE : positions ps <> []) by (intros E; pose proof (units_len ps) as L; rewrite E, EU in L; discriminate L).
    unfold coords, get_coords. rewrite (coords_all parse natoms ps lines F NA PN xs NE RX). destruct F as (lss & P & ->). rewrite (pos_unit natoms ps lss P u us _ EU NU). change (Some (Some (times 1 xs)) = Some (Some xs)). now rewrite times_1.
  - intros u us cs el RX EU NU. assert (NE : cells ps <> []) by (intros E; pose proof (cunits_len ps) as L; rewrite E, EU in L; discriminate L).
    unfold get_cell_md. rewrite (cell_all parse natoms ps lines F cs NE RX). destruct F as (lss & P & ->).
    assert (W : with_alat parse false (concat lss) cs = Some (Some cs)) by (change (Some (Some (times 1 cs)) = Some (Some cs)); now rewrite times_1).
    destruct NU as [NU| ->].
    + rewrite (cell_unit natoms ps lss P u us _ EU NU). replace (pstr_eqb (text "alat") (text "bohr")) with false by reflexivity. replace (pstr_eqb (text "alat") (text "alat")) with true by reflexivity. unfold cell_factors. destruct (find _ _); exact W.
    + rewrite (cell_no_unit natoms ps lss P us EU). exact W.
Qed.
(** *** A run *)
Lemma sig_sel {A} (sel : piece -> list A) : (forall l, sel (Other l) = []) -> (forall u c, sel (Cell u c) = []) -> forall ps, flat_map sel ps = flat_map sel (significant ps).
Proof. intros O C. induction ps as [|[] ps IH]; cbn [flat_map significant List.filter]; rewrite ?O, ?C; cbn [app]; rewrite <- ?IH; reflexivity. Qed.
Lemma flat_app {A B} (f : A -> list B) a b : flat_map f (a ++ b) = flat_map f a ++ flat_map f b. Proof. apply flat_map_app. Qed.
Lemma steps_sel {A} (sel : piece -> list A) (g : result -> A) steps : (forall r, flat_map sel (of_result r) = [g r]) -> (forall u x, sel (Positions u x) = []) -> flat_map sel (flat_map of_step steps) = map (fun s => g (snd s)) steps.
Proof. intros G P. induction steps as [|s steps IH]; [reflexivity|]. cbn [flat_map map]. rewrite flat_app, IH. unfold of_step at 1. cbn [flat_map]. rewrite P. cbn [app]. now rewrite G. Qed.
Lemma steps_pos steps : positions (flat_map of_step steps) = map fst steps.
Proof. induction steps as [|s steps IH]; [reflexivity|]. cbn [flat_map map]. unfold positions in *. rewrite flat_app, IH. reflexivity. Qed.
Lemma sel_pos ps : positions ps = positions (significant ps). Proof. now apply sig_sel. Qed.
Lemma sel_units ps : position_units ps = position_units (significant ps). Proof. now apply sig_sel. Qed.
Lemma sel_en ps : energies ps = energies (significant ps). Proof. now apply sig_sel. Qed.
Lemma sel_fo ps : forces ps = forces (significant ps). Proof. now apply sig_sel. Qed.
Lemma sel_st ps : stresses ps = stresses (significant ps). Proof. now apply sig_sel. Qed.
Lemma unit_steps steps : position_units (flat_map of_step steps) = map (fun _ => [text "(bohr)"]) steps.
Proof. induction steps as [|s steps IH]; [reflexivity|]. cbn [flat_map map]. unfold position_units in *. rewrite flat_app, IH. reflexivity. Qed.
Lemma bohr_unit : names_unit [text "(bohr)"] (text "bohr").
Proof. split; [discriminate|]. split; [|right; left; reflexivity]. intros c I J. cbn in I, J. intuition congruence. Qed.
Lemma first_total {A} natoms (fs : list (list (list A))) : Forall (fun bs => bs <> [] /\ Forall (fun b => length b = natoms) bs) fs -> map (firstn natoms) (map (@concat _) fs) = map (hd []) fs.
Proof.
  intros H. rewrite map_map. apply map_ext_in. intros bs I. rewrite Forall_forall in H. destruct (H bs I) as [NE FB]. destruct bs as [|b bs]; [congruence|]. inversion FB; subst. cbn [concat hd]. rewrite firstn_app, Nat.sub_diag, firstn_all. cbn. apply app_nil_r.
Qed.
Lemma reads4_shape natoms ts fs : reads4 parse ts fs -> Forall (fun bs => bs <> [] /\ Forall (fun b => length b = natoms) bs) ts -> Forall (fun bs => bs <> [] /\ Forall (fun b => length b = natoms) bs) fs.
Proof.
  induction 1 as [|t x ts xs H _ IH]; intros FT; [constructor|]. inversion FT as [|? ? [NE FB] FT']; subst. constructor; [|auto]. split; [intros ->; inversion H; congruence|].
  clear - H FB. induction H as [|b y bs ys Hb _ IH]; [constructor|]. inversion FB; subst. constructor; [now rewrite <- (f2_len Hb)|auto].
Qed.
(** The trajectory of a run: the positions with the results calculated for them; the results
    of the first calculation are what the parser for single calculations gives. *)
Theorem C85_run natoms k r0 steps ps lines xs e0 es f0 fs s0 ss ax a : file natoms ps lines -> says_natoms lines natoms -> natoms <> 0 -> says_alat lines ax -> parse ax = Some a ->
  md_run r0 steps ps -> steps <> [] -> Forall (fun r => length (force r) = k) (r0 :: map snd steps) ->
  reads3 parse (map fst steps) xs -> reads1 parse (energy r0 :: map (fun s => energy (snd s)) steps) (e0 :: es) ->
  reads4 parse (force r0 :: map (fun s => force (snd s)) steps) (f0 :: fs) -> reads3 parse (stress r0 :: map (fun s => stress (snd s)) steps) (s0 :: ss) ->
  (coords true lines = Some (Some xs) /\ md_etot parse lines = Some (Some es) /\ md_forces parse lines = Some (Some (map (hd []) fs)) /\ md_stress parse lines = Some (Some ss)) /\
  scf_etot parse lines = Some (Some e0) /\ scf_forces parse lines = Some (Some (hd [] f0)) /\ scf_stress parse lines = Some (Some s0).
Proof.
  intros F NA PN SA PA MD NS FK RX RE RF RS. unfold md_run in MD.
  assert (EP : positions ps = map fst steps) by (rewrite sel_pos, MD; unfold positions; rewrite flat_app; fold (positions (flat_map of_step steps)); now rewrite steps_pos).
  assert (EU : position_units ps = map (fun _ => [text "(bohr)"]) steps) by (rewrite sel_units, MD; unfold position_units; rewrite flat_app; fold (position_units (flat_map of_step steps)); now rewrite unit_steps).
  assert (EE : energies ps = energy r0 :: map (fun s => energy (snd s)) steps) by (rewrite sel_en, MD; unfold energies; rewrite flat_app; rewrite (steps_sel _ energy) by reflexivity; reflexivity).
  assert (EF : forces ps = force r0 :: map (fun s => force (snd s)) steps) by (rewrite sel_fo, MD; unfold forces; rewrite flat_app; rewrite (steps_sel _ force) by reflexivity; reflexivity).
  assert (ES : stresses ps = stress r0 :: map (fun s => stress (snd s)) steps) by (rewrite sel_st, MD; unfold stresses; rewrite flat_app; rewrite (steps_sel _ stress) by reflexivity; reflexivity).
  rewrite <- EP in RX. rewrite <- EE in RE. rewrite <- EF in RF. rewrite <- ES in RS.
  assert (NP : positions ps <> []) by (rewrite EP; destruct steps; [congruence|discriminate]).
  assert (LP : length (positions ps) = length steps) by (rewrite EP; apply map_length).
  assert (FK' : Forall (fun bs => length bs = k) (forces ps)) by (rewrite EF; inversion FK as [|? ? A1 A2]; subst; constructor; [reflexivity|]; rewrite Forall_map in A2 |- *; exact A2).
  assert (RawE := etot_all parse natoms ps lines F (e0 :: es) ltac:(rewrite EE; discriminate) RE).
  assert (RawF := forces_all parse natoms ps lines F NA PN k (f0 :: fs) ltac:(rewrite EF; discriminate) FK' RF).
  assert (RawS := stress_all parse natoms ps lines F (s0 :: ss) ltac:(rewrite ES; discriminate) RS).
  assert (LE : length es = length (positions ps)) by (apply f2_len in RE; rewrite EE in RE; cbn in RE; rewrite map_length in RE; lia).
  assert (LF : length fs = length (positions ps)) by (apply f2_len in RF; rewrite EF in RF; cbn in RF; rewrite map_length in RF; lia).
  assert (LS : length ss = length (positions ps)) by (apply f2_len in RS; rewrite ES in RS; cbn in RS; rewrite map_length in RS; lia).
  assert (SH : Forall (fun bs => bs <> [] /\ Forall (fun b => length b = natoms) bs) (f0 :: fs)).
  { apply (reads4_shape natoms (forces ps)); [exact RF|]. destruct F as (lss & P & _). eapply Forall_impl; [|exact (force_shape natoms ps lss P)]. intros bs (A & B & _). now split. }
  split; [|unfold scf_etot, scf_forces, scf_stress; rewrite RawE, RawF, RawS, (natoms_read _ _ NA); cbn [first_of map]; split; [reflexivity|]; split; [|reflexivity]; inversion SH as [|? ? [NE FB] _]; subst; destruct f0 as [|b f0]; [congruence|]; inversion FB; subst; cbn [concat hd]; rewrite firstn_app, Nat.sub_diag, firstn_all; cbn; now rewrite app_nil_r].
  split; [|split; [|split]].
  - destruct (position_units ps) as [|u us] eqn:E; [destruct steps; [congruence|discriminate]|]. destruct steps as [|st steps]; [congruence|]. cbn [map] in EU.
    assert (Hu : u = [text "(bohr)"]) by congruence. subst u. exact (proj1 (C85_coords natoms ps lines _ us _ xs ax a F NA PN SA PA RX E bohr_unit)).
  - unfold md_etot. rewrite RawE. exact (matched parse natoms ps lines F NA PN xs [e0] es NP RX LE).
  - unfold md_forces. rewrite (natoms_read _ _ NA), RawF. cbn [bind map].
    pose proof (matched parse natoms ps lines F NA PN xs [concat f0] (map (@concat _) fs) NP RX) as M. rewrite map_length in M. specialize (M LF). cbn [app] in M. rewrite M. f_equal. f_equal. apply first_total. now inversion SH.
  - unfold md_stress. rewrite RawS. exact (matched parse natoms ps lines F NA PN xs [s0] ss NP RX LS).
Qed.
(** When the last structure printed has no result, each structure comes with the energy of the
    one before. *)
Theorem C85_stopped_refuted natoms r0 steps next ps lines xs xn e0 es ax a : file natoms ps lines -> says_natoms lines natoms -> natoms <> 0 -> says_alat lines ax -> parse ax = Some a ->
  md_stopped r0 steps next ps -> reads3 parse (map fst steps ++ [next]) (xs ++ [xn]) -> reads1 parse (energy r0 :: map (fun s => energy (snd s)) steps) (e0 :: es) ->
  coords true lines = Some (Some (xs ++ [xn])) /\ md_etot parse lines = Some (Some (e0 :: es)) /\ length (e0 :: es) = length (xs ++ [xn]).
Proof.
  intros F NA PN SA PA MD RX RE. unfold md_stopped in MD.
  assert (EP : positions ps = map fst steps ++ [next]) by (rewrite sel_pos, MD; unfold positions; rewrite !flat_app; fold (positions (flat_map of_step steps)); rewrite steps_pos; reflexivity).
  assert (EU : position_units ps = map (fun _ => [text "(bohr)"]) steps ++ [[text "(bohr)"]]) by (rewrite sel_units, MD; unfold position_units; rewrite !flat_app; fold (position_units (flat_map of_step steps)); rewrite unit_steps; reflexivity).
  assert (EE : energies ps = energy r0 :: map (fun s => energy (snd s)) steps) by (rewrite sel_en, MD; unfold energies; rewrite !flat_app; rewrite (steps_sel _ energy) by reflexivity; cbn; now rewrite app_nil_r).
  rewrite <- EP in RX. rewrite <- EE in RE. assert (NP : positions ps <> []) by (rewrite EP; destruct (map fst steps); discriminate).
  assert (L : length (e0 :: es) = length (positions ps)) by (apply f2_len in RE; rewrite EE in RE; rewrite <- RE, EP, app_length; cbn; rewrite !map_length; lia).
  split; [|split].
  - destruct (position_units ps) as [|u us] eqn:E; [destruct steps; discriminate|]. assert (Hu : u = [text "(bohr)"]) by (apply (f_equal (hd [])) in EU; destruct steps; exact EU). subst u.
    exact (proj1 (C85_coords natoms ps lines _ us _ _ ax a F NA PN SA PA RX E bohr_unit)).
  - unfold md_etot. rewrite (etot_all parse natoms ps lines F (e0 :: es) ltac:(rewrite EE; discriminate) RE). exact (matched parse natoms ps lines F NA PN _ [] (e0 :: es) NP RX L).
  - rewrite L. exact (f2_len RX).
Qed.
(** For any file, the results are the last of those printed, never more than there are positions. *)
Theorem C85_matched lines es : md_etot parse lines = Some (Some es) ->
  exists pre xs, etot_raw parse lines = Some (Some (pre ++ es)) /\ coords_raw parse lines = Some (Some xs) /\ (xs <> [] -> length es <= length xs /\ (pre <> [] -> length es = length xs)).
Proof.
  unfold md_etot. destruct (etot_raw parse lines) as [[all|]|]; try discriminate. cbn [bind]. unfold match_nstep. destruct (coords_raw parse lines) as [[xs|]|]; try discriminate. intros H.
  destruct (Nat.ltb_spec (length xs) (length all)) as [LT|GE].
  - destruct (Nat.eqb_spec (length xs) 0) as [Z|NZ].
    + injection H as <-. exists [], xs. split; [reflexivity|]. split; [reflexivity|]. intros N. destruct xs; [congruence|discriminate].
    + injection H as <-. exists (firstn (length all - length xs) all), xs. rewrite firstn_skipn. split; [reflexivity|]. split; [reflexivity|]. intros _. rewrite skipn_length. lia.
  - injection H as <-. exists [], xs. split; [reflexivity|]. split; [reflexivity|]. intros _. split; [exact GE|congruence].
Qed.
(** Without forces the parser of single calculations gives None, the other raises. *)
Theorem C85_no_forces_refuted natoms ps lines : file natoms ps lines -> says_natoms lines natoms -> natoms <> 0 -> forces ps = [] ->
  scf_forces parse lines = Some None /\ md_forces parse lines = None.
Proof.
  intros F NA PN E. unfold scf_forces, md_forces. rewrite (natoms_read _ _ NA), (forces_none parse natoms ps lines F NA E). cbn [first_of bind match_nstep]. now split.
Qed.
(** A last block of positions that is cut off raises. *)
Theorem C85_cut natoms ps lines h rest rows xs : file natoms ps lines -> says_natoms lines natoms -> only MPos h -> Forall2 pos_row rest rows -> length rows < natoms -> rows <> [] ->
  reads3 parse (positions ps) xs -> coords_raw parse (lines ++ h :: rest) = None.
Proof.
  intros F NA O RR LT NR RX. unfold coords_raw.
  assert (NA' : says_natoms (lines ++ h :: rest) natoms).
  { destruct NA as (a & l & b & -> & N1 & N2). exists a, l, (b ++ h :: rest). split; [now rewrite <- app_assoc|]. now split. }
  rewrite (natoms_read _ _ NA'). destruct F as (lss & P & ->).
  assert (G : grep_c s_pos (concat lss ++ h :: rest) = S (length (positions ps))).
  { rewrite grep_c_app, (n_pos _ _ _ P). change (h :: rest) with ([h] ++ rest). rewrite grep_c_app. rewrite (grep_c_none s_pos rest) by (apply (rows_no MPos pos_row rest rows); [now intros ? ? [? _]|exact RR]).
    unfold grep_c. cbn [List.filter]. change (contains s_pos h) with (hasb MPos h). rewrite (only_yes _ _ O). cbn [length]. lia. }
  rewrite G. rewrite egrep_keeps by apply key_drop.
  assert (BT : forall k, length rest <= k -> behind natoms s_pos (keeps s_pos) k rest = rest).
  { clear - RR. induction RR as [|l x rest rows [D _] _ IH]; intros k L; [reflexivity|]. destruct k as [|k]; [cbn in L; lia|]. apply data_b in D as [A B]. specialize (A MPos). cbn [hasb] in A. cbn [behind]. rewrite A, (data_keeps s_pos l A B). cbn [app]. rewrite IH by (cbn in L; lia). reflexivity. }
  assert (BH : behind natoms s_pos (keeps s_pos) 0 (concat lss ++ h :: rest) = tails MPos (combine ps lss) ++ rest).
  { clear - P O BT LT RR. pose proof (pos_behind natoms ps lss P) as D. induction P as [|p ls ps lss H _ IH].
    - cbn [concat app]. rewrite behind_mark by (change (contains s_pos h) with (hasb MPos h); now apply only_yes). apply BT. rewrite (f2_len RR). lia.
    - inversion D as [|? ? ? ? D1 D2]; subst. cbn [concat combine tails flat_map fst snd]. rewrite <- app_assoc. rewrite (behind_piece natoms natoms MPos s_pos _ p ls eq_refl ltac:(discriminate) H D1). rewrite IH by exact D2. now rewrite app_assoc. }
  rewrite BH. unfold traj_from_txt.
  assert (W : map words (map (awk [2; 3; 4]) (tails MPos (combine ps lss) ++ rest)) = concat (positions ps) ++ rows).
  { rewrite !map_app, (pos_tails natoms ps lss P). f_equal. apply (f2_awk pos_row); [|exact RR]. intros l x (_ & sym & fl & L & W). apply (awk_slice _ [sym] x fl); [exact W|now rewrite L]. }
  assert (T3 : Forall (fun r => length r = 3) (concat (positions ps) ++ rows)).
  { apply Forall_app. split; [|apply (f2_three pos_row _ _ ltac:(now intros ? ? (_ & ? & ? & ? & _)) RR)]. pose proof (pos_shape natoms ps lss P) as SH. clear - SH. induction SH as [|t l [_ A] _ IH]; [constructor|]. cbn. apply Forall_app. now split. }
  assert (NE : concat (positions ps) ++ rows <> []) by (intros E; apply app_eq_nil in E as [_ E]; congruence).
  assert (N3 : 3 <> 0) by discriminate. rewrite (blank_words _ _ 3 N3 NE W T3). unfold fromstring. change (split_ws []) with words. rewrite W.
  destruct (opt_map parse _) as [l|] eqn:E; [|reflexivity]. unfold reshape.
  assert (LL : length l = length (concat (concat (positions ps) ++ rows))) by (clear - E; revert l E; generalize (concat (concat (positions ps) ++ rows)); induction l as [|t ts IH]; intros l E; cbn in E; [injection E as <-; reflexivity|]; destruct (parse t); [|discriminate]; destruct (opt_map parse ts) eqn:E2; [|discriminate]; injection E as <-; cbn; f_equal; now apply IH).
  rewrite LL, (concat_length 3) by exact T3. rewrite app_length, (concat_length natoms) by (eapply Forall_impl; [|exact (pos_shape natoms ps lss P)]; now intros t [? _]).
  destruct (Nat.eqb_spec ((length (positions ps) * natoms + length rows) * 3) (S (length (positions ps)) * (natoms * 3))) as [EQ|_]; [nia|reflexivity].
Qed.
End THEOREMS.
(** ** A file as pw.x prints it *)
Definition marks := [MEnergy; MForces; MForce; MStress; MPos; MCell].
Lemma only_check m l : forallb (fun m' => Bool.eqb (hasb m' l) (if mark_dec m' m then true else false)) marks = true -> only m l.
Proof.
  intros H. rewrite forallb_forall in H. assert (A : forall m', hasb m' l = if mark_dec m' m then true else false) by (intros m'; apply eqb_prop, H; destruct m'; cbn; tauto).
  split; [apply hasb_iff; rewrite A; now destruct (mark_dec m m)|]. intros m' Hm. apply hasb_iff in Hm. rewrite A in Hm. now destruct (mark_dec m' m).
Qed.
Lemma plain_check l : forallb (fun m' => negb (hasb m' l)) marks = true -> plain l.
Proof. intros H m K. apply hasb_iff in K. rewrite forallb_forall in H. specialize (H m). rewrite K in H. now discriminate H; destruct m; cbn; tauto. Qed.
Lemma data_check l : forallb (fun m' => negb (hasb m' l)) marks && negb (contains s_dd l) = true -> data l.
Proof. intros H. apply andb_true_iff in H as [A B]. split; [now apply plain_check|]. intros K. apply text_iff in K. change (contains s_dd l = true) in K; now rewrite K in B. Qed.
Definition z1 := map (fun z => show_int z).
Definition z2 := map z1.
Definition frow (i : Z) (f : list Z) : string := ("     atom    " ++ string_of_list_ascii (show_int i) ++ " type  1   force =     " ++ string_of_list_ascii (join (text "   ") (z1 f)))%string.
Definition txt3 (pre : string) (f : list Z) : pstr := text pre ++ join (text "   ") (z1 f).
Definition p_head := [Other (text "     lattice parameter (alat)  =      10  a.u."); Other (text "     number of atoms/cell      =            2"); Other []].
Definition p_res (e : Z) (f1 f2 : list Z) (s : list (list Z)) : result := Result (show_int e) [z2 [f1; f2]] (z2 s).
Definition l_res (e : Z) (f1 f2 : list Z) (s : list (list Z)) : list (list pstr) :=
  [[text "!    total energy              =     " ++ show_int e ++ text " Ry"];
   [text "     Forces acting on atoms (Ry/au):"; []; text (frow 1 f1); text (frow 2 f2)];
   (text "          total   stress  (Ry/bohr**3)                   (kbar)     P=   12" :: map (fun r => txt3 "   0   0   0      " r) s)].
Definition l_pos (x1 x2 : list Z) : list pstr := [text "ATOMIC_POSITIONS (bohr)"; txt3 "Si   " x1; txt3 "Si   " x2].
Definition demo_r0 := p_res (-7)%Z [1; 2; 3]%Z [4; 5; 6]%Z [[1; 0; 0]; [0; 1; 0]; [0; 0; 1]]%Z.
Definition demo_r1 := p_res (-8)%Z [3; 2; 1]%Z [6; 5; 4]%Z [[2; 0; 0]; [0; 2; 0]; [0; 0; 2]]%Z.
Definition demo_x1 := z2 [[0; 0; 0]; [1; 2; -1]]%Z.
Definition demo_x2 := z2 [[0; 0; 1]; [1; 3; -1]]%Z.
Definition demo_lss : list (list pstr) :=
  map (fun p => match p with Other l => [l] | _ => [] end) p_head ++ l_res (-7)%Z [1; 2; 3]%Z [4; 5; 6]%Z [[1; 0; 0]; [0; 1; 0]; [0; 0; 1]]%Z ++
  [l_pos [0; 0; 0]%Z [1; 2; -1]%Z] ++ l_res (-8)%Z [3; 2; 1]%Z [6; 5; 4]%Z [[2; 0; 0]; [0; 2; 0]; [0; 0; 2]]%Z.
Definition demo := p_head ++ of_result demo_r0 ++ of_step (demo_x1, demo_r1).
Ltac f2 := repeat (apply Forall2_cons; [|]); try apply Forall2_nil.
Ltac chk := vm_compute; reflexivity.
Ltac rows := f2; (split; [apply data_check; chk|]); first [eexists _, _, _; split; [|chk]; chk | eexists _, []; split; [|chk]; chk].
Ltac pieces := f2; first
  [ split; [reflexivity|apply plain_check; chk]
  | eexists; split; [reflexivity|]; split; [apply only_check; chk|chk]
  | eexists _, _; split; [reflexivity|]; split; [apply only_check; chk|]; split;
    [apply fr_plain; [apply plain_check; chk|]; apply (fr_row _ _ (z1 [_; _; _])); [split; [apply only_check; chk|eexists _, _; split; [|chk]; chk]|]; apply (fr_row _ _ (z1 [_; _; _])); [split; [apply only_check; chk|eexists _, _; split; [|chk]; chk]|]; constructor|split; [discriminate|repeat constructor]]
  | eexists _, _; split; [reflexivity|]; split; [apply only_check; chk|]; split; [reflexivity|]; rows
  | eexists _, _; split; [reflexivity|]; split; [apply only_check; chk|]; split; [chk|]; split; [reflexivity|]; rows ].
Lemma demo_file : file 2 demo (concat demo_lss).
Proof. exists demo_lss. split; [|reflexivity]. unfold demo, demo_lss, p_head, of_result, of_step, l_res, demo_r0, demo_r1, p_res. cbn [map app energy force stress fst snd]. pieces. Qed.
Definition pz (t : pstr) : option R := option_map IZR (read_int t).
Lemma demo_natoms more : says_natoms (concat demo_lss ++ more) 2.
Proof.
  exists [text "     lattice parameter (alat)  =      10  a.u."], (text "     number of atoms/cell      =            2"), (concat (skipn 2 demo_lss) ++ more).
  split; [reflexivity|]. split.
  - intros x [<- |[]] (p & q & r & E). assert (C : chain [text "number"; text "atoms/cell"] (text "     lattice parameter (alat)  =      10  a.u.")) by (rewrite E; exists p; eexists; split; [reflexivity|]; exists q; eexists; split; [reflexivity|exact I]).
    apply order_iff in C. vm_compute in C. discriminate C.
  - exists (text "     "), (text " of "), (text "      "), (text "            "), []. split; [reflexivity|]. split; [|intros c []]. split; [discriminate|]. intros c I. cbn in I. repeat destruct I as [<- |I]; try reflexivity. destruct I.
Qed.
Lemma demo_alat_of more : says_alat (text "     lattice parameter (alat)  =      10  a.u." :: more) (text "10").
Proof.
  exists [], (text "     lattice parameter (alat)  =      10  a.u."), more. split; [reflexivity|]. split; [intros x []|].
  exists (text "     "), (text " (alat)  "), (text "      "), (text "  "). split; [reflexivity|].
  split; [split; [discriminate|]; intros c I; cbn in I; repeat destruct I as [<- |I]; try reflexivity; destruct I|]. split; [split; [discriminate|]; intros c I; cbn in I; repeat destruct I as [<- |I]; try reflexivity; destruct I|].
  split; [discriminate|]. intros c I. cbn in I. repeat destruct I as [<- |I]; try (split; [reflexivity|discriminate]). destruct I.
Qed.
Lemma demo_alat more : says_alat (concat demo_lss ++ more) (text "10").
Proof. exact (demo_alat_of (concat (skipn 1 demo_lss) ++ more)). Qed.
Lemma pz_show z : pz (show_int z) = Some (IZR z). Proof. unfold pz. now rewrite read_show. Qed.
Lemma rz1 l : reads1 pz (z1 l) (map IZR l). Proof. induction l as [|z l IH]; constructor; [apply pz_show|exact IH]. Qed.
Lemma rz2 l : reads2 pz (z2 l) (map (map IZR) l). Proof. induction l as [|z l IH]; constructor; [apply rz1|exact IH]. Qed.
Definition rr := map (map IZR).
Lemma rz3 l : reads3 pz (map z2 l) (map rr l). Proof. induction l as [|z l IH]; constructor; [apply rz2|exact IH]. Qed.
Lemma rz4 l : reads4 pz (map (map z2) l) (map (map rr) l). Proof. induction l as [|z l IH]; constructor; [apply rz3|exact IH]. Qed.
(** All hypotheses of C85_run hold for this file. *)
Example C85_case Angstrom Bohr :
  get_coords pz Angstrom Bohr true (concat demo_lss) = Some (Some [rr [[0; 0; 0]; [1; 2; -1]]%Z]) /\ md_etot pz (concat demo_lss) = Some (Some [(-8)%R]) /\ scf_etot pz (concat demo_lss) = Some (Some (-7)%R) /\
  md_forces pz (concat demo_lss) = Some (Some [rr [[3; 2; 1]; [6; 5; 4]]%Z]).
Proof.
  pose proof (demo_natoms []) as NA. pose proof (demo_alat []) as SA. rewrite app_nil_r in NA, SA.
  destruct (C85_run pz Angstrom Bohr 2 1 demo_r0 [(demo_x1, demo_r1)] demo (concat demo_lss) [rr [[0; 0; 0]; [1; 2; -1]]%Z] (-7)%R [(-8)%R] [rr [[1; 2; 3]; [4; 5; 6]]%Z] [[rr [[3; 2; 1]; [6; 5; 4]]%Z]]
    (rr [[1; 0; 0]; [0; 1; 0]; [0; 0; 1]]%Z) [rr [[2; 0; 0]; [0; 2; 0]; [0; 0; 2]]%Z] (text "10") 10%R) as ((A & B & C & D) & E & _).
  - exact demo_file.
  - exact NA.
  - discriminate.
  - exact SA.
  - apply (pz_show 10).
  - reflexivity.
  - discriminate.
  - repeat constructor.
  - exact (rz3 [[[0; 0; 0]; [1; 2; -1]]]%Z).
  - exact (rz1 [-7; -8]%Z).
  - exact (rz4 [[[[1; 2; 3]; [4; 5; 6]]]; [[[3; 2; 1]; [6; 5; 4]]]]%Z).
  - exact (rz3 [[[1; 0; 0]; [0; 1; 0]; [0; 0; 1]]; [[2; 0; 0]; [0; 2; 0]; [0; 0; 2]]]%Z).
  - repeat split; assumption.
Qed.
(** The same run, stopped when the second structure was printed: the first structure has the
    energy -8, and comes with -7. *)
Lemma stop_file : file 2 (demo ++ [Positions [text "(bohr)"] demo_x2]) (concat (demo_lss ++ [l_pos [0; 0; 1]%Z [1; 3; -1]%Z])).
Proof.
  destruct demo_file as (lss & P & E). exists (demo_lss ++ [l_pos [0; 0; 1]%Z [1; 3; -1]%Z]). split; [|reflexivity]. apply Forall2_app; [|pieces].
  unfold demo, demo_lss, p_head, of_result, of_step, l_res, demo_r0, demo_r1, p_res. cbn [map app energy force stress fst snd]. pieces.
Qed.
Example C85_stopped_case Angstrom Bohr : let lines := concat (demo_lss ++ [l_pos [0; 0; 1]%Z [1; 3; -1]%Z]) in
  get_coords pz Angstrom Bohr true lines = Some (Some [rr [[0; 0; 0]; [1; 2; -1]]%Z; rr [[0; 0; 1]; [1; 3; -1]]%Z]) /\ md_etot pz lines = Some (Some [(-7)%R; (-8)%R]).
Proof.
  cbv zeta. pose proof (demo_natoms (l_pos [0; 0; 1]%Z [1; 3; -1]%Z)) as NA. pose proof (demo_alat (l_pos [0; 0; 1]%Z [1; 3; -1]%Z)) as SA.
  assert (EL : concat (demo_lss ++ [l_pos [0; 0; 1]%Z [1; 3; -1]%Z]) = concat demo_lss ++ l_pos [0; 0; 1]%Z [1; 3; -1]%Z) by (rewrite concat_app; cbn [concat]; now rewrite app_nil_r).
  rewrite <- EL in NA, SA.
  destruct (C85_stopped_refuted pz Angstrom Bohr 2 demo_r0 [(demo_x1, demo_r1)] demo_x2 _ _ [rr [[0; 0; 0]; [1; 2; -1]]%Z] (rr [[0; 0; 1]; [1; 3; -1]]%Z) (-7)%R [(-8)%R] (text "10") 10%R stop_file NA) as (A & B & _).
  - discriminate.
  - exact SA.
  - apply (pz_show 10).
  - reflexivity.
  - exact (rz3 [[[0; 0; 0]; [1; 2; -1]]; [[0; 0; 1]; [1; 3; -1]]]%Z).
  - exact (rz1 [-7; -8]%Z).
  - split; assumption.
Qed.
(** Blocks in different units: the second is taken in the unit of the first. *)
Theorem C85_mixed_units_refuted : exists ps lines, file 2 ps lines /\ says_natoms lines 2 /\ position_units ps = [[text "(bohr)"]; [text "(angstrom)"]] /\
  forall Angstrom Bohr, get_coords pz Angstrom Bohr true lines = Some (Some [rr [[0; 0; 0]; [1; 2; -1]]%Z; rr [[0; 0; 1]; [1; 3; -1]]%Z]).
Proof.
  set (l2 := [text "ATOMIC_POSITIONS (angstrom)"; txt3 "Si   " [0; 0; 1]%Z; txt3 "Si   " [1; 3; -1]%Z]).
  exists (demo ++ [Positions [text "(angstrom)"] demo_x2]), (concat (demo_lss ++ [l2])).
  assert (EL : concat (demo_lss ++ [l2]) = concat demo_lss ++ l2) by (rewrite concat_app; cbn [concat]; now rewrite app_nil_r).
  assert (FI : file 2 (demo ++ [Positions [text "(angstrom)"] demo_x2]) (concat (demo_lss ++ [l2]))).
  { exists (demo_lss ++ [l2]). split; [|reflexivity]. apply Forall2_app; [|pieces]. unfold demo, demo_lss, p_head, of_result, of_step, l_res, demo_r0, demo_r1, p_res. cbn [map app energy force stress fst snd]. pieces. }
  pose proof (demo_natoms l2) as NA. pose proof (demo_alat l2) as SA. rewrite <- EL in NA, SA.
  split; [exact FI|]. split; [exact NA|]. split; [reflexivity|]. intros Angstrom Bohr.
  refine (proj1 (C85_coords pz Angstrom Bohr 2 _ _ _ [[text "(angstrom)"]] (text "bohr") _ (text "10") 10%R FI NA ltac:(discriminate) SA (pz_show 10) _ eq_refl bohr_unit)).
  exact (rz3 [[[0; 0; 0]; [1; 2; -1]]; [[0; 0; 1]; [1; 3; -1]]]%Z).
Qed.
(** Headers with changing alat, in one file *)
Example C85_cell_case : let lines := [text "CELL_PARAMETERS (alat= 10)"; txt3 "" [1; 0; 0]%Z; txt3 "" [0; 1; 0]%Z; txt3 "" [0; 0; 1]%Z; text "CELL_PARAMETERS (alat= 20)"; txt3 "" [1; 0; 0]%Z; txt3 "" [0; 1; 0]%Z; txt3 "" [0; 0; 2]%Z] in
  get_cell_md pz 1 1 true lines None = Some (Some [rr [[10; 0; 0]; [0; 10; 0]; [0; 0; 10]]%Z; rr [[20; 0; 0]; [0; 20; 0]; [0; 0; 40]]%Z]).
Proof.
  cbv zeta. set (lines := [_; _; _; _; _; _; _; _]).
  assert (FI : file 2 [Cell [text "(alat="; text "10)"] (z2 [[1; 0; 0]; [0; 1; 0]; [0; 0; 1]]%Z); Cell [text "(alat="; text "20)"] (z2 [[1; 0; 0]; [0; 1; 0]; [0; 0; 2]]%Z)] lines).
  { exists [firstn 4 lines; skipn 4 lines]. split; [|reflexivity]. f2; (eexists _, _; split; [reflexivity|]; split; [apply only_check; chk|]; split; [chk|]; split; [reflexivity|]; f2; (split; [apply data_check; chk|]; split; chk)). }
  assert (AH : alat_headers lines [text "10"; text "20"]).
  { assert (ND : forall l, hasb MCell l = false -> ~ has MCell l) by (intros l A B; apply hasb_iff in B; congruence).
    unfold lines. apply (ah_cell (text " ") (text "10")); [intros c [<- |[]]; reflexivity|discriminate|intros c [<- |[<- |[]]]; cbn; tauto|]. do 3 (apply ah_other; [apply ND; chk|]).
    apply (ah_cell (text " ") (text "20")); [intros c [<- |[]]; reflexivity|discriminate|intros c [<- |[<- |[]]]; cbn; tauto|]. do 3 (apply ah_other; [apply ND; chk|]). constructor. }
  rewrite (C85_cell_alat pz 1 1 2 _ lines [text "(alat="; text "10)"] [[text "(alat="; text "20)"]] [rr [[1; 0; 0]; [0; 1; 0]; [0; 0; 1]]%Z; rr [[1; 0; 0]; [0; 1; 0]; [0; 0; 2]]%Z] [text "10"; text "20"] [10%R; 20%R] None FI); [|exact (rz3 [[[1; 0; 0]; [0; 1; 0]; [0; 0; 1]]; [[1; 0; 0]; [0; 1; 0]; [0; 0; 2]]]%Z)|reflexivity|exact AH|exact (rz1 [10; 20]%Z)|reflexivity|vm_compute; reflexivity].
  cbn [combine map fst snd rr]. repeat (apply (f_equal Some)). rewrite <- !mult_IZR. reflexivity.
Qed.
Example C85_plain_case : let lines := [text "     lattice parameter (alat)  =      10  a.u."; text "CELL_PARAMETERS (alat)"; txt3 "" [1; 0; 0]%Z; txt3 "" [0; 1; 0]%Z; txt3 "" [0; 0; 1]%Z] in
  get_cell_md pz 1 1 true lines None = Some (Some [rr [[10; 0; 0]; [0; 10; 0]; [0; 0; 10]]%Z]) /\ get_cell_md pz 1 1 false lines None = Some (Some [rr [[1; 0; 0]; [0; 1; 0]; [0; 0; 1]]%Z]).
Proof.
  cbv zeta. set (lines := [_; _; _; _; _]).
  assert (FI : file 2 [Other (hd [] lines); Cell [text "(alat)"] (z2 [[1; 0; 0]; [0; 1; 0]; [0; 0; 1]]%Z)] lines).
  { exists [firstn 1 lines; skipn 1 lines]. split; [|reflexivity]. apply Forall2_cons; [split; [reflexivity|apply data_check; chk]|]. f2. eexists _, _; split; [reflexivity|]; split; [apply only_check; chk|]; split; [chk|]; split; [reflexivity|]; f2; (split; [apply data_check; chk|]; split; chk). }
  assert (AU : names_unit [text "(alat)"] (text "alat")) by (split; [discriminate|]; split; [intros c I J; cbn in I, J; intuition congruence|right; left; reflexivity]).
  split.
  - rewrite (C85_cell_plain_alat pz 1 1 2 _ lines [text "(alat)"] [] [rr [[1; 0; 0]; [0; 1; 0]; [0; 0; 1]]%Z] (text "10") 10%R None FI); [|exact (demo_alat_of _)|apply (pz_show 10)|exact (rz3 [[[1; 0; 0]; [0; 1; 0]; [0; 0; 1]]]%Z)|reflexivity|exact AU|].
    + cbn [times map rr]. repeat (apply (f_equal Some)). rewrite <- !mult_IZR. reflexivity.
    + intros l I (p & q & r & t & E). assert (C : in_order [s_cell; text "alat"; text "="] l = true) by (apply order_iff; exists p; eexists; split; [exact E|]; exists q; eexists; split; [reflexivity|]; exists r; eexists; split; [reflexivity|exact Logic.I]).
      clear E. cbn in I. repeat (destruct I as [<- |I]; [vm_compute in C; discriminate C|]). destruct I.
  - apply (proj2 (C85_without_alat pz 1 1 2 _ lines FI) [text "(alat)"] []); [exact (rz3 [[[1; 0; 0]; [0; 1; 0]; [0; 0; 1]]]%Z)|reflexivity|left; exact AU].
Qed.
Print Assumptions C85_coords.
Print Assumptions C85_no_unit_refuted.
Print Assumptions C85_cell.
Print Assumptions C85_cell_alat.
Print Assumptions C85_cell_plain_alat.
Print Assumptions C85_without_alat.
Print Assumptions C85_run.
Print Assumptions C85_stopped_refuted.
Print Assumptions C85_matched.
Print Assumptions C85_no_forces_refuted.
Print Assumptions C85_cut.
Print Assumptions C85_mixed_units_refuted.
