(** C103: trajectories from dcd files *)
From Coq Require Import Ascii String List Arith Bool Lia ZArith Reals Lra.
From Verif Require Import Comb CombProofs Template ArrayIO Grep Vec3 Cells CellsSpec CellsProofs Lammps LammpsSpec LammpsProofs P_Lammps LammpsOut P_LammpsOut CalcRun CalcRunSpec P_CalcRun Dcd DcdTraj DcdTrajSpec.
From Verif Require DcdSpec P_Dcd ArrayIOProofs.
Import ListNotations.
Local Open Scope list_scope.
Local Open Scope nat_scope.
Local Notation length := List.length.

Lemma f2_maps {T U W} (f : T -> W) (g : U -> W) l m : Forall2 (fun a b => f a = g b) l m -> map f l = map g m.
Proof. induction 1 as [|a b l m E F IH]; [reflexivity|]. cbn. now rewrite E, IH. Qed.
Section S.
Variable deg : word -> word.
Variable val : word -> R.
Lemma coords_back pss gs : Forall2 (stores_atoms val) pss gs -> map (map (row_vec val)) (DcdSpec.coords_of gs) = pss.
Proof.
  unfold DcdSpec.coords_of. induction 1 as [|ps g pss gs E F IH]; [reflexivity|]. cbn [map]. f_equal; [|exact IH]. rewrite map_map. clear F IH. unfold stores_atoms in E. induction E as [|p a ps l (X & Y & Z) E IH]; [reflexivity|]. cbn [map]. rewrite IH. f_equal. unfold row_vec. cbn [nth]. rewrite X, Y, Z. now destruct p.
Qed.
Lemma traj_of (convang : bool) cord nset more title n gs (ms : list mat) pss : DcdSpec.header_ok cord nset more title n -> List.Forall (DcdSpec.proper n) gs -> gs <> [] ->
  Forall2 (stores_atoms val) pss gs ->
  map (row_cc val) (DcdSpec.cells_of (P_Dcd.the_angle deg convang) gs) = map cell2cc ms -> Forall (fun m => det m <> 0%R) ms ->
  dcd_traj deg val convang (Some (DcdSpec.write_dcd (DcdSpec.write_header cord nset more title n) gs)) =
    Some (Some (DTraj (map aligned_cell ms) (map cell2cc ms) pss (map volume_cell ms) (length gs) n)).
Proof.
  intros H P NE SA CC DT. unfold dcd_traj, get_dcd_data. destruct (P_Dcd.C49_round_trip deg cord nset more title n gs convang H P NE) as (-> & _). cbn [option_map dd_cc dd_coords dd_nstep dd_natoms]. rewrite CC, (coords_back pss gs SA). do 2 f_equal. f_equal.
  - rewrite map_map. reflexivity.
  - rewrite !map_map. apply map_ext_in. intros m I. rewrite Forall_forall in DT. specialize (DT m I). rewrite volume_cc2cell by now apply cell2cc_valid. now apply volume_same.
  - unfold DcdSpec.cells_of. apply map_length.
  - destruct gs as [|g gs]; [congruence|]. cbn [DcdSpec.coords_of map hd]. rewrite map_length. inversion P as [|? ? PG _]. destruct PG as (_ & _ & _ & _ & _ & _ & L & _). exact L.
Qed.
Lemma box_axes b : upright b -> along_axes (box_cell b). Proof. intros (X & Y & Z). unfold along_axes, box_cell. cbn. now repeat split. Qed.
Lemma box_cc b ps g : in_degrees val deg -> upright b -> lammps_stores val b ps g -> row_cc val [DcdSpec.fa g; DcdSpec.fb g; DcdSpec.fc g; deg (DcdSpec.cos_alpha g); deg (DcdSpec.cos_beta g); deg (DcdSpec.cos_gamma g)] = cell2cc (box_cell b).
Proof.
  intros D (X & Y & Z) (A & B & C & AL & BE & GA & _). unfold row_cc. cbn [nth]. rewrite A, B, C, !D, AL, BE, GA. unfold cell2cc, box_cell, angle, norm, dot. cbn [ra rb rc vx vy vz].
  assert (NA : sqrt (lx b * lx b + 0 * 0 + 0 * 0)%R = lx b) by (replace (lx b * lx b + 0 * 0 + 0 * 0)%R with (lx b * lx b)%R by ring; apply sqrt_square; lra). rewrite NA.
  replace (xy b * xy b + ly b * ly b + 0 * 0)%R with (xy b * xy b + ly b * ly b)%R by ring. replace (xy b * xz b + ly b * yz b + 0 * lz b)%R with (xy b * xz b + ly b * yz b)%R by ring. replace (lx b * xz b + 0 * yz b + 0 * lz b)%R with (lx b * xz b)%R by ring. replace (lx b * xy b + 0 * ly b + 0 * 0)%R with (lx b * xy b)%R by ring. reflexivity.
Qed.
(** LAMMPS: the dcd file and the text dump of the same steps give the same cells and positions. *)
Theorem C103_lammps parse cols natoms bs pss ds fs cord nset more title gs : in_degrees val deg -> Forall upright bs -> bs <> [] -> natoms <> 0 ->
  Forall plain cols -> NoDup cols -> In (text "xu") cols -> In (text "yu") cols -> In (text "zu") cols -> length bs = length ds ->
  Forall2 (fun bd f => frame_shows parse cols natoms (fst bd) (snd bd) f) (combine (map bounds bs) ds) fs ->
  Forall2 (Forall2 (fun row p => value_of (text "xu") cols row = Some (vx p) /\ value_of (text "yu") cols row = Some (vy p) /\ value_of (text "zu") cols row = Some (vz p))) ds pss ->
  DcdSpec.header_ok cord nset more title natoms -> List.Forall (DcdSpec.proper natoms) gs -> Forall2 (fun bp g => lammps_stores val (fst bp) (snd bp) g) (combine bs pss) gs ->
  let dump := dump_lines triclinic cols natoms fs in let file := DcdSpec.write_dcd (DcdSpec.write_header cord nset more title natoms) gs in
  exists t, lammps_dcd deg val (Some file) = Some (Some t) /\
    Lammps.get_cell parse dump = Some (t_cell t) /\ Lammps.get_coords parse dump = Some (Some (t_coords t)) /\
    t_cell t = map box_cell bs /\ t_coords t = pss /\ t_cc t = map (fun b => cell2cc (box_cell b)) bs /\ t_volume t = map (fun b => lx b * ly b * lz b)%R bs /\ t_nstep t = length bs /\ t_natoms t = natoms.
Proof.
  intros D UP NB NN CO ND IX IY IZ LE SH SP H P ST dump file. assert (LP : length pss = length bs) by (rewrite LE; symmetry; clear -SP; induction SP; cbn; congruence).
  assert (NG : gs <> []) by (destruct bs, pss; try discriminate; try congruence; cbn in ST; inversion ST; discriminate). assert (LG : length gs = length bs) by (clear -ST LP; revert pss gs LP ST; induction bs as [|b bs IH]; intros [|p pss] gs LP ST; try discriminate; inversion ST; subst; cbn; [reflexivity|]; f_equal; eapply IH; [|eassumption]; now injection LP).
  assert (SA : Forall2 (stores_atoms val) pss gs) by (clear -ST LP; revert pss gs LP ST; induction bs as [|b bs IH]; intros [|p pss] gs LP ST; try discriminate; inversion ST as [|x g l l' SX SL]; subst; constructor; [now destruct SX as (_ & _ & _ & _ & _ & _ & SX)|]; apply IH; [now injection LP|exact SL]).
  assert (CC : map (row_cc val) (DcdSpec.cells_of (P_Dcd.the_angle deg true) gs) = map cell2cc (map box_cell bs)).
  { unfold DcdSpec.cells_of, P_Dcd.the_angle. rewrite !map_map. clear -ST LP D UP. revert pss gs LP ST. induction UP as [|b bs U UP IH]; intros [|p pss] gs LP ST; try discriminate; inversion ST as [|x g l l' SX SL]; subst; [reflexivity|]. cbn [map]. f_equal; [exact (box_cc b p g D U SX)|]. apply (IH pss); [now injection LP|exact SL]. }
  assert (DT : Forall (fun m => det m <> 0%R) (map box_cell bs)). { apply Forall_forall. intros m I. apply in_map_iff in I as (b & <- & I). apply axes_det, box_axes. rewrite Forall_forall in UP. now apply UP. }
  assert (AC : map aligned_cell (map box_cell bs) = map box_cell bs). { rewrite map_map. apply map_ext_in. intros b I. apply aligned_id, box_axes. rewrite Forall_forall in UP. now apply UP. }
  eexists. split; [apply (traj_of true cord nset more title natoms gs (map box_cell bs) pss); assumption|]. cbn [t_cell t_cc t_coords t_volume t_nstep t_natoms]. rewrite AC.
  split; [now apply (C58_cell parse cols natoms bs ds fs)|]. split.
  - assert (NDS : ds <> []) by (destruct ds; [destruct bs; [congruence|discriminate]|discriminate]). destruct (C58_atoms parse triclinic cols natoms (map bounds bs) ds fs (or_introl eq_refl) CO ND NN NDS ltac:(now rewrite map_length) SH) as ((r & R1 & R2 & _) & _). fold dump in R1. rewrite R1. destruct (R2 ltac:(now repeat split)) as (vs & -> & F). do 2 f_equal.
    clear -F SP. revert vs F. induction SP as [|d ps ds pss E SP IH]; intros vs F; inversion F as [|x v l l' FX FL]; subst; [reflexivity|]. f_equal; [|now apply IH]. clear -FX E. revert v FX. induction E as [|row p d ps (X & Y & Z) E IH]; intros v FX; inversion FX as [|x w l l' (X' & Y' & Z') FL]; subst; [reflexivity|]. f_equal; [|now apply IH]. destruct p, w; cbn in *. congruence.
  - split; [reflexivity|]. split; [reflexivity|]. split; [now rewrite map_map|]. split; [|now split]. rewrite map_map. apply map_ext_in. intros b I. rewrite Forall_forall in UP. destruct (UP b I) as (X & Y & Z). unfold volume_cell, box_cell, det, dot, cross. cbn [ra rb rc vx vy vz]. rewrite Rabs_pos_eq; [ring|]. assert (0 < lx b * (ly b * lz b))%R by (repeat apply Rmult_lt_0_compat; assumption). lra.
Qed.
(** A box without tilts: the text reader raises, the dcd reader does not. *)
Theorem C103_orthogonal_refuted parse cols natoms (bs : list box) pss (rs ds : list (list (list R))) fs cord nset more title gs : in_degrees val deg -> Forall upright bs -> bs <> [] ->
  Forall plain cols -> length rs = length ds -> fs <> [] -> Forall (Forall (fun r => length r = 2)) rs -> Forall2 (fun bd f => frame_shows parse cols natoms (fst bd) (snd bd) f) (combine rs ds) fs ->
  DcdSpec.header_ok cord nset more title natoms -> List.Forall (DcdSpec.proper natoms) gs -> length pss = length bs -> Forall2 (fun bp g => lammps_stores val (fst bp) (snd bp) g) (combine bs pss) gs ->
  Lammps.get_cell parse (dump_lines LammpsSpec.orthogonal cols natoms fs) = None /\
  exists t, lammps_dcd deg val (Some (DcdSpec.write_dcd (DcdSpec.write_header cord nset more title natoms) gs)) = Some (Some t) /\ t_cell t = map box_cell bs /\ t_coords t = pss.
Proof.
  intros D UP NB CO LE NF TW SH H P LP ST. split; [now apply (C58_orthogonal_refuted parse cols natoms rs ds fs)|].
  assert (NG : gs <> []) by (destruct bs, pss; try discriminate; try congruence; cbn in ST; inversion ST; discriminate).
  assert (SA : Forall2 (stores_atoms val) pss gs) by (clear -ST LP; revert pss gs LP ST; induction bs as [|b bs IH]; intros [|p pss] gs LP ST; try discriminate; inversion ST as [|x g l l' SX SL]; subst; constructor; [now destruct SX as (_ & _ & _ & _ & _ & _ & SX)|]; apply IH; [now injection LP|exact SL]).
  assert (CC : map (row_cc val) (DcdSpec.cells_of (P_Dcd.the_angle deg true) gs) = map cell2cc (map box_cell bs)).
  { unfold DcdSpec.cells_of, P_Dcd.the_angle. rewrite !map_map. clear -ST LP D UP. revert pss gs LP ST. induction UP as [|b bs U UP IH]; intros [|p pss] gs LP ST; try discriminate; inversion ST as [|x g l l' SX SL]; subst; [reflexivity|]. cbn [map]. f_equal; [exact (box_cc b p g D U SX)|]. apply (IH pss); [now injection LP|exact SL]. }
  assert (DT : Forall (fun m => det m <> 0%R) (map box_cell bs)). { apply Forall_forall. intros m I. apply in_map_iff in I as (b & <- & I). apply axes_det, box_axes. rewrite Forall_forall in UP. now apply UP. }
  eexists. split; [apply (traj_of true cord nset more title natoms gs (map box_cell bs) pss); assumption|]. cbn [t_cell t_coords]. split; [|reflexivity]. rewrite map_map. apply map_ext_in. intros b I. apply aligned_id, box_axes. rewrite Forall_forall in UP. now apply UP.
Qed.
(** CP2K: lengths, angles and volume of every cell are right; the cell itself is the one turned along the axes. *)
Theorem C103_cp2k ms pss natoms cord nset more title gs : Forall (fun m => det m <> 0%R) ms -> ms <> [] -> length pss = length ms ->
  DcdSpec.header_ok cord nset more title natoms -> List.Forall (DcdSpec.proper natoms) gs -> Forall2 (fun mp g => cp2k_stores val (fst mp) (snd mp) g) (combine ms pss) gs ->
  exists t, cp2k_dcd deg val (Some (DcdSpec.write_dcd (DcdSpec.write_header cord nset more title natoms) gs)) = Some (Some t) /\
    t_coords t = pss /\ t_cc t = map cell2cc ms /\ t_volume t = map volume_cell ms /\ t_nstep t = length ms /\ t_natoms t = natoms /\
    Forall2 (fun m c => along_axes c /\ same_shape c m) ms (t_cell t) /\ (Forall along_axes ms -> t_cell t = ms).
Proof.
  intros DT NM LP H P ST. assert (NG : gs <> []) by (destruct ms, pss; try discriminate; try congruence; cbn in ST; inversion ST; discriminate). assert (LG : length gs = length ms) by (clear -ST LP; revert pss gs LP ST; induction ms as [|b bs IH]; intros [|p pss] gs LP ST; try discriminate; inversion ST; subst; cbn; [reflexivity|]; f_equal; eapply IH; [|eassumption]; now injection LP).
  assert (SA : Forall2 (stores_atoms val) pss gs) by (clear -ST LP; revert pss gs LP ST; induction ms as [|b bs IH]; intros [|p pss] gs LP ST; try discriminate; inversion ST as [|x g l l' SX SL]; subst; constructor; [now destruct SX as (_ & _ & _ & _ & _ & _ & SX)|]; apply IH; [now injection LP|exact SL]).
  assert (CC : map (row_cc val) (DcdSpec.cells_of (P_Dcd.the_angle deg false) gs) = map cell2cc ms).
  { unfold DcdSpec.cells_of, P_Dcd.the_angle. rewrite !map_map. clear -ST LP. revert pss gs LP ST. induction ms as [|b bs IH]; intros [|p pss] gs LP ST; try discriminate; inversion ST as [|x g l l' SX SL]; subst; [reflexivity|]. cbn [map]. f_equal; [|apply (IH pss); [now injection LP|exact SL]]. destruct SX as (A & B & C & AL & BE & GA & _). cbn [fst] in *. unfold row_cc. cbn [nth]. now rewrite A, B, C, AL, BE, GA. }
  eexists. split; [apply (traj_of false cord nset more title natoms gs ms pss); assumption|]. cbn [t_cell t_cc t_coords t_volume t_nstep t_natoms]. split; [reflexivity|]. split; [reflexivity|]. split; [reflexivity|]. split; [exact LG|]. split; [reflexivity|]. split.
  - clear -DT. induction DT as [|m ms D DT IH]; cbn; constructor; [exact (aligned_axes m D)|exact IH].
  - clear. induction 1 as [|m ms A F IH]; [reflexivity|]. cbn. now rewrite (aligned_id m A), IH.
Qed.
(** If the cell does not lie along the axes, the positions do not belong to the cell: some atom has other
    fractional coordinates than in the run. *)
Theorem C103_unaligned_refuted m natoms cord nset more title : det m <> 0%R -> ~ along_axes m -> DcdSpec.header_ok cord nset more title natoms -> natoms <> 0 ->
  exists f, forall ps gs, nth_error ps 0 = Some (vecmat f m) -> length ps = natoms -> List.Forall (DcdSpec.proper natoms) gs -> Forall2 (fun mp g => cp2k_stores val (fst mp) (snd mp) g) [(m, ps)] gs ->
    exists t c x, cp2k_dcd deg val (Some (DcdSpec.write_dcd (DcdSpec.write_header cord nset more title natoms) gs)) = Some (Some t) /\
      t_cell t = [c] /\ nth_error (nth 0 (t_coords t) []) 0 = Some x /\ x <> vecmat f c.
Proof.
  intros D NA H NN. destruct (aligned_axes m D) as (AX & _). assert (NE : exists f, vecmat f m <> vecmat f (aligned_cell m)).
  { assert (VD : forall u v : vec, {u = v} + {u <> v}) by (intros [a b c] [a' b' c']; destruct (Req_EM_T a a'), (Req_EM_T b b'), (Req_EM_T c c'); subst; try (left; reflexivity); right; congruence).
    destruct (VD (ra m) (ra (aligned_cell m))) as [E1|N]; [|exists e1; now rewrite !row1]. destruct (VD (rb m) (rb (aligned_cell m))) as [E2|N]; [|exists e2; now rewrite !row2]. destruct (VD (rc m) (rc (aligned_cell m))) as [E3|N]; [|exists e3; now rewrite !row3].
    exfalso. apply NA. replace m with (aligned_cell m); [exact AX|]. destruct m, (aligned_cell _); cbn in *. congruence. }
  destruct NE as (f & NE). exists f. intros ps gs E0 LP P ST. destruct (C103_cp2k [m] [ps] natoms cord nset more title gs ltac:(now constructor) ltac:(discriminate) eq_refl H P ST) as (t & T & CO & CC & _ & _ & _ & CE & _). inversion CE as [|? c ? l (A1 & A2) CL]; subst. inversion CL; subst.
  exists t, c, (vecmat f m). split; [exact T|]. split; [congruence|]. split; [rewrite CO; exact E0|]. replace c with (aligned_cell m); [exact NE|]. apply tri_unique; [exact AX|exact A1|]. destruct (aligned_axes m D) as (_ & S). destruct S as (S1 & S2 & S3 & S4 & S5 & S6), A2 as (B1 & B2 & B3 & B4 & B5 & B6). unfold same_shape. repeat split; congruence.
Qed.
(** no dcd file: nothing is set, no exception *)
Theorem C103_missing : lammps_dcd deg val None = Some None /\ cp2k_dcd deg val None = Some None. Proof. now split. Qed.
End S.
(** ** A case: numbers as fractions of two bytes, degrees as one more "byte" in front *)
Section Case.
Local Open Scope R_scope.
Definition deg103 (w : word) : word := (-1)%Z :: w.
Fixpoint val103 (w : word) : R :=
  match w with
  | (-1)%Z :: w' => acos (val103 w') * 180 / PI
  | a :: b :: _ => IZR a / IZR b
  | _ => 0
  end.
Definition q8 (a b : Z) : word := [a; b; 0; 0; 0; 0; 0; 0]%Z.
Definition q4 (a b : Z) : word := [a; b; 0; 0]%Z.
Definition b103 := Box 0 0 0 10 4 7 3 0 0.
Definition g103 := DcdSpec.Frame (q8 10 1) (q8 5 1) (q8 7 1) (q8 0 1) (q8 0 1) (q8 3 5) [(q4 1 2, q4 3 1, q4 5 1); (q4 2 1, q4 2 1, q4 9 1)].
Definition p103 := [Vec (1/2) 3 5; Vec 2 2 9].
Lemma sqrt16 x y : 0 <= y -> x = y * y -> sqrt x = y. Proof. intros P ->. now apply sqrt_square. Qed.
Lemma stores103 : in_degrees val103 deg103 /\ upright b103 /\ lammps_stores val103 b103 p103 g103 /\ DcdSpec.proper 2 g103.
Proof.
  split; [intros w; reflexivity|]. split; [unfold upright, b103; cbn; lra|]. split; [|repeat constructor]. unfold lammps_stores, b103, g103. cbn [lx ly lz xy xz yz DcdSpec.fa DcdSpec.fb DcdSpec.fc DcdSpec.cos_alpha DcdSpec.cos_beta DcdSpec.cos_gamma val103 q8].
  rewrite (sqrt16 (3 * 3 + 4 * 4) 5) by lra. rewrite (sqrt16 (0 * 0 + 0 * 0 + 7 * 7) 7) by lra. repeat split; try lra. unfold stores_atoms, p103. cbn [DcdSpec.atoms]. repeat constructor; cbn; lra.
Qed.
Definition rows103 := [[1; 1/2; 3; 5]; [2; 2; 2; 9]]%R.
Definition pz103 (s : pstr) : option R := if pstr_eqb s (text "0.5") then Some (1/2) else pz s.
Definition f103 := Frame 0 (zt [[0; 13; 3]; [0; 4; 0]; [0; 7; 0]]%Z) [[text "1"; text "0.5"; text "3"; text "5"]; [text "2"; text "2"; text "2"; text "9"]].
Lemma shows103 : frame_shows pz103 dcols 2 (bounds b103) rows103 f103.
Proof.
  split; [|split; [reflexivity|split; [|repeat split; cbn; repeat constructor; discriminate]]].
  - unfold f103, zt, bounds, b103, smallest, largest. cbn [boxtxt map fold_right xlo ylo zlo lx ly lz xy xz yz].
    repeat apply Forall2_cons; try apply Forall2_nil; (split; [P_Lammps.word|]); (match goal with |- pz103 ?s = _ => replace (pz103 s) with (pz s) by reflexivity end); unfold pz; rewrite ArrayIOProofs.read_show; cbn [option_map]; f_equal; unfold Rmin, Rmax; repeat (destruct (Rle_dec _ _)); lra.
  - unfold f103, rows103. cbn [rows]. repeat apply Forall2_cons; try apply Forall2_nil; (split; [P_Lammps.word|]); unfold pz103, pz; try reflexivity.
Qed.
Example case103 : exists t, lammps_dcd deg103 val103 (Some (DcdSpec.write_dcd (DcdSpec.write_header [67; 79; 82; 68]%Z 1 (repeat 0%Z 76) (repeat 32%Z 164) 2) [g103])) = Some (Some t) /\
  Lammps.get_cell pz103 (dump_lines triclinic dcols 2 [f103]) = Some (t_cell t) /\ Lammps.get_coords pz103 (dump_lines triclinic dcols 2 [f103]) = Some (Some (t_coords t)) /\ t_coords t = [p103] /\ t_volume t = [280] /\
  t_cell t = [Mat (Vec 10 0 0) (Vec 3 4 0) (Vec 0 0 7)].
Proof.
  destruct stores103 as (D & U & ST & P). assert (ND : NoDup dcols) by (unfold dcols; cbn [map]; repeat constructor; cbn; intuition discriminate).
  destruct (C103_lammps deg103 val103 pz103 dcols 2 [b103] [p103] [rows103] [f103] [67; 79; 82; 68]%Z 1 (repeat 0%Z 76) (repeat 32%Z 164) [g103] D) as (t & T & C & X & C' & X' & _ & V & _);
    [now constructor|discriminate|discriminate|apply dcols_plain|exact ND|unfold dcols; cbn; tauto|unfold dcols; cbn; tauto|unfold dcols; cbn; tauto|reflexivity|constructor; [exact shows103|constructor]|repeat constructor|unfold DcdSpec.header_ok; repeat split; try reflexivity; lia|now constructor|constructor; [exact ST|constructor]|].
  exists t. split; [exact T|]. split; [exact C|]. split; [exact X|]. split; [exact X'|]. split; [|exact C']. rewrite V. cbn. f_equal. lra.
Qed.
(** a cell of a CP2K run that does not lie along the axes *)
Example unaligned103 : let m := Mat (Vec 0 2 0) (Vec 3 0 0) (Vec 0 0 (-1)) in det m <> 0 /\ ~ along_axes m /\
  exists val f1 f2 g, Forall2 (fun mp g => cp2k_stores val (fst mp) (snd mp) g) [(m, [Vec f1 f2 1])] [g] /\ DcdSpec.proper 1 g.
Proof.
  cbv zeta. split; [unfold det, dot, cross; cbn; lra|]. split; [unfold along_axes; cbn; intros H; decompose [and] H; lra|].
  set (m := Mat _ _ _). exists (fun w => match nth 0 w 0%Z with 1%Z => norm (ra m) | 2%Z => norm (rb m) | 3%Z => norm (rc m) | 4%Z => angle (rb m) (rc m) | 5%Z => angle (ra m) (rc m) | 6%Z => angle (ra m) (rb m) | _ => 1 end), 1, 1, (DcdSpec.Frame (q8 1 0) (q8 2 0) (q8 3 0) (q8 4 0) (q8 5 0) (q8 6 0) [(q4 7 0, q4 7 0, q4 7 0)]).
  split; [|repeat constructor]. constructor; [|constructor]. cbn [fst snd]. unfold cp2k_stores. cbn [DcdSpec.fa DcdSpec.fb DcdSpec.fc DcdSpec.cos_alpha DcdSpec.cos_beta DcdSpec.cos_gamma nth q8]. repeat (split; [reflexivity|]). repeat constructor.
Qed.
End Case.
Print Assumptions C103_lammps. Print Assumptions C103_orthogonal_refuted. Print Assumptions C103_cp2k. Print Assumptions C103_unaligned_refuted. Print Assumptions C103_missing.
