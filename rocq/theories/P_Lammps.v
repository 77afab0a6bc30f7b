(** C58: the LAMMPS reader returns what the dump and the log print. *)
From Coq Require Import Ascii String List Arith Bool Lia ZArith Reals Lra.
From Verif Require Import Comb CombProofs Template ArrayIO ArrayIOProofs Grep GrepProofs Vec3 Lammps LammpsSpec LammpsProofs.
Import ListNotations.
Local Open Scope list_scope.
Local Open Scope nat_scope.
Local Notation length := List.length.
(** A triclinic dump of any number of frames: the cells are the boxes', for every origin and
    every sign of the tilts. *)
Theorem C58_cell parse cols natoms (bs : list box) (ds : list (list (list R))) (fs : list frame) :
  Forall plain cols -> length bs = length ds ->
  Forall2 (fun bd f => frame_shows parse cols natoms (fst bd) (snd bd) f) (combine (map bounds bs) ds) fs ->
  get_cell parse (dump_lines triclinic cols natoms fs) = Some (map box_cell bs).
Proof.
  intros CO LE SH. assert (LE' : length (map bounds bs) = length ds) by (now rewrite map_length). unfold get_cell.
  rewrite (box_numbers parse triclinic cols natoms triclinic_ok CO (map bounds bs) ds fs SH LE').
  rewrite (count_box triclinic cols natoms triclinic_ok CO fs (goods parse cols natoms _ _ _ SH)).
  rewrite (frames_count parse cols natoms _ _ _ SH LE'), <- LE', <- (map_length (@concat R)).
  rewrite reshape_concat. 2:{ clear. induction bs; constructor; [reflexivity|assumption]. }
  f_equal. rewrite !map_map. apply map_ext. apply frame_cell_bounds.
Qed.
(** The dump of an orthogonal box has no tilt columns: reading its cell is an error, always. *)
Theorem C58_orthogonal_refuted parse cols natoms (bs ds : list (list (list R))) (fs : list frame) :
  Forall plain cols -> length bs = length ds -> fs <> [] ->
  Forall (Forall (fun r => length r = 2)) bs ->
  Forall2 (fun bd f => frame_shows parse cols natoms (fst bd) (snd bd) f) (combine bs ds) fs ->
  get_cell parse (dump_lines orthogonal cols natoms fs) = None.
Proof.
  intros CO LE NE TW SH. unfold get_cell.
  rewrite (box_numbers parse orthogonal cols natoms orthogonal_ok CO bs ds fs SH LE).
  rewrite (count_box orthogonal cols natoms orthogonal_ok CO fs (goods parse cols natoms _ _ _ SH)).
  assert (FC := frames_count parse cols natoms _ _ _ SH LE). rewrite FC, <- LE.
  assert (B3 : Forall (fun b : list (list R) => length b = 3) bs).
  { clear -SH LE. revert ds fs SH LE. induction bs as [|b bs IH]; intros [|d ds] fs SH LE; try discriminate; constructor; cbn in SH; inversion SH; subst.
    - now destruct H1 as (_ & ? & _).
    - eapply IH; [eassumption|]. cbn in LE. lia. }
  assert (L6 : length (concat (map (@concat R) bs)) = length bs * 6).
  { rewrite (concat_length 6), map_length; [reflexivity|]. clear -B3 TW. induction TW as [|b bs H _ IH]; [constructor|]. inversion B3; subst.
    cbn. constructor; [|now apply IH]. rewrite (concat_length 2) by exact H. lia. }
  unfold reshape. rewrite L6. assert (length bs <> 0) by (rewrite LE, <- FC; destruct fs; cbn; congruence).
  destruct (Nat.eqb_spec (length bs * 6) (length bs * 9)); [lia|reflexivity].
Qed.
Definition box_line (l : pstr) : Prop := l = triclinic \/ l = orthogonal.
Lemma box_line_ok l : box_line l -> box_ok l.
Proof. intros [-> | ->]; [apply triclinic_ok|apply orthogonal_ok]. Qed.
Theorem C58_natoms boxline cols natoms (f : frame) (fs : list frame) :
  get_natoms (dump_lines boxline cols natoms (f :: fs)) = Some natoms.
Proof. apply natoms_dump. Qed.
(** Per-atom arrays: entry (frame, atom) holds the three named columns of that row; None when a
    column is missing. *)
Definition atoms_of (kx ky kz : string) (cols : list pstr) (ds : list (list (list R))) (res : option (list (list vec))) : Prop :=
  (In (text kx) cols /\ In (text ky) cols /\ In (text kz) cols ->
   exists vs, res = Some vs /\
   Forall2 (Forall2 (fun row v => value_of (text kx) cols row = Some (vx v) /\ value_of (text ky) cols row = Some (vy v) /\
                                  value_of (text kz) cols row = Some (vz v))) ds vs) /\
  (~ (In (text kx) cols /\ In (text ky) cols /\ In (text kz) cols) -> res = None).
Theorem C58_atoms parse boxline cols natoms (bs ds : list (list (list R))) (fs : list frame) :
  box_line boxline -> Forall plain cols -> NoDup cols -> natoms <> 0 -> ds <> [] -> length bs = length ds ->
  Forall2 (fun bd f => frame_shows parse cols natoms (fst bd) (snd bd) f) (combine bs ds) fs ->
  let dump := dump_lines boxline cols natoms fs in
  (exists r, get_coords parse dump = Some r /\ atoms_of "xu" "yu" "zu" cols ds r) /\
  (exists r, get_coords_frac parse dump = Some r /\ atoms_of "xsu" "ysu" "zsu" cols ds r) /\
  (exists r, get_forces parse dump = Some r /\ atoms_of "fx" "fy" "fz" cols ds r) /\
  (exists r, get_velocity parse dump = Some r /\ atoms_of "vx" "vy" "vz" cols ds r).
Proof.
  intros BL CO ND NA NE LE SH dump. apply box_line_ok in BL.
  assert (D := dump_dct_data parse boxline cols natoms BL CO bs ds fs SH LE NE NA). fold dump in D.
  assert (DS := data_shape parse cols natoms bs ds fs SH LE).
  assert (K : forall kx ky kz, exists r, getter parse kx ky kz dump = Some r /\ atoms_of kx ky kz cols ds r).
  { intros kx ky kz. unfold getter. rewrite D. eexists; split; [reflexivity|]. split.
    - intros (Ix & Iy & Iz). destruct (arr3d_in cols natoms ds (text kx) (text ky) (text kz) ND NA Ix Iy Iz DS) as (vs & E & F). eauto.
    - intros N. now apply arr3d_out. }
  repeat split; apply K.
Qed.
(** The thermo table: the rows of all runs in the log, column by column. *)
Definition thermo_of (key : string) (cols : list pstr) (data : list (list R)) (res : option (list R)) : Prop :=
  (In (text key) cols -> exists xs, res = Some xs /\ Forall2 (fun row x => value_of (text key) cols row = Some x) data xs) /\
  (~ In (text key) cols -> res = None).
Lemma f2_map_value key cols (data : list (list R)) : Forall (fun r => value_of key cols r = Some (value0 key cols r)) data ->
  Forall2 (fun row x => value_of key cols row = Some x) data (map (value0 key cols) data).
Proof. induction 1; constructor; assumption. Qed.
Theorem C58_thermo parse hs rs rest data :
  let cols := text "Step" :: hs in
  Forall tword hs -> NoDup cols -> Forall (fun r => Forall no_step (before r)) rs -> Forall no_step rest ->
  Forall2 (Forall2 (tshows parse)) (concat (map trows rs)) data -> Forall (fun d => length d = length cols) data -> data <> [] ->
  let log := log_lines cols rs rest in
  (exists r, get_etot parse log = Some r /\ thermo_of "PotEng" cols data r) /\
  (exists r, get_ekin parse log = Some r /\ thermo_of "KinEng" cols data r) /\
  (exists r, get_temperature parse log = Some r /\ thermo_of "Temp" cols data r) /\
  (exists r, get_volume parse log = Some r /\ thermo_of "Volume" cols data r).
Proof.
  intros cols HS ND B NR F LD NE log.
  assert (D := thermo_data parse hs rs rest data HS B NR F LD NE). change (s_step :: hs) with cols in D. fold log in D.
  assert (K : forall key, exists r, thermo_get parse key log = Some r /\ thermo_of key cols data r).
  { intros key. unfold thermo_get. rewrite D. eexists; split; [reflexivity|]. split.
    - intros I. destruct (column_in (text key) cols data ND I LD) as [E V]. eexists; split; [exact E|]. now apply f2_map_value.
    - intros I. now apply column_out. }
  repeat split; apply K.
Qed.
(** The stress of a row is the symmetric tensor of its pressure columns. *)
Definition tensor_row (cols : list pstr) (row : list R) (m : mat) : Prop :=
  let v k := value_of (text k) cols row in
  v "Pxx"%string = Some (vx (ra m)) /\ v "Pxy"%string = Some (vy (ra m)) /\ v "Pxz"%string = Some (vz (ra m)) /\
  v "Pxy"%string = Some (vx (rb m)) /\ v "Pyy"%string = Some (vy (rb m)) /\ v "Pyz"%string = Some (vz (rb m)) /\
  v "Pxz"%string = Some (vx (rc m)) /\ v "Pyz"%string = Some (vy (rc m)) /\ v "Pzz"%string = Some (vz (rc m)).
Theorem C58_stress parse hs rs rest data :
  let cols := text "Step" :: hs in
  Forall tword hs -> NoDup cols -> Forall (fun r => Forall no_step (before r)) rs -> Forall no_step rest ->
  Forall2 (Forall2 (tshows parse)) (concat (map trows rs)) data -> Forall (fun d => length d = length cols) data -> data <> [] ->
  Forall (fun k => In (text k) cols) ["Pxx"; "Pyy"; "Pzz"; "Pyz"; "Pxz"; "Pxy"]%string ->
  exists ms, get_stress parse (log_lines cols rs rest) = Some (Some ms) /\ Forall2 (tensor_row cols) data ms.
Proof.
  intros cols HS ND B NR F LD NE KS.
  assert (D := thermo_data parse hs rs rest data HS B NR F LD NE). change (s_step :: hs) with cols in D.
  unfold get_stress. rewrite D, (columns_in _ _ _ ND KS LD). eexists; split; [reflexivity|].
  rewrite (transpose_map _ data 0 []) by reflexivity. rewrite map_map.
  assert (V : Forall (fun r => forall k, In k ["Pxx"; "Pyy"; "Pzz"; "Pyz"; "Pxz"; "Pxy"]%string -> value_of (text k) cols r = Some (value0 (text k) cols r)) data).
  { apply Forall_forall. intros r Hr k Hk. rewrite Forall_forall in KS. destruct (column_in (text k) cols data ND (KS k Hk) LD) as [_ V].
    rewrite Forall_forall in V. now apply V. }
  clear -V. induction V as [|r data H _ IH]; [constructor|]. cbn [map]. constructor; [|exact IH].
  unfold tensor_row, tensor_of_voigt. cbn [map nth ra rb rc vx vy vz].
  repeat split; apply H; cbn; tauto.
Qed.
(** The cell constants of a row, in the order a, b, c, alpha, beta, gamma. *)
Theorem C58_cryst_const parse hs rs rest data :
  let cols := text "Step" :: hs in
  Forall tword hs -> NoDup cols -> Forall (fun r => Forall no_step (before r)) rs -> Forall no_step rest ->
  Forall2 (Forall2 (tshows parse)) (concat (map trows rs)) data -> Forall (fun d => length d = length cols) data -> data <> [] ->
  Forall (fun k => In (text k) cols) ["Cella"; "Cellb"; "Cellc"; "CellAlpha"; "CellBeta"; "CellGamma"]%string ->
  exists ms, get_cryst_const parse (log_lines cols rs rest) = Some (Some ms) /\
    Forall2 (fun row m => map (fun k => value_of (text k) cols row) ["Cella"; "Cellb"; "Cellc"; "CellAlpha"; "CellBeta"; "CellGamma"]%string = map Some m) data ms.
Proof.
  intros cols HS ND B NR F LD NE KS.
  assert (D := thermo_data parse hs rs rest data HS B NR F LD NE). change (s_step :: hs) with cols in D.
  unfold get_cryst_const. rewrite D, (columns_in _ _ _ ND KS LD). eexists; split; [reflexivity|].
  rewrite (transpose_map _ data 0 []) by reflexivity.
  assert (V : Forall (fun r => forall k, In k ["Cella"; "Cellb"; "Cellc"; "CellAlpha"; "CellBeta"; "CellGamma"]%string -> value_of (text k) cols r = Some (value0 (text k) cols r)) data).
  { apply Forall_forall. intros r Hr k Hk. rewrite Forall_forall in KS. destruct (column_in (text k) cols data ND (KS k Hk) LD) as [_ V].
    rewrite Forall_forall in V. now apply V. }
  clear -V. induction V as [|r data H _ IH]; [constructor|]. cbn [map]. constructor; [|exact IH].
  cbn [map]. rewrite !H by (cbn; tauto). reflexivity.
Qed.
(** ** A case: integers as texts; two frames of two atoms in a tilted box, two runs *)
Definition pz (t : pstr) : option R := option_map IZR (read_int t).
Definition dcols := map text ["id"; "xu"; "yu"; "zu"]%string.
Definition zt (l : list (list Z)) : list (list pstr) := map (map show_int) l.
Definition zr (l : list (list Z)) : list (list R) := map (map IZR) l.
Definition b1 := Box 1 2 3 10 9 8 (-2) 3 (-1).
Definition b2 := Box 0 0 0 7 6 5 (-1) (-2) 4.
Definition f1 := Frame 0 (zt [[-1; 14; -2]; [1; 11; 3]; [3; 11; -1]]%Z) (zt [[1; 5; 6; 7]; [2; 8; 9; 4]]%Z).
Definition f2 := Frame 10 (zt [[-3; 7; -1]; [0; 10; -2]; [0; 5; 4]]%Z) (zt [[1; 3; 2; 1]; [2; 1; 0; 3]]%Z).
Definition d1 := zr [[1; 5; 6; 7]; [2; 8; 9; 4]]%Z.
Definition d2 := zr [[1; 3; 2; 1]; [2; 1; 0; 3]]%Z.
Ltac word := repeat split; try discriminate; try reflexivity; repeat constructor.
Lemma frames_case : Forall2 (fun bd f => frame_shows pz dcols 2 (fst bd) (snd bd) f) (combine (map bounds [b1; b2]) [d1; d2]) [f1; f2].
Proof.
  cbn [map combine]. repeat apply Forall2_cons; try apply Forall2_nil; cbn [fst snd].
  - split; [|split; [reflexivity|split; [|repeat split; cbn; repeat constructor; discriminate]]].
    + unfold f1, zt, bounds, b1, smallest, largest. cbn [boxtxt map fold_right xlo ylo zlo lx ly lz xy xz yz].
      repeat apply Forall2_cons; try apply Forall2_nil; (split; [word|]); unfold pz; rewrite read_show; cbn [option_map]; f_equal;
      unfold Rmin, Rmax; repeat (destruct (Rle_dec _ _)); lra.
    + unfold f1, d1, zt, zr. cbn [rows map]. repeat apply Forall2_cons; try apply Forall2_nil; (split; [word|]); unfold pz; now rewrite read_show.
  - split; [|split; [reflexivity|split; [|repeat split; cbn; repeat constructor; discriminate]]].
    + unfold f2, zt, bounds, b2, smallest, largest. cbn [boxtxt map fold_right xlo ylo zlo lx ly lz xy xz yz].
      repeat apply Forall2_cons; try apply Forall2_nil; (split; [word|]); unfold pz; rewrite read_show; cbn [option_map]; f_equal;
      unfold Rmin, Rmax; repeat (destruct (Rle_dec _ _)); lra.
    + unfold f2, d2, zt, zr. cbn [rows map]. repeat apply Forall2_cons; try apply Forall2_nil; (split; [word|]); unfold pz; now rewrite read_show.
Qed.
Lemma dcols_plain : Forall plain dcols. Proof. unfold dcols. cbn [map]. repeat apply Forall_cons; try apply Forall_nil; word. Qed.
Example C58_case :
  get_cell pz (dump_lines triclinic dcols 2 [f1; f2]) = Some [box_cell b1; box_cell b2] /\
  get_coords pz (dump_lines triclinic dcols 2 [f1; f2]) = Some (Some [[Vec 5 6 7; Vec 8 9 4]; [Vec 3 2 1; Vec 1 0 3]]) /\
  get_forces pz (dump_lines triclinic dcols 2 [f1; f2]) = Some None.
Proof.
  assert (ND : NoDup dcols) by (unfold dcols; cbn [map]; repeat constructor; cbn; intuition discriminate).
  destruct (C58_atoms pz triclinic dcols 2 (map bounds [b1; b2]) [d1; d2] [f1; f2]) as ((r & E & A & _) & _ & (r' & E' & _ & A') & _);
    [now left|apply dcols_plain|exact ND|discriminate|discriminate|reflexivity|exact frames_case|].
  split; [apply (C58_cell pz dcols 2 [b1; b2] [d1; d2] [f1; f2]); [apply dcols_plain|reflexivity|exact frames_case]|].
  split.
  - rewrite E. destruct A as (vs & -> & F). { unfold dcols. cbn [map]. repeat split; cbn [In]; tauto. }
    f_equal. f_equal. unfold d1, d2, zr in F. cbn [map] in F. 
    repeat match goal with H : Forall2 _ (_ :: _) _ |- _ => inversion H; clear H; subst | H : Forall2 _ [] _ |- _ => inversion H; clear H; subst end.
    repeat match goal with H : _ /\ _ |- _ => destruct H end.
    repeat match goal with H : value_of _ _ _ = Some _ |- _ => cbn in H; injection H as H end.
    repeat match goal with v : vec |- _ => destruct v end. cbn in *. subst. reflexivity.
  - rewrite E'. rewrite A'; [reflexivity|]. unfold dcols. cbn [map In]. intros (I & _). repeat destruct I as [I|I]; try discriminate I. exact I.
Qed.
Definition tcols := map text ["Temp"; "Pxx"; "Pyy"; "Pzz"; "Pyz"; "Pxz"; "Pxy"]%string.
Definition ru1 := Run [text "thermo_style custom step"] (zt [[0; 300; 1; 2; 3; 4; 5; 6]]%Z) (text " time of 1").
Definition ru2 := Run [text ""; text "run 1"] (zt [[1; 301; 7; 8; 9; -1; -2; -3]]%Z) (text " time of 2").
Definition tdata := zr [[0; 300; 1; 2; 3; 4; 5; 6]; [1; 301; 7; 8; 9; -1; -2; -3]]%Z.
Example C58_stress_case : exists ms, get_stress pz (log_lines (text "Step" :: tcols) [ru1; ru2] [text "Total wall time"]) = Some (Some ms) /\
  ms = [Mat (Vec 1 6 5) (Vec 6 2 4) (Vec 5 4 3); Mat (Vec 7 (-3) (-2)) (Vec (-3) 8 (-1)) (Vec (-2) (-1) 9)].
Proof.
  destruct (C58_stress pz tcols [ru1; ru2] [text "Total wall time"] tdata) as (ms & E & F).
  - unfold tcols. cbn [map]. repeat apply Forall_cons; try apply Forall_nil; word.
  - unfold tcols; cbn [map]; repeat constructor; cbn; intuition discriminate.
  - repeat constructor.
  - repeat constructor.
  - unfold ru1, ru2, tdata, zt, zr. cbn [trows map concat app]. repeat apply Forall2_cons; try apply Forall2_nil; (split; [word|]); unfold pz; now rewrite read_show.
  - repeat constructor.
  - discriminate.
  - repeat apply Forall_cons; try apply Forall_nil; unfold tcols; cbn [map In]; tauto.
  - exists ms. split; [exact E|]. unfold tdata, zr in F. cbn [map] in F.
    repeat match goal with H : Forall2 _ (_ :: _) _ |- _ => inversion H; clear H; subst | H : Forall2 _ [] _ |- _ => inversion H; clear H; subst end.
    unfold tensor_row in *. repeat match goal with H : _ /\ _ |- _ => destruct H end.
    repeat match goal with H : value_of _ _ _ = Some _ |- _ => cbn in H; injection H as H end.
    repeat match goal with m : mat |- _ => destruct m | v : vec |- _ => destruct v end. cbn in *. subst. reflexivity.
Qed.
(** An orthogonal dump with one frame. *)
Example C58_orthogonal_case : get_cell pz (dump_lines orthogonal dcols 1 [Frame 0 (zt [[0; 5]; [0; 6]; [0; 7]]%Z) (zt [[1; 3; 2; 1]]%Z)]) = None.
Proof.
  apply (C58_orthogonal_refuted pz dcols 1 [zr [[0; 5]; [0; 6]; [0; 7]]%Z] [zr [[1; 3; 2; 1]]%Z]); [apply dcols_plain|reflexivity|discriminate|repeat constructor|].
  unfold zr, zt. cbn [map combine]. repeat apply Forall2_cons; try apply Forall2_nil; cbn [fst snd].
  split; [|split; [reflexivity|split; [|repeat split; cbn; repeat constructor; discriminate]]]; cbn [boxtxt rows];
    repeat apply Forall2_cons; try apply Forall2_nil; (split; [word|]); unfold pz; now rewrite read_show.
Qed.
Print Assumptions C58_cell.
Print Assumptions C58_natoms.
Print Assumptions C58_atoms.
Print Assumptions C58_thermo.
Print Assumptions C58_stress.
Print Assumptions C58_cryst_const.
Print Assumptions C58_orthogonal_refuted.
