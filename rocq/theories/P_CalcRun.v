(** C99: energy, forces and stress from the calculators *)
From Coq Require Import Ascii String List Bool Arith Reals Lra.
From Verif Require Import Comb ArrayIO Decimal TextOut Vec3 Cells CellsSpec CellsProofs LammpsOut P_LammpsOut CalcRun CalcRunSpec.
Import ListNotations.
Local Open Scope list_scope.
Local Open Scope R_scope.
Local Notation length := List.length.

(** ** find_exe *)
Theorem C99_exe which names : match find_exe which names with
  | Some p => exists l1 n l2, names = l1 ++ n :: l2 /\ which n = Some p /\ forall k, In k l1 -> which k = None
  | None => forall k, In k names -> which k = None end.
Proof.
  induction names as [|n r IH]; cbn [find_exe]; [intros k []|]. destruct (which n) as [p|] eqn:E; [exists [], n, r; repeat split; [exact E|intros k []]|].
  destruct (find_exe which r) as [p|]; [destruct IH as (l1 & k & l2 & -> & H & F); exists (n :: l1), k, l2; repeat split; [exact H|]|]; intros j [<-|J]; auto.
Qed.
(** ** files *)
Lemma put_same n c d : put n c d n = Some c. Proof. unfold put. now destruct (list_eq_dec ascii_dec n n). Qed.
Lemma put_other n c d k : k <> n -> put n c d k = d k. Proof. intros N. unfold put. now destruct (list_eq_dec ascii_dec k n). Qed.
Lemma suffix_ne p q s t : (forall a b, rev (text s) ++ a <> rev (text t) ++ b) -> name p s <> name q t.
Proof. intros H E. apply (f_equal (@rev ascii)) in E. unfold name in E. rewrite !rev_app_distr in E. exact (H _ _ E). Qed.
Ltac ends := apply suffix_ne; intros; cbn; discriminate.
Lemma prefix_ne p q s : p <> q -> name p s <> name q s. Proof. intros N E. apply app_inv_tail in E. now apply N. Qed.
Lemma vec_eq (u v : vec) : vx u = vx v -> vy u = vy v -> vz u = vz v -> u = v. Proof. destruct u, v. cbn. now intros -> -> ->. Qed.
(** ** linear algebra *)
Definition frac_of (m : mat) (u : vec) : vec := Vec (dot u (cross (rb m) (rc m)) / det m) (dot u (cross (rc m) (ra m)) / det m) (dot u (cross (ra m) (rb m)) / det m).
Definition e1 := Vec 1 0 0. Definition e2 := Vec 0 1 0. Definition e3 := Vec 0 0 1.
Definition turn (m M : mat) : mat := Mat (vecmat (frac_of m e1) M) (vecmat (frac_of m e2) M) (vecmat (frac_of m e3) M).
Lemma frac_back m u : det m <> 0 -> vecmat (frac_of m u) m = u.
Proof.
  intros D. destruct m as [[a1 a2 a3] [b1 b2 b3] [c1 c2 c3]], u as [x y z]. unfold frac_of, vecmat, vadd, scale, det, cross, dot in *. cbn [ra rb rc vx vy vz] in *. apply vec_eq; cbn [vx vy vz]; field; exact D.
Qed.
Lemma frac_frac m f : det m <> 0 -> frac_of m (vecmat f m) = f.
Proof.
  intros D. destruct m as [[a1 a2 a3] [b1 b2 b3] [c1 c2 c3]], f as [x y z]. unfold frac_of, vecmat, vadd, scale, det, cross, dot in *. cbn [ra rb rc vx vy vz] in *. apply vec_eq; cbn [vx vy vz]; field; exact D.
Qed.
Lemma turn_is m M u : vecmat u (turn m M) = vecmat (frac_of m u) M.
Proof.
  unfold turn, frac_of, e1, e2, e3, Rdiv. destruct m as [[a1 a2 a3] [b1 b2 b3] [c1 c2 c3]], M as [[m1 m2 m3] [m4 m5 m6] [m7 m8 m9]], u as [x y z]. set (i := / det _). unfold vecmat, vadd, scale, cross, dot. cbn [ra rb rc vx vy vz]. apply vec_eq; cbn [vx vy vz]; ring.
Qed.
Lemma turn_at m M f : det m <> 0 -> vecmat (vecmat f m) (turn m M) = vecmat f M. Proof. intros D. now rewrite turn_is, frac_frac. Qed.
Lemma row1 m : vecmat e1 m = ra m. Proof. destruct m as [[m1 m2 m3] [m4 m5 m6] [m7 m8 m9]]. unfold vecmat, vadd, scale, e1. cbn. apply vec_eq; cbn; ring. Qed.
Lemma row2 m : vecmat e2 m = rb m. Proof. destruct m as [[m1 m2 m3] [m4 m5 m6] [m7 m8 m9]]. unfold vecmat, vadd, scale, e2. cbn. apply vec_eq; cbn; ring. Qed.
Lemma row3 m : vecmat e3 m = rc m. Proof. destruct m as [[m1 m2 m3] [m4 m5 m6] [m7 m8 m9]]. unfold vecmat, vadd, scale, e3. cbn. apply vec_eq; cbn; ring. Qed.
Lemma turn_cell m M : det m <> 0 -> cell_by m (turn m M) = M.
Proof. intros D. unfold cell_by. rewrite <- (row1 m), <- (row2 m), <- (row3 m), !turn_at by exact D. rewrite row1, row2, row3. now destruct M. Qed.
Lemma turn_orth m M : det m <> 0 -> same_shape M m -> orthogonal (turn m M).
Proof. intros D S u v. rewrite !turn_is, (shape_dot M m) by exact S. now rewrite !frac_back. Qed.
Lemma tri_unique M m : along_axes M -> along_axes m -> same_shape M m -> M = m.
Proof.
  destruct M as [[a1 a2 a3] [b1 b2 b3] [c1 c2 c3]], m as [[x1 x2 x3] [y1 y2 y3] [z1 z2 z3]]. unfold along_axes, same_shape, dot. cbn [ra rb rc vx vy vz].
  intros (-> & -> & -> & P1 & P2 & P3) (-> & -> & -> & Q1 & Q2 & Q3) (A & B & C & D & E & F).
  assert (a1 = x1) by nra. subst x1. assert (b1 = y1) by nra. subst y1. assert (c1 = z1) by nra. subst z1.
  assert (b2 = y2) by nra. subst y2. assert (c2 = z2) by nra. subst z2. assert (c3 = z3) by nra. subst z3. reflexivity.
Qed.
Lemma aligned_axes m : det m <> 0 -> along_axes (aligned_cell m) /\ same_shape (aligned_cell m) m.
Proof. intros D. destruct (C82_geometry m D) as ((A & B & C) & (P & Q & R1) & S & _). cbv zeta in *. split; [repeat split; assumption|exact S]. Qed.
Lemma axes_det m : along_axes m -> det m <> 0.
Proof. intros (A & B & C & P & Q & R1). unfold det, dot, cross. cbn [vx vy vz]. rewrite A, B, C. assert (0 < vx (ra m) * (vy (rb m) * vz (rc m))) by (repeat apply Rmult_lt_0_compat; assumption). lra. Qed.
Lemma aligned_id m : along_axes m -> aligned_cell m = m.
Proof. intros A. destruct (aligned_axes m (axes_det m A)) as (B & S). now apply tri_unique. Qed.
(** ** stress *)
Lemma sym_form t : (forall u v, dot (vecmat u t) v = dot (vecmat v t) u) -> sym t.
Proof. intros H. assert (A := H e1 e2). assert (B := H e1 e3). assert (C := H e2 e3). rewrite row1, row2, row3 in *. unfold dot, e1, e2, e3 in *. cbn [vx vy vz] in *. unfold sym. lra. Qed.
Lemma form_sym t u v : sym t -> dot (vecmat u t) v = dot (vecmat v t) u.
Proof. intros (A & B & C). unfold vecmat, vadd, scale, dot. cbn [vx vy vz]. rewrite A, B, C. ring. Qed.
Lemma stress_ok c p : sym p -> ase_stress c p (stress_ase (scale_mat c p)).
Proof.
  intros (A & B & C). exists (scale_mat (- c / ev_ang3_gpa) p). unfold ev_ang3_gpa. split.
  - unfold six, stress_ase, voigt6, scale_mat, scale. cbn [map ra rb rc vx vy vz]. rewrite A, B, C. split; [|repeat split]. unfold ev_ang3_gpa. repeat apply f_equal2; try reflexivity; field.
  - intros u v. unfold scale_mat, vecmat, vadd, scale, dot. cbn [ra rb rc vx vy vz]. field.
Qed.
Lemma scale_one p : scale_mat 1 p = p. Proof. destruct p as [[m1 m2 m3] [m4 m5 m6] [m7 m8 m9]]. unfold scale_mat, scale. cbn. f_equal; apply vec_eq; cbn; ring. Qed.
(** stress_pwtools2ase: the six numbers of ASE in its order, in eV/Ang^3, with the sign of ASE *)
Theorem C99_stress p : sym p -> ase_stress 1 p (stress_ase p).
Proof. intros S. rewrite <- (scale_one p) at 2. now apply stress_ok. Qed.
(** ** Pwscf: exact results for the atoms given, for every label and every old content of the directory *)
Theorem C99_pwscf prog prefix sy m fr d e f p : prog sy m (positions fr m) = (e, f, p) -> sym p ->
  exists d' s, pw_calc prog prefix sy m fr d = (d', Some (e, f, s)) /\ ase_stress 1 p s.
Proof.
  intros P S. unfold pw_calc, pw_run, pw_write. rewrite put_same, P. eexists _, _. split; [unfold pw_read; rewrite put_same; reflexivity|]. now apply C99_stress.
Qed.
(** ** Lammps *)
Lemma lmp_result prog sy m fr d e f p : prog sy (aligned_cell m) (aligned_coords fr m) = (e, f, p) ->
  exists d', lmp_calc prog (text "lmp") sy m fr d = (d', Some (e, f, stress_ase (scale_mat (1 / 10000) p))).
Proof.
  intros P. unfold lmp_calc, lmp_run, lmp_write. rewrite put_same, P. eexists. apply f_equal2; [reflexivity|]. unfold lmp_read. change (text "lmp.out.dump") with (name (text "lmp") ".out.dump"). rewrite put_same. rewrite (put_other _ _ _ (name (text "lmp") ".out")) by ends. rewrite put_same. reflexivity.
Qed.
(** The results are those of the crystal turned so that its cell lies along the axes: the energy is right,
    forces and stress are in the turned frame, not in that of the atoms given. *)
Theorem C99_lammps prog sy m fr d e f p : physical prog -> det m <> 0 -> prog sy m (positions fr m) = (e, f, p) -> sym p ->
  exists q d' p' s, orthogonal q /\ along_axes (cell_by m q) /\ tensor_by p q p' /\
    lmp_calc prog (text "lmp") sy m fr d = (d', Some (e, map (fun x => vecmat x q) f, s)) /\ ase_stress (1 / 10000) p' s.
Proof.
  intros PH D P S. destruct (aligned_axes m D) as (A & SH). set (M := aligned_cell m) in *. set (q := turn m M). assert (O : orthogonal q) by now apply turn_orth.
  destruct (PH sy m _ q e f p O P) as (p' & P' & T). rewrite (turn_cell m M D : cell_by m q = M) in P'.
  assert (X : map (fun x => vecmat x q) (positions fr m) = aligned_coords fr m). { unfold positions, aligned_coords. rewrite map_map. apply map_ext. intros g. now apply turn_at. }
  rewrite X in P'. destruct (lmp_result prog sy m fr d _ _ _ P') as (d' & R1). exists q, d', p'. eexists. split; [exact O|]. split; [unfold q; now rewrite turn_cell|]. split; [exact T|]. split; [exact R1|].
  apply stress_ok. apply sym_form. intros u v. assert (DM := axes_det M A).
  assert (W : forall w, exists w', w = vecmat w' q). { intros w. exists (vecmat (frac_of M w) m). unfold q. rewrite turn_at by exact D. symmetry. now apply frac_back. }
  destruct (W u) as (u' & ->). destruct (W v) as (v' & ->). rewrite !T. now apply form_sym.
Qed.
(** for a cell along the axes all is right *)
Theorem C99_lammps_axes prog sy m fr d e f p : along_axes m -> prog sy m (positions fr m) = (e, f, p) -> sym p ->
  exists d' s, lmp_calc prog (text "lmp") sy m fr d = (d', Some (e, f, s)) /\ ase_stress (1 / 10000) p s.
Proof.
  intros A P S. assert (E := aligned_id m A). destruct (lmp_result prog sy m fr d e f p) as (d' & R1); [unfold aligned_coords; rewrite E; exact P|]. exists d'. eexists. split; [exact R1|now apply stress_ok].
Qed.
(** a physical program: every atom is held at the origin by a spring *)
Definition outer (x : vec) : mat := Mat (scale (vx x) x) (scale (vy x) x) (scale (vz x) x).
Definition madd (s t : mat) : mat := Mat (vadd (ra s) (ra t)) (vadd (rb s) (rb t)) (vadd (rc s) (rc t)).
Definition zero_mat : mat := Mat (Vec 0 0 0) (Vec 0 0 0) (Vec 0 0 0).
Definition springs (sy : list pstr) (m : mat) (xs : list vec) : R * list vec * mat :=
  (fold_right (fun x a => dot x x / 2 + a) 0 xs, map (scale (-1)) xs, fold_right (fun x t => madd (outer x) t) zero_mat xs).
Lemma springs_physical : physical springs.
Proof.
  intros sy m xs q e f p O E. injection E as <- <- <-. eexists. split.
  - unfold springs. f_equal. f_equal.
    + induction xs as [|x xs IH]; [reflexivity|]. cbn [map fold_right]. now rewrite IH, O.
    + rewrite !map_map. apply map_ext. intros x. unfold vecmat, vadd, scale. cbn. apply vec_eq; cbn; ring.
  - intros u v. induction xs as [|x xs IH]; [cbn; unfold vecmat, vadd, scale, dot; cbn; ring|]. cbn [map fold_right].
    assert (A : forall w s t, vecmat w (madd s t) = vadd (vecmat w s) (vecmat w t)) by (intros; unfold madd, vecmat, vadd, scale; cbn; apply vec_eq; cbn; ring).
    assert (B : forall w t z, dot (vadd w t) z = dot w z + dot t z) by (intros; unfold dot, vadd; cbn; ring).
    assert (C : forall w t z, dot (vecmat w (outer t)) z = dot w t * dot t z) by (intros; unfold outer, dot, vecmat, vadd, scale; cbn; ring).
    rewrite !A, !B, IH, !C, !O. ring.
Qed.
Lemma springs_sym sy m xs e f p : springs sy m xs = (e, f, p) -> sym p.
Proof.
  intros E. injection E as _ _ <-. induction xs as [|x xs IH]; [cbn; repeat split|]. cbn [fold_right]. set (T := fold_right _ zero_mat xs) in *. destruct IH as (A & B & C). unfold sym, madd, outer, vadd, scale. cbn [ra rb rc vx vy vz]. rewrite A, B, C. repeat split; ring.
Qed.
(** For every cell that is not along the axes there are atoms and a physical program such that the forces are wrong. *)
Theorem C99_frame_refuted m : det m <> 0 -> ~ along_axes m ->
  exists prog sy fr e f p, physical prog /\ prog sy m (positions fr m) = (e, f, p) /\ sym p /\
    forall d, exists d' f' s, lmp_calc prog (text "lmp") sy m fr d = (d', Some (e, f', s)) /\ f' <> f.
Proof.
  intros D NA. exists springs, [], [e1; e2; e3]. eexists _, _, _. split; [exact springs_physical|]. split; [reflexivity|]. split; [exact (springs_sym [] m (positions [e1; e2; e3] m) _ _ _ eq_refl)|]. intros d.
  destruct (C99_lammps springs [] m [e1; e2; e3] d _ _ _ springs_physical D eq_refl (springs_sym [] m (positions [e1; e2; e3] m) _ _ _ eq_refl)) as (q & d' & p' & s & O & A & T & R1 & _).
  exists d', (map (fun x => vecmat x q) (map (scale (-1)) (positions [e1; e2; e3] m))), s. split; [exact R1|]. intros E. apply NA. replace m with (cell_by m q); [exact A|].
  assert (L : forall w, vecmat (scale (-1) w) q = scale (-1) w -> vecmat w q = w). { intros w H. assert (H2 : scale (-1) (vecmat (scale (-1) w) q) = scale (-1) (scale (-1) w)) by now rewrite H. destruct w as [x y z]. unfold vecmat, vadd, scale in *. cbn [vx vy vz] in *. injection H2 as H3 H4 H5. apply vec_eq; cbn [vx vy vz]; lra. }
  unfold positions in E. cbn [map] in E. assert (E1 := f_equal (fun l => nth 0 l e1) E). assert (E2 := f_equal (fun l => nth 1 l e1) E). assert (E3 := f_equal (fun l => nth 2 l e1) E). cbn [nth] in E1, E2, E3. apply L in E1, E2, E3. rewrite row1 in E1. rewrite row2 in E2. rewrite row3 in E3. unfold cell_by. rewrite E1, E2, E3. now destruct m.
Qed.
(** Another label than lmp: the dump read is lmp.out.dump all the same. Without such a file there are no
    results; with one of an earlier calculation its forces are returned, together with the new energy. *)
Theorem C99_label_refuted prog prefix sy m fr d : prefix <> text "lmp" ->
  (d (text "lmp.out.dump") = None -> snd (lmp_calc prog prefix sy m fr d) = None) /\
  (forall g, d (text "lmp.out.dump") = Some (Dump [g]) -> exists e s, snd (lmp_calc prog prefix sy m fr d) = Some (e, g, s) /\ e = fst (fst (prog sy (aligned_cell m) (aligned_coords fr m)))) /\
  (forall gs, d (text "lmp.out.dump") = Some (Dump gs) -> List.length gs <> 1%nat -> snd (lmp_calc prog prefix sy m fr d) = None).
Proof.
  intros N. unfold lmp_calc, lmp_run, lmp_write. rewrite put_same. destruct (prog sy (aligned_cell m) (aligned_coords fr m)) as [[e f] p]. cbn [snd fst].
  assert (L : forall a b c, put (name prefix ".out.dump") a (put (name prefix ".out") b (put (name prefix ".struct") c d)) (text "lmp.out.dump") = d (text "lmp.out.dump")).
  { intros a b c. change (text "lmp.out.dump") with (name (text "lmp") ".out.dump"). rewrite !put_other; [reflexivity|ends|ends|now apply prefix_ne, not_eq_sym]. }
  unfold lmp_read. rewrite (put_other (name prefix ".out.dump")) by ends. rewrite put_same. split; [intros E|split; [intros g E|intros gs E LG]]; rewrite L, E; [reflexivity| |].
  - cbn [length Nat.eqb]. eexists _, _. split; reflexivity.
  - destruct gs as [|g [|h gs]]; [reflexivity|now destruct LG|reflexivity].
Qed.
(** ** several calculators in one directory *)
Inductive job := Pw (prog : program) (prefix : pstr) (sy : list pstr) (m : mat) (fr : list vec) | Lmp (prog : program) (prefix : pstr) (sy : list pstr) (m : mat) (fr : list vec).
Definition label (j : job) : pstr := match j with Pw _ p _ _ _ => p | Lmp _ p _ _ _ => p end.
Definition do_job (d : dir) (j : job) : dir := match j with Pw g p s m f => fst (pw_calc g p s m f d) | Lmp g p s m f => fst (lmp_calc g p s m f d) end.
Lemma job_keeps j p d : label j <> p -> do_job d j (name p ".out") = d (name p ".out") /\ do_job d j (name p ".out.dump") = d (name p ".out.dump").
Proof.
  intros N. destruct j as [g k s m f|g k s m f]; cbn [do_job label] in *.
  - unfold pw_calc, pw_run, pw_write. cbn [fst]. rewrite put_same. destruct (g s m (positions f m)) as [[e0 f0] p0]. split; (rewrite !put_other; [reflexivity|ends|]); [now apply prefix_ne, not_eq_sym|ends].
  - unfold lmp_calc, lmp_run, lmp_write. cbn [fst]. rewrite put_same. destruct (g s (aligned_cell m) (aligned_coords f m)) as [[e0 f0] p0]. split; (rewrite !put_other; [reflexivity|ends| |]); try ends; now apply prefix_ne, not_eq_sym.
Qed.
(** results can be read again after any other calculations with other labels *)
Theorem C99_others d js prefix : Forall (fun j => label j <> prefix) js ->
  pw_read prefix (fold_left do_job js d) = pw_read prefix d /\ (prefix = text "lmp" -> lmp_read prefix (fold_left do_job js d) = lmp_read prefix d).
Proof.
  intros F. assert (K : fold_left do_job js d (name prefix ".out") = d (name prefix ".out") /\ fold_left do_job js d (name prefix ".out.dump") = d (name prefix ".out.dump")).
  { revert d. induction F as [|j js N F IH]; intros d; [now split|]. cbn [fold_left]. destruct (IH (do_job d j)) as (A & B). destruct (job_keeps j prefix d N) as (A' & B'). split; congruence. }
  destruct K as (A & B). split; [unfold pw_read; now rewrite A|]. intros ->. unfold lmp_read. rewrite A. change (text "lmp.out.dump") with (name (text "lmp") ".out.dump"). now rewrite B.
Qed.
(** a cell turned by 90 degrees about z *)
Example turned99 : let m := Mat (Vec 0 3 0) (Vec (-3) 0 0) (Vec 0 0 5) in det m <> 0 /\ ~ along_axes m /\ physical springs.
Proof. cbv zeta. split; [unfold det, dot, cross; cbn; lra|]. split; [intros (A & _); cbn in A; lra|exact springs_physical]. Qed.
Example axes99 : along_axes (Mat (Vec 3 0 0) (Vec 1 3 0) (Vec 0 1 5)) /\ text "pw" <> text "lmp". Proof. split; [unfold along_axes; cbn; lra|discriminate]. Qed.
Print Assumptions C99_exe. Print Assumptions C99_stress. Print Assumptions C99_pwscf. Print Assumptions C99_lammps. Print Assumptions C99_lammps_axes.
Print Assumptions C99_frame_refuted. Print Assumptions C99_label_refuted. Print Assumptions C99_others.
