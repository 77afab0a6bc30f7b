(** C32, C33: cells, crystallographic constants, reciprocal cells. *)
From Coq Require Import Reals Lra.
From Verif Require Import Vec3 Cells CellsSpec CellsProofs.
Open Scope R_scope.

(** ** C32 *)
Theorem C32_cell2cc_cc2cell k : valid k -> cell2cc (cc2cell k) = k.
Proof. exact (cell2cc_cc2cell k). Qed.
Theorem C32_cc2cell_cell2cc m : det m <> 0 -> valid (cell2cc m) /\ same_shape (cc2cell (cell2cc m)) m.
Proof. intros D. split; [exact (cell2cc_valid m D) | exact (cc2cell_cell2cc m D)]. Qed.
Theorem C32_volume k : valid k -> volume_cell (cc2cell k) = volume_cc k.
Proof. exact (volume_cc2cell k). Qed.
Theorem C32_volume_cell m : det m <> 0 -> volume_cc (cell2cc m) = volume_cell m.
Proof. exact (volume_same m). Qed.
Theorem C32_celldm k fac : 0 < a_ k -> angle_ok (alpha k) -> angle_ok (beta k) -> angle_ok (gamma k) -> fac <> 0 ->
  celldm2cc (cc2celldm k fac) (1 / fac) = k.
Proof. exact (celldm_round k fac). Qed.
Theorem C32_celldm_back d fac : d1 d <> 0 -> -1 <= d4 d <= 1 -> -1 <= d5 d <= 1 -> -1 <= d6 d <= 1 -> fac <> 0 ->
  cc2celldm (celldm2cc d fac) (1 / fac) = d.
Proof. exact (celldm_round' d fac). Qed.
Print Assumptions C32_cell2cc_cc2cell.
Print Assumptions C32_cc2cell_cell2cc.
Print Assumptions C32_volume.
Print Assumptions C32_volume_cell.
Print Assumptions C32_celldm.
Print Assumptions C32_celldm_back.
(** A hexagonal cell *)
Example C32_case : valid (CC 3 3 5 90 90 60) /\ det (Mat (Vec 1 2 0) (Vec 0 3 1) (Vec (-1) 0 2)) <> 0.
Proof.
  assert (E1 : rad 90 = PI / 2) by (unfold rad; field). assert (E2 : rad 60 = PI / 3) by (unfold rad; field).
  split; [|unfold det, dot, cross; cbn; lra]. unfold valid, angle_ok, gram. cbn. rewrite E1, E2, cos_PI2, cos_PI3. lra.
Qed.

(** ** C33 *)
Theorem C33_right_handed m : 0 < det m ->
  dual (2 * PI) (recip_cell m) m /\ recip_cell (recip_cell m) = m /\
  volume_cell m * volume_cell (recip_cell m) = (2 * PI) ^ 3 /\ 0 < det (recip_cell m).
Proof.
  intros H. assert (D : det m <> 0) by lra. assert (V : volume_cell m = det m) by (apply Rabs_pos_eq; lra).
  assert (Q : det m / volume_cell m = 1) by (rewrite V; field; lra). split; [|split; [|split]].
  - pose proof (recip_dual m D) as R. rewrite Q, Rmult_1_r in R. exact R.
  - rewrite (recip_twice m D), Q. destruct m as [[? ? ?] [? ? ?] [? ? ?]]. unfold scale. cbn. rewrite !Rmult_1_l. reflexivity.
  - apply recip_pos, D.
  - apply recip_pos, D.
Qed.
(** For a left-handed cell all signs are flipped; the result is right-handed. *)
Theorem C33_left_handed m : det m < 0 ->
  dual (- (2 * PI)) (recip_cell m) m /\ recip_cell (recip_cell m) = opposite m /\
  volume_cell m * volume_cell (recip_cell m) = (2 * PI) ^ 3 /\ 0 < det (recip_cell m).
Proof.
  intros H. assert (D : det m <> 0) by lra. assert (V : volume_cell m = - det m) by (apply Rabs_left; lra).
  assert (Q : det m / volume_cell m = -1) by (rewrite V; field; lra). split; [|split; [|split]].
  - pose proof (recip_dual m D) as R. rewrite Q in R. replace (- (2 * PI)) with (2 * PI * -1) by ring. exact R.
  - rewrite (recip_twice m D), Q. reflexivity.
  - apply recip_pos, D.
  - apply recip_pos, D.
Qed.
Theorem C33_dual_refuted : exists m, det m <> 0 /\ ~ dual (2 * PI) (recip_cell m) m.
Proof.
  exists (Mat (Vec 0 1 0) (Vec 1 0 0) (Vec 0 0 1)).
  assert (N : det (Mat (Vec 0 1 0) (Vec 1 0 0) (Vec 0 0 1)) < 0) by (unfold det, dot, cross; cbn; lra).
  split; [lra|]. destruct (C33_left_handed _ N) as [(E & _) _]. intros (E' & _). rewrite E in E'. pose proof PI_RGT_0. lra.
Qed.
Print Assumptions C33_right_handed.
Print Assumptions C33_left_handed.
Print Assumptions C33_dual_refuted.
Example C33_case : 0 < det (Mat (Vec 1 2 0) (Vec 0 3 1) (Vec (-1) 0 2)) /\ det (Mat (Vec 0 3 1) (Vec 1 2 0) (Vec (-1) 0 2)) < 0.
Proof. split; unfold det, dot, cross; cbn; lra. Qed.
