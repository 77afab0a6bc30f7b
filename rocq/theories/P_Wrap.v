(** C30, C31, C61: minimum image convention, wrapping into the cell, distances. *)
From Coq Require Import List Reals Lra Lia ZArith SpecFloat.
From Verif Require Import Vec3 Wrap WrapSpec WrapProofs.
Import ListNotations.
Open Scope R_scope.

(** ** C30 *)
(** The loops end, and give for every component the image in [-1/2, 1/2), which is
    unique: so the result is the same for congruent input and for wrapped input. *)
Theorem C30_min_image l :
  exists n r, (forall fuel, (n < fuel)%nat -> min_image_convention fuel l = Some r) /\ Forall2 centred l r.
Proof. exact (min_image_spec l). Qed.
Theorem C30_unique x x' y y' : congruent x x' -> centred x y -> centred x' y' -> y' = y.
Proof.
  intros C H [H1 H2]. apply (centred_unique x); [|exact H]. split; [|exact H2]. exact (congruent_trans _ _ _ C H1).
Qed.
Theorem C30_idempotent l n r fuel :
  (forall fuel, (n < fuel)%nat -> min_image_convention fuel l = Some r) -> (0 < fuel)%nat ->
  min_image_convention fuel r = Some r.
Proof.
  intros H Hf. destruct (min_image_spec l) as (m & r' & H' & F).
  assert (E : r' = r).
  { specialize (H (S (Nat.max n m)) ltac:(lia)). specialize (H' (S (Nat.max n m)) ltac:(lia)). congruence. }
  subst r'. assert (B : Forall (fun y => -(1/2) <= y < 1/2) r).
  { clear - F. induction F as [|x y l r [_ R] F IH]; constructor; auto. }
  destruct fuel as [|fuel]; [lia|]. unfold min_image_convention. cbn [masked_while].
  assert (E1 : existsb (fun x => geb x (1/2)) r = false).
  { clear - B. induction B as [|y r Hy B IH]; [reflexivity|]. cbn. rewrite IH, (proj2 (geb_false y (1/2))) by lra. reflexivity. }
  assert (E2 : existsb (fun x => ltb x (-(1/2))) r = false).
  { clear - B. induction B as [|y r Hy B IH]; [reflexivity|]. cbn. rewrite IH, (proj2 (ltb_false y (-(1/2)))) by lra. reflexivity. }
  rewrite E1. cbn [masked_while]. rewrite E2. reflexivity.
Qed.
(** In an orthogonal cell no image is shorter. *)
Theorem C30_orthogonal_shortest c s s' w : orthogonal c -> centred3 s w -> congruent3 s s' ->
  length_sq (vecmat w c) <= length_sq (vecmat s' c).
Proof. exact (orthogonal_shortest c s s' w). Qed.
(** In a skewed cell one can be. *)
Theorem C30_shortest_refuted : exists c s s' w, det c <> 0 /\ centred3 s w /\ congruent3 s s' /\
  length_sq (vecmat s' c) < length_sq (vecmat w c).
Proof.
  exists (Mat (Vec 1 0 0) (Vec (9/10) (3/10) 0) (Vec 0 0 1)), (Vec (4/10) (4/10) 0), (Vec (-6/10) (4/10) 0), (Vec (4/10) (4/10) 0).
  split; [unfold det, dot, cross; cbn; lra|]. split; [|split].
  - repeat split; cbn; try apply congruent_refl; lra.
  - repeat split; cbn; try apply congruent_refl. exists (-1)%Z. lra.
  - unfold length_sq, vecmat, dot, vadd, scale. cbn. lra.
Qed.
(** With binary64 numbers the loop does not end for 2^54, where x - 1 = x. *)
Theorem C30_float_ends_refuted : exists x, forall fuel, f_while_ge fuel x = None.
Proof.
  exists (S754_finite false 4503599627370496 2). induction fuel as [|fuel IH]; [reflexivity|].
  cbn [f_while_ge]. replace (f_geb (S754_finite false 4503599627370496 2) f_half) with true by (vm_compute; reflexivity).
  replace (f_sub (S754_finite false 4503599627370496 2) f_one) with (S754_finite false 4503599627370496 2) by (vm_compute; reflexivity).
  exact IH.
Qed.
Print Assumptions C30_min_image.
Print Assumptions C30_unique.
Print Assumptions C30_idempotent.
Print Assumptions C30_orthogonal_shortest.
Print Assumptions C30_shortest_refuted.
Print Assumptions C30_float_ends_refuted.
Example C30_case : centred (7/4) (-(1/4)) /\ centred (-(1/2)) (-(1/2)) /\ centred (1/2) (-(1/2)) /\
  orthogonal (Mat (Vec 1 1 0) (Vec 1 (-1) 0) (Vec 0 0 2)).
Proof.
  repeat split; cbn; try lra; [exists (-2)%Z|exists 0%Z|exists (-1)%Z|..]; unfold dot; cbn; lra.
Qed.

(** ** C31 *)
Theorem C31_wrap mask l : exists r, pbc_wrap_coords mask l = r /\
  Forall2 (fun v w => match mask with (mx, my, mz) =>
    (if mx then inside (vx v) (vx w) else vx w = vx v) /\
    (if my then inside (vy v) (vy w) else vy w = vy v) /\
    (if mz then inside (vz v) (vz w) else vz w = vz v) end) l r.
Proof.
  eexists. split; [reflexivity|]. destruct mask as [[mx my] mz]. unfold pbc_wrap_coords.
  induction l as [|v l IH]; constructor; [|exact IH]. cbn.
  split; [|split]; [destruct mx|destruct my|destruct mz]; try reflexivity; apply remainder1_spec.
Qed.
Theorem C31_unique x y y' : inside x y -> inside x y' -> y = y'.
Proof. exact (inside_unique x y y'). Qed.
Theorem C31_idempotent mask l : pbc_wrap_coords mask (pbc_wrap_coords mask l) = pbc_wrap_coords mask l.
Proof.
  unfold pbc_wrap_coords. rewrite map_map. apply map_ext. intros [x y z]. destruct mask as [[mx my] mz]. cbn.
  destruct mx, my, mz; rewrite ?remainder1_idem; reflexivity.
Qed.
(** With binary64 numbers a tiny negative coordinate is wrapped to 1.0. *)
Theorem C31_float_inside_refuted : exists x, SFltb x (S754_zero false) = true /\
  f_remainder1_small x = f_one.
Proof. exists (S754_finite true 4503599627370496 (-120)). split; vm_compute; reflexivity. Qed.
Print Assumptions C31_wrap.
Print Assumptions C31_unique.
Print Assumptions C31_idempotent.
Print Assumptions C31_float_inside_refuted.
Example C31_case : inside (-(1/4)) (3/4) /\ inside 1 0 /\ inside 0 0.
Proof. repeat split; try lra; [exists 1%Z|exists (-1)%Z|exists 0%Z]; lra. Qed.

(** ** C61 *)
(** What distances(..., pbc=True) returns for a pair, for any number of atoms *)
Theorem C61_entry cs cell i j u v : nth_error cs i = Some u -> nth_error cs j = Some v ->
  exists w, entry_of cs cell i j (length_sq (vecmat w cell), vecmat w cell, w) /\ centred3 (vsub u v) w.
Proof. exact (entry_spec cs cell i j u v). Qed.
Theorem C61_diagonal cs cell i u d c w : nth_error cs i = Some u -> entry_of cs cell i i (d, c, w) -> d = 0 /\ w = Vec 0 0 0.
Proof. exact (diagonal cs cell i u d c w). Qed.
Theorem C61_images_irrelevant cs cs' cell i j u v u' v' r r' :
  nth_error cs i = Some u -> nth_error cs j = Some v -> nth_error cs' i = Some u' -> nth_error cs' j = Some v' ->
  congruent3 u u' -> congruent3 v v' -> entry_of cs cell i j r -> entry_of cs' cell i j r' -> r' = r.
Proof. exact (images_irrelevant cs cs' cell i j u v u' v' r r'). Qed.
Theorem C61_symmetric_orthogonal cs cell i j u v d c w d' c' w' : nth_error cs i = Some u -> nth_error cs j = Some v ->
  orthogonal cell -> entry_of cs cell i j (d, c, w) -> entry_of cs cell j i (d', c', w') -> d' = d.
Proof. exact (symmetric_orthogonal cs cell i j u v d c w d' c' w'). Qed.
Theorem C61_symmetric_generic cs cell i j u v d c w d' c' w' : nth_error cs i = Some u -> nth_error cs j = Some v ->
  entry_of cs cell i j (d, c, w) -> entry_of cs cell j i (d', c', w') ->
  ~ half_integer (vx u - vx v) -> ~ half_integer (vy u - vy v) -> ~ half_integer (vz u - vz v) ->
  d' = d /\ w' = Vec (- vx w) (- vy w) (- vz w).
Proof. exact (symmetric_generic cs cell i j u v d c w d' c' w'). Qed.
(** Not symmetric in a skewed cell with atoms half a cell vector apart. *)
Theorem C61_symmetric_refuted : exists cs cell d c w d' c' w', det cell <> 0 /\
  entry_of cs cell 0 1 (d, c, w) /\ entry_of cs cell 1 0 (d', c', w') /\ d' <> d.
Proof.
  set (u := Vec (1/2) (1/4) 0). set (v := Vec 0 0 0). set (h := Mat (Vec 1 0 0) (Vec (1/2) 1 0) (Vec 0 0 1)).
  destruct (entry_spec [u; v] h 0 1 u v eq_refl eq_refl) as (w & H & C).
  destruct (entry_spec [u; v] h 1 0 v u eq_refl eq_refl) as (w' & H' & C').
  exists [u; v], h. do 6 eexists. split; [unfold det, dot, cross; cbn; lra|]. split; [exact H|]. split; [exact H'|].
  assert (E : w = Vec (-(1/2)) (1/4) 0).
  { destruct w as [x y z], C as (C1 & C2 & C3). cbn in *. f_equal.
    - apply (centred_unique _ _ _ C1). split; [exists (-1)%Z|]; lra.
    - apply (centred_unique _ _ _ C2). split; [exists 0%Z|]; lra.
    - apply (centred_unique _ _ _ C3). split; [exists 0%Z|]; lra. }
  assert (E' : w' = Vec (-(1/2)) (-(1/4)) 0).
  { destruct w' as [x y z], C' as (C1 & C2 & C3). cbn in *. f_equal.
    - apply (centred_unique _ _ _ C1). split; [exists 0%Z|]; lra.
    - apply (centred_unique _ _ _ C2). split; [exists 0%Z|]; lra.
    - apply (centred_unique _ _ _ C3). split; [exists 0%Z|]; lra. }
  rewrite E, E'. unfold length_sq, vecmat, dot, vadd, scale. cbn. lra.
Qed.
Print Assumptions C61_entry.
Print Assumptions C61_diagonal.
Print Assumptions C61_images_irrelevant.
Print Assumptions C61_symmetric_orthogonal.
Print Assumptions C61_symmetric_generic.
Print Assumptions C61_symmetric_refuted.
