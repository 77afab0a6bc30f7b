(** C70: the radial pair distribution function. *)
From Coq Require Import String Reals List ZArith Bool Arith Lia Lra.
From Verif Require Import Vec3 Wrap WrapSpec Traj Rpdf RpdfSpec RpdfProofs.
Import ListNotations.
Local Open Scope list_scope.
Local Open Scope R_scope.
Local Notation length := List.length.
(** Below the radius of rmax_smith a pair of atoms has at most one image. *)
Theorem C70_smith cell u v n n' : det cell <> 0 ->
  image_distance cell u v n < rmax_smith cell -> image_distance cell u v n' < rmax_smith cell -> n = n'.
Proof. apply image_unique. Qed.
(** The radius is half the smallest width of the cell, and beyond it the minimum image
    convention misses separations. *)
Theorem C70_smith_width cell : rmax_smith cell = 1 / 2 * Rmin (Rmin (width_a cell) (width_b cell)) (width_c cell).
Proof. apply smith_widths. Qed.
Theorem C70_smith_maximal cell r : det cell <> 0 -> rmax_smith cell < r -> exists u, norm (vecmat u cell) < r /\ ~ centred3 u u.
Proof. apply smith_max. Qed.
(** With rmax up to that radius: the number integral in row k is the average, over the time steps
    and the atoms of the first selection, of the number of atoms of the second selection that have
    an image (it is the only one) at a distance from dr to (k+1)*dr and below rmax, and which dmask
    keeps. *)
Theorem C70_neighbours fuel t0 t1 dr rmax m0 m1 tm dmask vmd maxmem n s0 s1 cell cs out :
  rpdf fuel [t0; t1] dr rmax (Some [m0; m1]) tm dmask true vmd maxmem = Some out ->
  cells t0 = cell :: cs -> length (symbols t0) = n -> det cell <> 0 ->
  (forall r, rmax = Some r -> r <= rmax_smith cell) ->
  pick_steps (match tm with Some x => x | None => TSlice (Slice None None None) end) (coords_frac t0) = Some s0 ->
  pick_steps (match tm with Some x => x | None => TSlice (Slice None None None) end) (coords_frac t1) = Some s1 ->
  Forall (fun row => length row = n) s0 -> Forall (fun row => length row = n) s1 ->
  length s0 = length s1 /\
  forall k rad g num, nth_error out k = Some (rad, g, num) ->
  rad = (INR k + 1 / 2) * dr /\
  exists N0 cnt, counts (selects (symbols t0) m0) (seq 0 n) N0 /\ N0 <> 0%nat /\
    Forall2 (fun q c => counts (fun ij => selects (symbols t0) m0 (fst ij) /\ selects (symbols t0) m1 (snd ij) /\
        exists! im, let d := image_distance cell (atom (fst q) (fst ij)) (atom (snd q) (snd ij)) im in
          dr <= d < Rmin (INR (S k) * dr) (match rmax with Some r => r | None => rmax_smith cell end) /\ kept dmask d)
      (list_prod (seq 0 n) (seq 0 n)) c) (combine s0 s1) cnt /\
    num = sum (map (fun c => INR c / INR N0) cnt) / INR (length s0).
Proof.
  intros H Hc Hn Hd Hr P0 P1 F0 F1.
  destruct (number_integral_distance _ _ _ _ _ _ _ _ _ _ _ _ n s0 s1 cell cs out H Hc Hn P0 P1 F0 F1) as [L A].
  split; [exact L|]. intros k rad g num K. destruct (A _ _ _ _ K) as (R1 & N0 & cnt & C0 & Z & F & E). split; [exact R1|].
  exists N0, cnt. split; [exact C0|]. split; [exact Z|]. split; [|exact E]. revert F. apply forall2_pointwise. intros q c _ C. unfold counted in C.
  revert C. apply counts_ext. intros ij _.
  rewrite (distance_image cell (atom (fst q) (fst ij)) (atom (snd q) (snd ij)) (fun d => dr <= d < Rmin (INR (S k) * dr) (rmax_of rmax cell) /\ kept dmask d)); [reflexivity|exact Hd|].
  intros d [[_ B] _]. pose proof (Rmin_r (INR (S k) * dr) (rmax_of rmax cell)).
  assert (rmax_of rmax cell <= rmax_smith cell); [|lra]. destruct rmax; cbn; [now apply Hr|lra].
Qed.
(** For any rmax: the same with the distance of the image in [-1/2,1/2)^3, or without periodic images. *)
Theorem C70_number_integral fuel t0 t1 dr rmax m0 m1 tm dmask (pbc : bool) vmd maxmem n s0 s1 cell cs out :
  rpdf fuel [t0; t1] dr rmax (Some [m0; m1]) tm dmask pbc vmd maxmem = Some out ->
  cells t0 = cell :: cs -> length (symbols t0) = n ->
  pick_steps (match tm with Some x => x | None => TSlice (Slice None None None) end) (coords_frac t0) = Some s0 ->
  pick_steps (match tm with Some x => x | None => TSlice (Slice None None None) end) (coords_frac t1) = Some s1 ->
  Forall (fun row => length row = n) s0 -> Forall (fun row => length row = n) s1 ->
  length s0 = length s1 /\
  forall k rad g num, nth_error out k = Some (rad, g, num) ->
  exists N0 cnt, counts (selects (symbols t0) m0) (seq 0 n) N0 /\ N0 <> 0%nat /\
    Forall2 (fun q c => counts (fun ij => selects (symbols t0) m0 (fst ij) /\ selects (symbols t0) m1 (snd ij) /\
        exists im, let sep := vsub (atom (fst q) (fst ij)) (atom (snd q) (snd ij)) in
          (if pbc then centred3 sep (shifted sep im) else im = Shift 0 0 0) /\
          let d := image_distance cell (atom (fst q) (fst ij)) (atom (snd q) (snd ij)) im in
          dr <= d < Rmin (INR (S k) * dr) (match rmax with Some r => r | None => rmax_smith cell end) /\ kept dmask d)
      (list_prod (seq 0 n) (seq 0 n)) c) (combine s0 s1) cnt /\
    num = sum (map (fun c => INR c / INR N0) cnt) / INR (length s0).
Proof.
  intros H Hc Hn P0 P1 F0 F1.
  destruct (number_integral_distance _ _ _ _ _ _ _ _ _ _ _ _ n s0 s1 cell cs out H Hc Hn P0 P1 F0 F1) as [L A].
  split; [exact L|]. intros k rad g num K. destruct (A _ _ _ _ K) as (_ & N0 & cnt & C0 & Z & F & E).
  exists N0, cnt. split; [exact C0|]. split; [exact Z|]. split; [|exact E]. revert F. apply forall2_pointwise. intros q c _ C. unfold counted in C.
  revert C. apply counts_ext. intros ij _.
  set (P := fun d => dr <= d < Rmin (INR (S k) * dr) (rmax_of rmax cell) /\ kept dmask d).
  destruct pbc.
  - pose proof (distance_centred cell (atom (fst q) (fst ij)) (atom (snd q) (snd ij)) P) as D. cbv zeta. unfold P in D. rewrite D. reflexivity.
  - cbv zeta. split; intros (X & Y & W); (split; [exact X|split; [exact Y|]]).
    + exists (Shift 0 0 0). split; [reflexivity|]. unfold image_distance, shifted. cbn [na nb nc]. rewrite !Rplus_0_r.
      destruct (vsub (atom (fst q) (fst ij)) (atom (snd q) (snd ij))) eqn:EV. unfold distance in W. exact W.
    + destruct W as (im & -> & W). unfold image_distance, shifted in W. cbn [na nb nc] in W. rewrite !Rplus_0_r in W.
      destruct (vsub (atom (fst q) (fst ij)) (atom (snd q) (snd ij))) eqn:EV. unfold distance. exact W.
Qed.
(** The increments of the number integral are density times g times shell volume. *)
Theorem C70_density fuel t0 t1 dr rmax m0 m1 tm dmask pbc maxmem n s0 s1 vol vs out :
  rpdf fuel [t0; t1] dr rmax (Some [m0; m1]) tm dmask pbc false maxmem = Some out ->
  volumes t0 = vol :: vs -> vol <> 0 -> length (symbols t0) = n ->
  pick_steps (match tm with Some x => x | None => TSlice (Slice None None None) end) (coords_frac t0) = Some s0 ->
  pick_steps (match tm with Some x => x | None => TSlice (Slice None None None) end) (coords_frac t1) = Some s1 ->
  Forall (fun row => length row = n) s0 -> Forall (fun row => length row = n) s1 ->
  exists N1, counts (selects (symbols t0) m1) (seq 0 n) N1 /\
  forall k rad g num, nth_error out k = Some (rad, g, num) ->
  num = (match k with O => 0 | S j => snd (nth j out (0, 0, 0)) end) + INR N1 / vol * g * (ball (INR (S k) * dr) - ball (INR k * dr)).
Proof.
  intros H Hv Hvol Hn P0 P1 F0 F1. destruct (density _ _ _ _ _ _ _ _ _ _ _ n s0 s1 vol vs out H Hv Hvol Hn P0 P1 F0 F1) as (_ & N1 & C & _ & D). eauto.
Qed.
(** Exchanging the selections: the g column is the same, the number integrals are in the ratio of
    the numbers of atoms. *)
Theorem C70_symmetric fuel t dr rmax m0 m1 tm dmask maxmem n s cell cs vol vs fuel' out out' :
  rpdf fuel [t] dr rmax (Some [m0; m1]) tm dmask true false maxmem = Some out ->
  rpdf fuel' [t] dr rmax (Some [m1; m0]) tm dmask true false maxmem = Some out' ->
  cells t = cell :: cs -> volumes t = vol :: vs -> vol <> 0 -> length (symbols t) = n -> det cell <> 0 ->
  (forall r, rmax = Some r -> r <= rmax_smith cell) ->
  pick_steps (match tm with Some x => x | None => TSlice (Slice None None None) end) (coords_frac t) = Some s ->
  Forall (fun row => length row = n) s ->
  exists N0 N1, counts (selects (symbols t) m0) (seq 0 n) N0 /\ counts (selects (symbols t) m1) (seq 0 n) N1 /\
  forall k rad g num rad' g' num', nth_error out k = Some (rad, g, num) -> nth_error out' k = Some (rad', g', num') ->
    rad = rad' /\ g = g' /\ INR N0 * num = INR N1 * num'.
Proof.
  rewrite !rpdf_single. intros H H' Hc Hv Hvol Hn Hd Hr P F.
  assert (Hr' : rmax_of rmax cell <= rmax_smith cell) by (destruct rmax; cbn; [now apply Hr|lra]).
  destruct (reciprocal _ _ _ _ _ _ _ _ _ n s cell cs _ _ _ H H' Hc Hn Hd Hr' P F) as (N0 & N1 & C0 & C1 & Z0 & Z1 & A).
  destruct (number_integral_distance _ _ _ _ _ _ _ _ _ _ _ _ n s s cell cs out H Hc Hn P P F F) as [_ B].
  destruct (number_integral_distance _ _ _ _ _ _ _ _ _ _ _ _ n s s cell cs out' H' Hc Hn P P F F) as [_ B'].
  destruct (density _ _ _ _ _ _ _ _ _ _ _ n s s vol vs out H Hv Hvol Hn P P F F) as (Hdr & K1 & CK1 & _ & D).
  destruct (density _ _ _ _ _ _ _ _ _ _ _ n s s vol vs out' H' Hv Hvol Hn P P F F) as (_ & K0 & CK0 & _ & D').
  rewrite (counts_unique _ _ _ _ CK1 C1) in D. rewrite (counts_unique _ _ _ _ CK0 C0) in D'.
  exists N0, N1. split; [exact C0|]. split; [exact C1|]. intros k rad g num rad' g' num' K K'.
  destruct (B _ _ _ _ K) as [-> _]. destruct (B' _ _ _ _ K') as [-> _]. split; [reflexivity|].
  assert (E := A _ _ _ _ _ _ _ K K'). split; [|exact E].
  pose proof (D _ _ _ _ K) as G. pose proof (D' _ _ _ _ K') as G'.
  pose proof (shell_pos dr k Hdr) as SP. unfold bin in SP. set (sh := ball (INR (S k) * dr) - ball (INR k * dr)) in *.
  assert (PE : INR N0 * (match k with O => 0 | S j => snd (nth j out (0, 0, 0)) end) = INR N1 * (match k with O => 0 | S j => snd (nth j out' (0, 0, 0)) end)).
  { destruct k as [|j]; [lra|].
    assert (L : (j < length out)%nat) by (assert (Q : nth_error out (S j) <> None) by congruence; apply nth_error_Some in Q; lia).
    assert (L' : (j < length out')%nat) by (assert (Q : nth_error out' (S j) <> None) by congruence; apply nth_error_Some in Q; lia).
    destruct (nth j out (0, 0, 0)) as [[a b] c] eqn:E1. destruct (nth j out' (0, 0, 0)) as [[a' b'] c'] eqn:E2. cbn [snd].
    refine (A j a b c a' b' c' _ _); [rewrite <- E1|rewrite <- E2]; now apply nth_error_nth'. }
  assert (0 < INR N0) by (apply lt_0_INR; lia). assert (0 < INR N1) by (apply lt_0_INR; lia).
  set (p := match k with O => 0 | S j => snd (nth j out (0, 0, 0)) end) in *. set (p' := match k with O => 0 | S j => snd (nth j out' (0, 0, 0)) end) in *.
  rewrite G, G' in E.
  assert (X : INR N0 * INR N1 / vol * sh * g = INR N0 * INR N1 / vol * sh * g') by (unfold Rdiv in *; lra).
  apply Rmult_eq_reg_l in X; [exact X|]. unfold Rdiv. repeat apply Rmult_integral_contrapositive_currified; try lra. now apply Rinv_neq_0_compat.
Qed.
(** When there is a result: both selections contain an atom, the masks have one entry per atom and
    the estimated memory is within maxmem.  The rows reach up to rmax. *)
Theorem C70_defined t0 t1 dr rmax m0 m1 tm dmask pbc maxmem n s0 s1 cell cs vol vs i j :
  0 < dr -> symbols t0 = symbols t1 -> length (coords_frac t0) = length (coords_frac t1) -> cells t0 = cells t1 ->
  cells t0 = cell :: cs -> volumes t0 = vol :: vs -> length (symbols t0) = n ->
  pick_steps (match tm with Some x => x | None => TSlice (Slice None None None) end) (coords_frac t0) = Some s0 ->
  pick_steps (match tm with Some x => x | None => TSlice (Slice None None None) end) (coords_frac t1) = Some s1 -> s0 <> [] ->
  Forall (fun row => length row = n) s0 -> Forall (fun row => length row = n) s1 ->
  (forall l, m0 = Bools l \/ m1 = Bools l -> length l = n) ->
  (i < n)%nat -> selects (symbols t0) m0 i -> (j < n)%nat -> selects (symbols t0) m1 j ->
  0 < match rmax with Some r => r | None => rmax_smith cell end -> INR (length s0) * INR n * INR n * 24 / 1000000000 <= maxmem ->
  exists N, forall fuel, (N < fuel)%nat -> exists out, rpdf fuel [t0; t1] dr rmax (Some [m0; m1]) tm dmask pbc false maxmem = Some out /\
    match rmax with Some r => r | None => rmax_smith cell end <= INR (length out) * dr < match rmax with Some r => r | None => rmax_smith cell end + dr.
Proof. apply rpdf_defined. Qed.
(** The short forms of the arguments. *)
Theorem C70_defaults fuel t dr rmax tm dmask pbc vmd maxmem m c :
  rpdf fuel [t] dr rmax (Some [m]) tm dmask pbc vmd maxmem = rpdf fuel [t; t] dr rmax (Some [m; m]) tm dmask pbc vmd maxmem /\
  rpdf fuel [t] dr rmax None tm dmask pbc vmd maxmem = rpdf fuel [t; t] dr rmax (Some [All; All]) tm dmask pbc vmd maxmem /\
  pick_steps (TSlice (Slice None None None)) c = Some c.
Proof. rewrite !rpdf_single. split; [reflexivity|]. split; [reflexivity|]. apply pick_whole. Qed.

(** The function changes the amask list it is given: names become bool arrays for the atoms of the
    first trajectory, so the same list fails for the next trajectory. *)
Definition at3 (x y z : R) : vec := Vec x y z.
Definition cube : mat := Mat (Vec 4 0 0) (Vec 0 4 0) (Vec 0 0 4).
Definition two : traj := Trj ["A"; "B"]%string [[at3 0 0 0; at3 (1 / 4) 0 0]] [cube] [64].
Definition three : traj := Trj ["A"; "B"; "B"]%string [[at3 0 0 0; at3 (1 / 4) 0 0; at3 0 (1 / 4) 0]] [cube] [64].
Lemma cube_det : det cube = 64.
Proof. unfold det, dot, cross, cube. cbn. lra. Qed.
Lemma norm_axis x : 0 <= x -> norm (Vec x 0 0) = x.
Proof. intros H. unfold norm, dot. cbn. replace (x * x + 0 * 0 + 0 * 0) with (x * x) by ring. now apply sqrt_square. Qed.
Lemma cube_smith : rmax_smith cube = 2.
Proof.
  rewrite smith_widths. unfold width_a, width_b, width_c. rewrite cube_det. rewrite (Rabs_right 64) by lra.
  assert (A : norm (cross (rb cube) (rc cube)) = 16). { rewrite <- (norm_axis 16) by lra. f_equal. unfold cross, cube. cbn. f_equal; ring. }
  assert (B : norm (cross (rc cube) (ra cube)) = 16). { rewrite <- (norm_axis 16) by lra. unfold norm. f_equal. unfold dot, cross, cube. cbn. ring. }
  assert (C : norm (cross (ra cube) (rb cube)) = 16). { rewrite <- (norm_axis 16) by lra. unfold norm. f_equal. unfold dot, cross, cube. cbn. ring. }
  rewrite A, B, C. unfold Rmin. repeat destruct (Rle_dec _ _); lra.
Qed.
Theorem C70_mask_reuse_refuted : exists t t' am dr maxmem,
  (exists N, forall fuel, (N < fuel)%nat -> rpdf fuel [t'] dr None (Some am) None None true false maxmem <> None) /\
  (forall fuel, rpdf fuel [t'] dr None (Some (amask_after (symbols t) am)) None None true false maxmem = None).
Proof.
  exists two, three, [Name "A"%string; Name "B"%string], (1 / 2), 1. split.
  - destruct (rpdf_defined three three (1 / 2) None (Name "A"%string) (Name "B"%string) None None true 1 3 (coords_frac three) (coords_frac three) cube [] 64 [] 0 1) as (N & H);
      try reflexivity; try lra; try (apply pick_whole); try discriminate; try (repeat constructor; fail); try lia.
    + intros l [E|E]; discriminate.
    + cbn. rewrite cube_smith. lra.
    + cbn. lra.
    + exists N. intros fuel Hf. destruct (H fuel Hf) as (out & E & _). rewrite rpdf_single. congruence.
  - intros fuel. unfold rpdf. destruct (Rle_dec (1 / 2) 0); [reflexivity|]. reflexivity.
Qed.
(** A concrete case: the B atom at distance 1 from the A atom, beyond the row of r = 1. *)
Example C70_case : exists N, forall fuel, (N < fuel)%nat -> exists out rad g, rpdf fuel [two] (1 / 2) None (Some [Name "A"%string; Name "B"%string]) None None true false 1 = Some out /\
  nth_error out 2 = Some (rad, g, 1).
Proof.
  destruct (rpdf_defined two two (1 / 2) None (Name "A"%string) (Name "B"%string) None None true 1 2 (coords_frac two) (coords_frac two) cube [] 64 [] 0 1) as (N & H);
      try reflexivity; try lra; try (apply pick_whole); try discriminate; try (repeat constructor; fail); try lia.
  - intros l [E|E]; discriminate.
  - cbn. rewrite cube_smith. lra.
  - cbn. lra.
  - exists N. intros fuel Hf. destruct (H fuel Hf) as (out & E & L). cbn [rmax_of] in L. rewrite cube_smith in L.
    assert (G : (2 < length out)%nat). { apply INR_lt. cbn. lra. }
    destruct (nth_error out 2) as [[[rad g] num]|] eqn:K; [|apply nth_error_None in K; lia].
    exists out, rad, g. rewrite rpdf_single. split; [exact E|].
    destruct (number_integral_distance fuel two two (1 / 2) None _ _ None None true false 1 2 (coords_frac two) (coords_frac two) cube [] out E eq_refl eq_refl) as [_ A]; try apply pick_whole; try (repeat constructor).
    destruct (A _ _ _ _ K) as (_ & N0 & cnt & C0 & Z & F & ->). clear A.
    assert (N0 = 1%nat). { apply (counts_unique _ _ _ _ C0). cbn. apply C_yes; [reflexivity|]. apply C_no; [discriminate|constructor]. }
    subst N0. cbn [combine coords_frac two] in F. inversion F as [|q c l l' Q F']; subst. inversion F'; subst.
    assert (c = 1%nat).
    { apply (counts_unique _ _ _ _ Q). unfold pairs. cbn. apply C_no; [cbn; intros (_ & X & _); discriminate|]. apply C_yes.
      - cbn. split; [reflexivity|]. split; [reflexivity|]. split; [|exact I].
        assert (W : distance true cube (vsub (at3 0 0 0) (at3 (1 / 4) 0 0)) = 1).
        { unfold distance. rewrite (small_centred _ (Shift 0 0 0)); cbn; try (rewrite Rabs_left1 by lra; lra); try (rewrite Rabs_right by lra; lra).
          transitivity (norm (Vec 1 0 0)); [|apply norm_axis; lra]. unfold norm. f_equal. unfold dot, vecmat, vadd, scale, shifted, vsub, at3, cube. cbn. field. }
        change (atom [at3 0 0 0; at3 (1 / 4) 0 0] 0) with (at3 0 0 0). change (atom [at3 0 0 0; at3 (1 / 4) 0 0] 1) with (at3 (1 / 4) 0 0).
        rewrite W, cube_smith. unfold Rmin. destruct (Rle_dec _ _); lra.
      - apply C_no; [cbn; intros (X & _); discriminate|]. apply C_no; [cbn; intros (X & _); discriminate|]. constructor. }
    subst. rewrite K. apply f_equal, f_equal2; [reflexivity|]. cbn. lra.
Qed.
Print Assumptions C70_smith.
Print Assumptions C70_smith_width.
Print Assumptions C70_smith_maximal.
Print Assumptions C70_neighbours.
Print Assumptions C70_number_integral.
Print Assumptions C70_density.
Print Assumptions C70_symmetric.
Print Assumptions C70_defined.
Print Assumptions C70_defaults.
Print Assumptions C70_mask_reuse_refuted.
