(** C75: grids in cells. *)
From Coq Require Import Reals List ZArith Bool Lra Lia.
From Verif Require Import Vec3 Cells CellsProofs Grid GridSpec GridProofs.
Import ListNotations.
Local Open Scope R_scope.
Local Ltac Zify.zify_post_hook ::= Z.div_mod_to_equations.

(** The rows of a cell. *)
Definition side (cell : mat) (i : nat) : vec := match i with 0%nat => ra cell | 1%nat => rb cell | _ => rc cell end.
Lemma norms_nth cell i : (i < 3)%nat -> nth_error (norms cell) i = Some (norm (side cell i)).
Proof. intros H. rewrite norms_norm. destruct i as [|[|[|]]]; try lia; reflexivity. Qed.
Lemma points_some cell h minpoints even full g : grid_in_cell cell (Some h) None minpoints even full = Some g ->
  let size := map (points h minpoints even) (norms cell) in h <> 0 /\ (0 <= minpoints)%Z /\ existsb (Z.eqb 0) size = false /\
  g = if full then Both size (spacing_of (norms cell) size) else Size size.
Proof.
  unfold grid_in_cell. destruct (Z.leb_spec 0 minpoints); [|discriminate]. cbn [negb]. destruct (Req_EM_T h 0); [discriminate|].
  destruct (existsb _ _) eqn:E; [discriminate|]. intros H'. cbv zeta. repeat split; auto. destruct full; congruence.
Qed.
Lemma size_inj a b : Size a = Size b -> a = b. Proof. congruence. Qed.
Lemma both_inj a b c d : Both a c = Both b d -> a = b /\ c = d. Proof. intros H. split; congruence. Qed.
Lemma spacing_inj a b : Some (Spacing a) = Some (Spacing b) -> a = b. Proof. congruence. Qed.
(** One number of points per axis: the integer nearest to length / h (half way cases to the
    even one), one more if even=True and it is odd, at least minpoints, never zero. *)
Theorem C75_size cell h minpoints even size : grid_in_cell cell (Some h) None minpoints even false = Some (Size size) ->
  length size = 3%nat /\
  forall i, (i < 3)%nat -> exists n m, nth_error size i = Some n /\ nearest_even (norm (side cell i) / h) m /\
    n = Z.max minpoints (if even && Z.odd m then m + 1 else m)%Z /\ (1 <= n)%Z /\ (minpoints <= n)%Z.
Proof.
  intros H. apply points_some in H. destruct H as (Hh & M & Z0 & E). apply size_inj in E. subst size. split; [reflexivity|]. intros i Hi.
  destruct (points_spec h minpoints even (norm (side cell i))) as (m & N & P).
  exists (points h minpoints even (norm (side cell i))), m. split; [rewrite nth_error_map, (norms_nth _ _ Hi); reflexivity|]. split; [exact N|].
  assert (P' : points h minpoints even (norm (side cell i)) = Z.max minpoints (if even && Z.odd m then m + 1 else m)%Z).
  { rewrite P. f_equal. destruct even; [|reflexivity]. cbn [andb]. rewrite Zmod_odd. destruct (Z.odd m); lia. }
  assert (Q : points h minpoints even (norm (side cell i)) <> 0%Z).
  { intros E. assert (X : existsb (Z.eqb 0) (map (points h minpoints even) (norms cell)) = true); [|congruence].
    apply existsb_exists. exists 0%Z. split; [|reflexivity]. rewrite <- E. apply in_map. eapply nth_error_In. exact (norms_nth cell i Hi). }
  split; [exact P'|]. lia.
Qed.
(** The effective spacing is length / points; with h > 0 it misses the spacing asked for by at
    most h / (2 points), unless minpoints or even made the grid denser. *)
Theorem C75_spacing cell h minpoints even size sp : grid_in_cell cell (Some h) None minpoints even true = Some (Both size sp) ->
  grid_in_cell cell (Some h) None minpoints even false = Some (Size size) /\
  grid_in_cell cell None (Some size) minpoints even true = Some (Spacing sp) /\
  forall i, (i < 3)%nat -> exists n s, nth_error size i = Some n /\ nth_error sp i = Some s /\ s * IZR n = norm (side cell i) /\
    (0 < h -> s <= h + h / (2 * IZR n) /\ (even = false -> (minpoints < n)%Z -> h - h / (2 * IZR n) <= s)).
Proof.
  intros H. apply points_some in H. destruct H as (Hh & M & Z0 & E). set (sz := map (points h minpoints even) (norms cell)) in *. apply both_inj in E. destruct E as [-> ->].
  assert (H1 : grid_in_cell cell (Some h) None minpoints even false = Some (Size sz)).
  { unfold grid_in_cell. destruct (Z.leb_spec 0 minpoints); [|lia]. cbn [negb]. destruct (Req_EM_T h 0); [contradiction|]. fold sz. rewrite Z0. reflexivity. }
  split; [exact H1|]. split.
  { unfold grid_in_cell. destruct (Z.leb_spec 0 minpoints); [|lia]. cbn [negb]. rewrite Z0. reflexivity. }
  intros i Hi. destruct (C75_size _ _ _ _ _ H1) as (_ & K). destruct (K i Hi) as (n & m & N & R & Q & P & P').
  exists n, (norm (side cell i) * 1 / IZR n). assert (Pn : 0 < IZR n) by (apply (IZR_lt 0); lia).
  split; [exact N|]. split; [|split; [field; lra|]].
  - unfold spacing_of. rewrite nth_error_map. assert (C : nth_error (combine (norms cell) sz) i = Some (norm (side cell i), n)).
    { pose proof (norms_nth cell i Hi) as N'. rewrite norms_norm in N' |- *. unfold sz in N |- *. rewrite norms_norm in N |- *.
      destruct i as [|[|[|]]]; try lia; cbn in *; congruence. }
    rewrite C. reflexivity.
  - intros Ph. destruct R as [R _]. apply abs_le in R. set (L := norm (side cell i)) in *.
    assert (LB : IZR m - 1/2 <= L / h <= IZR m + 1/2) by lra.
    assert (L1 : L <= (IZR m + 1/2) * h) by (apply Rmult_le_reg_r with (/ h); [now apply Rinv_0_lt_compat|]; rewrite Rmult_assoc, Rinv_r by lra; unfold Rdiv in LB; lra).
    assert (L2 : (IZR m - 1/2) * h <= L) by (apply Rmult_le_reg_r with (/ h); [now apply Rinv_0_lt_compat|]; rewrite Rmult_assoc, Rinv_r by lra; unfold Rdiv in LB; lra).
    assert (MN : (m <= n)%Z) by (destruct (even && Z.odd m); lia). apply IZR_le in MN.
    split; [|intros -> Mn].
    + apply Rmult_le_reg_r with (IZR n); [exact Pn|]. replace (L * 1 / IZR n * IZR n) with L by (field; lra).
      replace ((h + h / (2 * IZR n)) * IZR n) with (h * IZR n + h / 2) by (field; lra). nra.
    + cbn [andb] in Q. assert (E : n = m) by lia. subst m. apply Rmult_le_reg_r with (IZR n); [exact Pn|]. replace (L * 1 / IZR n * IZR n) with L by (field; lra).
      replace ((h - h / (2 * IZR n)) * IZR n) with (h * IZR n - h / 2) by (field; lra). lra.
Qed.
(** Refused: both or neither of h and size, negative minpoints, a count of zero. *)
Theorem C75_refused cell h size minpoints even full : (forall x, h = Some x -> x <> 0) -> (forall l, size = Some l -> length l = 3%nat /\ ~ In 0%Z l) ->
  (grid_in_cell cell h size minpoints even full = None <->
   (minpoints < 0)%Z \/ (h = None /\ size = None) \/ (h <> None /\ size <> None) \/
   (minpoints = 0%Z /\ size = None /\ exists x i m, h = Some x /\ (i < 3)%nat /\ nearest_even (norm (side cell i) / x) m /\ (if even && Z.odd m then m + 1 <= 0 else m <= 0)%Z)).
Proof.
  intros Hh Hs. unfold grid_in_cell. destruct h as [h|], size as [size|].
  - split; [intros _; right; right; left; split; discriminate|reflexivity].
  - specialize (Hh h eq_refl). destruct (Z.leb_spec 0 minpoints) as [M|M]; cbn [negb]; [|split; [now left|reflexivity]].
    destruct (Req_EM_T h 0); [contradiction|].
    assert (Q : forall L m, nearest_even (L / h) m -> points h minpoints even L = Z.max minpoints (if even && Z.odd m then m + 1 else m)%Z).
    { intros L m N. destruct (points_spec h minpoints even L) as (m' & N' & ->). rewrite (nearest_unique _ _ _ N' N). f_equal. destruct even; [|reflexivity].
      cbn [andb]. rewrite Zmod_odd. destruct (Z.odd m); lia. }
    destruct (existsb (Z.eqb 0) _) eqn:E.
    + split; [intros _|reflexivity]. right. right. right. apply existsb_exists in E. destruct E as (z & Hz & Ez). apply Z.eqb_eq in Ez. subst z.
      apply in_map_iff in Hz. destruct Hz as (L & P & HL). rewrite norms_norm in HL.
      assert (I : exists i, (i < 3)%nat /\ L = norm (side cell i)) by (destruct HL as [<-|[<-|[<-|[]]]]; [exists 0%nat|exists 1%nat|exists 2%nat]; split; auto).
      destruct I as (i & Hi & ->). pose proof (np_round_spec (norm (side cell i) / h)) as N. rewrite (Q _ _ N) in P.
      split; [lia|]. split; [reflexivity|]. exists h, i, (np_round (norm (side cell i) / h)). split; [reflexivity|]. split; [exact Hi|]. split; [exact N|].
      destruct (even && Z.odd _); lia.
    + split; [destruct full; discriminate|]. intros [H|[[H _]|[[_ H]|(H0 & _ & x & i & m & Ex & Hi & N & B)]]]; try lia; try congruence.
      injection Ex as <-. exfalso. assert (X : existsb (Z.eqb 0) (map (points h minpoints even) (norms cell)) = true); [|congruence].
      apply existsb_exists. exists 0%Z. split; [|reflexivity]. assert (P : points h minpoints even (norm (side cell i)) = 0%Z) by (rewrite (Q _ _ N); destruct (even && Z.odd m); lia).
      rewrite <- P. apply in_map. eapply nth_error_In. exact (norms_nth cell i Hi).
  - destruct (Hs size eq_refl) as [L NZ]. destruct (Z.leb_spec 0 minpoints) as [M|M]; cbn [negb]; [|split; [now left|reflexivity]].
    rewrite L. cbn [Nat.eqb negb orb]. destruct (existsb (Z.eqb 0) size) eqn:E.
    + exfalso. apply NZ. apply existsb_exists in E. destruct E as (z & Hz & Ez). apply Z.eqb_eq in Ez. now subst.
    + split; [discriminate|]. intros [H|[[_ H]|[[H _]|(_ & H & _)]]]; try lia; congruence.
  - split; [intros _; right; left; now split|]. intros _. destruct (Z.leb_spec 0 minpoints); reflexivity.
Qed.
(** even=True gives even numbers as long as minpoints is even. *)
Theorem C75_even cell h minpoints size n : grid_in_cell cell (Some h) None minpoints true false = Some (Size size) -> Z.even minpoints = true -> In n size -> Z.even n = true.
Proof.
  intros H E I. apply In_nth_error in I. destruct I as (i & I). destruct (C75_size _ _ _ _ _ H) as (L & K).
  assert (Hi : (i < 3)%nat) by (rewrite <- L; apply nth_error_Some; congruence). destruct (K i Hi) as (n' & m & N & _ & Q & _). rewrite N in I. injection I as ->.
  subst n. cbn [andb]. destruct (Z.max_spec minpoints (if Z.odd m then m + 1 else m)%Z) as [[_ ->]|[_ ->]]; [|exact E].
  destruct (Z.odd m) eqn:O; [rewrite Z.even_add, <- Z.negb_odd, O; reflexivity|rewrite <- Z.negb_odd, O; reflexivity].
Qed.
(** But minpoints=1 is the default, and then it does not. *)
Theorem C75_even_refuted : exists cell h, grid_in_cell cell (Some h) None 1 true false = Some (Size [1; 1; 1]%Z).
Proof.
  exists (Mat (Vec 1 0 0) (Vec 0 1 0) (Vec 0 0 1)), 4. unfold grid_in_cell. cbn [Z.leb negb Z.compare]. destruct (Req_EM_T 4 0); [lra|].
  assert (E : norms (Mat (Vec 1 0 0) (Vec 0 1 0) (Vec 0 0 1)) = [1; 1; 1]).
  { rewrite norms_norm. cbn [ra rb rc]. repeat (apply (f_equal2 cons); [unfold norm, dot; cbn; match goal with |- sqrt ?e = 1 => replace e with 1 by ring end; apply sqrt_1|]). reflexivity. }
  rewrite E. cbn [map]. assert (P : points 4 1 true 1 = 1%Z).
  { destruct (points_spec 4 1 true 1) as (m & N & ->). rewrite (nearest_unique _ _ 0%Z N); [reflexivity|]. unfold nearest_even. replace (1 / 4 - 0) with (1/4) by lra.
    rewrite Rabs_pos_eq by lra. split; [lra|]. intros; lra. }
  rewrite P. reflexivity.
Qed.
(** A smaller h, a larger minpoints or even=True never makes the grid coarser. *)
Theorem C75_monotone cell h h' p p' e e' s s' : 0 < h' <= h -> (p <= p')%Z -> (e = true -> e' = true) ->
  grid_in_cell cell (Some h) None p e false = Some (Size s) -> grid_in_cell cell (Some h') None p' e' false = Some (Size s') -> Forall2 Z.le s s'.
Proof.
  intros Hh Hp He H H'. apply points_some in H, H'. destruct H as (_ & _ & _ & E), H' as (_ & _ & _ & E'). apply size_inj in E, E'. subst s s'.
  assert (K : forall L, 0 <= L -> (points h p e L <= points h' p' e' L)%Z).
  { intros L PL. destruct (points_spec h p e L) as (m & N & ->), (points_spec h' p' e' L) as (m' & N' & ->).
    assert (m <= m')%Z.
    { apply (nearest_mono (L / h) (L / h')); auto. unfold Rdiv. apply Rmult_le_compat_l; [exact PL|]. apply Rinv_le_contravar; lra. }
    destruct e; [rewrite (He eq_refl)|destruct e']; lia. }
  rewrite norms_norm. cbn [map]. repeat constructor; apply K, sqrt_pos.
Qed.
(** The same spacing along all axes gives back the grid it came from. *)
Theorem C75_round_trip cell size h p : Forall (fun n => 1 <= n /\ p <= n)%Z size -> (0 <= p)%Z -> 0 < h ->
  grid_in_cell cell None (Some size) p false false = Some (Spacing [h; h; h]) -> grid_in_cell cell (Some h) None p false false = Some (Size size).
Proof.
  intros F Hp Hh H. unfold grid_in_cell in *. destruct (Z.leb_spec 0 p); [|lia]. cbn [negb] in *. destruct (Req_EM_T h 0); [lra|].
  destruct (Nat.eqb_spec (length size) 3) as [L|]; [|discriminate]. cbn [negb orb] in H. destruct (existsb (Z.eqb 0) size); [discriminate|].
  destruct size as [|a [|b [|c [|]]]]; try discriminate L. apply spacing_inj in H. rewrite norms_norm in *. unfold spacing_of in H. cbn [combine map fst snd] in H. injection H as H1 H2 H3.
  pose proof (Forall_inv F) as Fa. pose proof (Forall_inv (Forall_inv_tail F)) as Fb. pose proof (Forall_inv (Forall_inv_tail (Forall_inv_tail F))) as Fc.
  assert (K : forall L n, (1 <= n /\ p <= n)%Z -> L * 1 / IZR n = h -> points h p false L = n).
  { clear n. intros q n [Q1 Q2] Q. assert (P : 0 < IZR n) by (apply (IZR_lt 0); lia). destruct (points_spec h p false q) as (m & N & ->).
    assert (E : q / h = IZR n).
    { assert (q = h * IZR n) as -> by (rewrite <- Q; field; lra). field. lra. }
    rewrite E in N. rewrite (nearest_unique _ _ _ N (nearest_exact n)). lia. }
  cbn beta in Fa, Fb, Fc.
  cbn [map]. rewrite (K _ a Fa), (K _ b Fb), (K _ c Fc) by assumption. cbn [existsb]. destruct (Z.eqb_spec 0 a), (Z.eqb_spec 0 b), (Z.eqb_spec 0 c); try lia. reflexivity.
Qed.
(** kgrid uses the lengths of the reciprocal lattice vectors; a cell magnified s times has the
    k-grid of the cell for a spacing s times as fine. *)
Theorem C75_kgrid cell s h p e full : det cell <> 0 -> 0 < s ->
  norm (side (recip_cell cell) 0) = 2 * PI * norm (cross (rb cell) (rc cell)) / volume_cell cell /\
  norm (side (recip_cell cell) 1) = 2 * PI * norm (cross (rc cell) (ra cell)) / volume_cell cell /\
  norm (side (recip_cell cell) 2) = 2 * PI * norm (cross (ra cell) (rb cell)) / volume_cell cell /\
  match kgrid (Mat (scale s (ra cell)) (scale s (rb cell)) (scale s (rc cell))) (Some (h / s)) None p e full, kgrid cell (Some h) None p e full with
  | Some (Size a), Some (Size b) => a = b
  | Some (Both a sp), Some (Both b sp') => a = b /\ sp = map (fun x => x / s) sp'
  | None, None => True
  | _, _ => False
  end.
Proof.
  intros D S. assert (V : 0 < volume_cell cell) by (unfold volume_cell; apply Rabs_pos_lt; exact D). pose proof PI_RGT_0 as PP.
  assert (NS : forall t v, 0 <= t -> norm (scale t v) = t * norm v).
  { intros t v Ht. unfold norm. replace (dot (scale t v) (scale t v)) with ((t * t) * dot v v) by (unfold dot, scale; cbn; ring).
    rewrite sqrt_mult by (unfold dot; nra). now rewrite sqrt_square. }
  assert (F : 0 <= 2 * PI / volume_cell cell) by (apply Rlt_le, Rdiv_lt_0_compat; lra).
  assert (R : forall u, norm (scale (2 * PI / volume_cell cell) u) = 2 * PI * norm u / volume_cell cell) by (intros u; rewrite NS by exact F; unfold Rdiv; ring).
  split; [apply R|]. split; [apply R|]. split; [apply R|].
  set (cell' := Mat _ _ _).
  assert (N : norms (recip_cell cell') = map (fun x => x / s) (norms (recip_cell cell))).
  { rewrite !norms_norm. cbn [map]. assert (V' : volume_cell cell' = s ^ 3 * volume_cell cell).
    { unfold volume_cell, cell'. replace (det _) with (s ^ 3 * det cell) by (unfold det, dot, cross, scale; cbn; ring). rewrite Rabs_mult, (Rabs_pos_eq (s ^ 3)); [reflexivity|]. apply pow_le. lra. }
    assert (Q : forall u v, norm (scale (2 * PI / volume_cell cell') (cross (scale s u) (scale s v))) = norm (scale (2 * PI / volume_cell cell) (cross u v)) / s).
    { intros u v. replace (cross (scale s u) (scale s v)) with (scale (s * s) (cross u v)) by (unfold cross, scale; cbn; f_equal; ring).
      rewrite V'. rewrite NS; [rewrite (NS (s * s)) by nra; rewrite NS by exact F; field; split; lra|]. apply Rlt_le, Rdiv_lt_0_compat; [lra|]. apply Rmult_lt_0_compat; [apply pow_lt; lra|lra]. }
    unfold recip_cell. cbn [ra rb rc]. unfold cell' at 2 3 5 6 8 9. cbn [ra rb rc]. rewrite !Q. reflexivity. }
  assert (P : map (points (h / s) p e) (norms (recip_cell cell')) = map (points h p e) (norms (recip_cell cell)) \/ h = 0).
  { destruct (Req_EM_T h 0) as [->|Hh]; [now right|left]. rewrite N, map_map. apply map_ext. intros L. unfold points. replace (L / s / (h / s)) with (L / h) by (field; lra). reflexivity. }
  unfold kgrid, grid_in_cell. destruct (negb (0 <=? p)%Z); [exact I|]. destruct (Req_EM_T (h / s) 0) as [E|E], (Req_EM_T h 0) as [E'|E']; try exact I.
  - exfalso. apply E'. replace h with (h / s * s) by (field; lra). rewrite E. ring.
  - exfalso. apply E. rewrite E'. unfold Rdiv. ring.
  - destruct P as [P|]; [|contradiction]. rewrite P. set (size := map (points h p e) (norms (recip_cell cell))). destruct (existsb (Z.eqb 0) size) eqn:X; [exact I|]. destruct full; [|reflexivity].
    split; [reflexivity|]. rewrite N. unfold spacing_of. rewrite norms_norm. unfold size. rewrite norms_norm. cbn [map combine fst snd].
    unfold Rdiv. repeat (apply (f_equal2 cons); [ring|]). reflexivity.
Qed.

(** The examples of the docstring. *)
Example C75_case : grid_in_cell (Mat (Vec 1 0 0) (Vec 0 2 0) (Vec 0 0 3)) (Some (1/2)) None 1 false true = Some (Both [2; 4; 6]%Z [1/2; 1/2; 1/2]) /\
  grid_in_cell (Mat (Vec 1 0 0) (Vec 0 2 0) (Vec 0 0 3)) None (Some [2; 2; 2]%Z) 1 false false = Some (Spacing [1/2; 1; 3/2]).
Proof.
  assert (E : norms (Mat (Vec 1 0 0) (Vec 0 2 0) (Vec 0 0 3)) = [1; 2; 3]).
  { rewrite norms_norm. cbn [ra rb rc]. repeat (apply (f_equal2 cons); [unfold norm, dot; cbn; match goal with |- sqrt ?e = ?x => replace e with (x * x) by ring end; apply sqrt_square; lra|]). reflexivity. }
  assert (P : forall n, (1 <= n)%Z -> points (1/2) 1 false (IZR n / 2) = n).
  { intros n Hn. destruct (points_spec (1/2) 1 false (IZR n / 2)) as (m & N & ->). replace (IZR n / 2 / (1/2)) with (IZR n) in N by field.
    rewrite (nearest_unique _ _ _ N (nearest_exact n)). lia. }
  unfold grid_in_cell. rewrite E. cbn [map]. destruct (Req_EM_T (1/2) 0); [lra|].
  assert (P1 : points (1/2) 1 false 1 = 2%Z) by (etransitivity; [|apply (P 2%Z); lia]; f_equal; lra).
  assert (P2 : points (1/2) 1 false 2 = 4%Z) by (etransitivity; [|apply (P 4%Z); lia]; f_equal; lra).
  assert (P3 : points (1/2) 1 false 3 = 6%Z) by (etransitivity; [|apply (P 6%Z); lia]; f_equal; lra).
  rewrite P1, P2, P3. cbn. split; f_equal; f_equal; repeat (apply (f_equal2 cons); [field|]); reflexivity.
Qed.

Print Assumptions C75_size.
Print Assumptions C75_spacing.
Print Assumptions C75_refused.
Print Assumptions C75_even.
Print Assumptions C75_even_refuted.
Print Assumptions C75_monotone.
Print Assumptions C75_round_trip.
Print Assumptions C75_kgrid.
