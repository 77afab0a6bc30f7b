(** C51: random structures. *)
From Coq Require Import Reals List Bool Arith Lia Lra.
From Verif Require Import Vec3 Cells CellsSpec WrapSpec Random RandomSpec RandomProofs.
Import ListNotations.
Local Open Scope R_scope.

(** C51: whatever the random numbers, a returned structure has all its atoms, inside the unit cell, and
    no two of them closer than the sum of their radii in the minimum image convention. *)
Theorem C51_distances :
  forall s u pos cell coords p, (forall n, 0 <= u n < 1) ->
  get_random_struct s u pos = Done (cell, coords) p ->
  length coords = length (cov_radii s) /\ List.Forall in_unit coords /\
  apart (fun i j => (nth i (cov_radii s) 0 + nth j (cov_radii s) 0) * close_scale s) cell coords.
Proof.
  intros s u pos cell coords p U H. pose proof (struct_spec s u U pos) as S. rewrite H in S.
  destruct S as (_ & L & I & A). split; [exact L|]. split; [exact I|].
  intros i j a b d Lt Ei Ej D. specialize (A i j a b d Lt Ei Ej D). unfold dij_min in A. lra.
Qed.

(** C51: the volume of the cell, its side lengths and its angles are in the requested ranges. *)
Theorem C51_cell :
  forall s u pos cell coords p, (forall n, 0 <= u n < 1) -> sane s ->
  get_random_struct s u pos = Done (cell, coords) p ->
  vol_mean s * fst (vol_range_scale s) <= volume_cell cell <= vol_mean s * snd (vol_range_scale s) /\
  List.Forall (fun l => length_mean s * fst (length_range_scale s) <= l <= length_mean s * snd (length_range_scale s))
    [a_ (cell2cc cell); b_ (cell2cc cell); c_ (cell2cc cell)] /\
  List.Forall (fun a => fst (angle_range s) <= a <= snd (angle_range s))
    [alpha (cell2cc cell); beta (cell2cc cell); gamma (cell2cc cell)].
Proof.
  intros s u pos cell coords p U S H. pose proof (struct_spec s u U pos) as Sp. rewrite H in Sp.
  destruct Sp as ((j & J & F & ->) & _). split; [exact (fits_volume s u U _ S F)|].
  rewrite CellsProofs.cell2cc_cc2cell by exact (fits_valid s u U _ S F).
  pose proof (length_range_ok s S) as L. destruct S as (_ & _ & _ & _ & A2 & _).
  assert (L' : fst (length_range s) <= snd (length_range s)) by lra.
  split; repeat apply Forall_cons; try apply Forall_nil;
    first [exact (uniform_range u U (length_range s) _ L') | exact (uniform_range u U (angle_range s) _ A2)].
Qed.

(** C51: the cell is the first of the [cell_maxtry] candidates whose volume fits (two candidates are
    drawn per attempt, the second is thrown away); if none fits the call fails, and only then. *)
Theorem C51_cell_attempts :
  forall s u pos,
  (forall k c p, get_random_cryst_const s u pos = Done (k, c) p <->
     exists j, (j < cell_maxtry s)%nat /\ (forall i, (i < j)%nat -> rejected s u (pos + 12 * i)) /\
       fits s u (pos + 12 * j) /\ k = get_cc s u (pos + 12 * j) /\ c = (j + 1)%nat /\ p = (pos + 12 * j + 6)%nat) /\
  (forall p, get_random_cryst_const s u pos = Fail p <->
     (forall i, (i < cell_maxtry s)%nat -> rejected s u (pos + 12 * i)) /\ p = (pos + 12 * cell_maxtry s)%nat).
Proof.
  intros s u pos. pose proof (cell_spec s u pos) as S.
  assert (X : forall q, fits s u q -> rejected s u q -> False).
  { intros q (v & V & R) (v' & V' & N). rewrite V in V'. injection V' as <-. contradiction. }
  assert (Y : forall q, impossible s u q -> rejected s u q -> False).
  { intros q V (v' & V' & N). unfold impossible in V. congruence. }
  assert (Z : forall q, impossible s u q -> fits s u q -> False).
  { intros q V (v' & V' & N). unfold impossible in V. congruence. }
  split.
  - intros k c p. split.
    + intro E. rewrite E in S. exact S.
    + intros (j & J & H & F & -> & -> & ->).
      destruct (get_random_cryst_const s u pos) as [[k' c'] p' | p' |].
      * destruct S as (j' & J' & H' & F' & -> & -> & ->).
        destruct (Nat.lt_trichotomy j j') as [L|[->|L]]; [|reflexivity|].
        -- destruct (X _ F (H' j L)).
        -- destruct (X _ F' (H j' L)).
      * destruct S as (H' & _). destruct (X _ F (H' j J)).
      * destruct S as (j' & J' & H' & I').
        destruct (Nat.lt_trichotomy j j') as [L|[->|L]].
        -- destruct (X _ F (H' j L)).
        -- destruct (Z _ I' F).
        -- destruct (Y _ I' (H j' L)).
  - intro p. split.
    + intro E. rewrite E in S. exact S.
    + intros (H & ->). apply cell_fails. exact H.
Qed.

(** C51: every further atom is the first of [atom_maxtry] candidates with enough room; if there is none
    the call fails, and only then. *)
Theorem C51_atom_attempts :
  forall s u cell coords pos, (forall n, 0 <= u n < 1) -> List.Forall in_unit coords -> coords <> [] ->
  let room j := apart (dij_min s) cell (coords ++ [Vec (u (pos + 6 * j)%nat) (u (pos + 6 * j + 1)%nat) (u (pos + 6 * j + 2)%nat)]) in
  (forall coords' p, place_atom s u cell coords pos = Done coords' p ->
     exists j, (j < atom_maxtry s)%nat /\ (forall i, (i < j)%nat -> ~ room i) /\ room j /\
       coords' = coords ++ [Vec (u (pos + 6 * j)%nat) (u (pos + 6 * j + 1)%nat) (u (pos + 6 * j + 2)%nat)] /\
       p = (pos + 6 * j + 3)%nat) /\
  ((exists p, place_atom s u cell coords pos = Fail p) <-> (forall i, (i < atom_maxtry s)%nat -> ~ room i)).
Proof.
  intros s u cell coords pos U I NE. cbv zeta.
  pose proof (place_atom_spec s u U cell coords pos I NE) as S. split.
  - intros coords' p E. rewrite E in S. exact S.
  - split.
    + intros (p & E). rewrite E in S. apply S.
    + intro H. destruct (place_atom s u cell coords pos) as [c p | p |]; [|exists p; reflexivity|contradiction].
      destruct S as (j & J & _ & R & _). destruct (H j J R).
Qed.

(** C51: when no structure is returned, either no cell candidate fits or some atom found no room. *)
Theorem C51_gives_up :
  forall s u pos p, (forall n, 0 <= u n < 1) -> get_random_struct s u pos = Fail p ->
  (forall i, (i < cell_maxtry s)%nat -> rejected s u (pos + 12 * i)) \/
  exists cell part pos', (length part < length (cov_radii s))%nat /\
    List.Forall in_unit part /\ apart (dij_min s) cell part /\
    (forall i, (i < atom_maxtry s)%nat -> ~ apart (dij_min s) cell (part ++ [rand3 u (pos' + 6 * i)])).
Proof.
  intros s u pos p U E. pose proof (struct_spec s u U pos) as S. rewrite E in S. exact S.
Qed.

(** C51: with [fail=False] whatever is returned satisfies the same, and RandomStructureFail never
    appears. *)
Theorem C51_nofail :
  forall s u fuel pos r, get_random_struct_nofail s u fuel pos = Some r ->
  (exists pos', get_random_struct s u pos' = r) /\ (forall p, r <> Fail p).
Proof. intros s u fuel pos r H. exact (nofail_spec s u fuel pos r H). Qed.

(** C51, as a user may read it, is false: the minimum image convention does not give the nearest image
    in an oblique cell.  With the default settings a structure can be returned in which a periodic image
    of one atom is closer to another atom than the sum of their radii. *)
Theorem C51_nearest_image_refuted :
  exists s u cell a b p, s = defaults [1; 1] /\ (forall n, 0 <= u n < 1) /\
    get_random_struct s u 0 = Done (cell, [a; b]) p /\
    exists w, congruent3 (vsub a b) w /\ norm (vecmat w cell) < dij_min s 0 1.
Proof.
  exists (defaults [1; 1]), u0, cell0, at0, at1, 12%nat. split; [reflexivity|]. split; [exact u0_range|].
  split; [exact run0|]. exists (Vec (1 / 2) (- (1 / 2)) 0). split.
  - unfold congruent3, congruent, vsub, at0, at1. cbn. split; [|split].
    + exists 1%Z. lra.
    + exists 0%Z. lra.
    + exists 0%Z. lra.
  - rewrite norm_0. unfold dij_min. cbn [cov_radii defaults nth close_scale].
    pose proof ell_bounds as B.
    replace (1 / 2 * (1 / 2) + 1 / 2 * - (1 / 2) + - (1 / 2) * - (1 / 2)) with ((1 / 2) * (1 / 2)) by lra.
    rewrite sqrt_square by lra. lra.
Qed.

(** the default settings are sane *)
Example C51_sane : sane (defaults [1; 1]).
Proof.
  unfold sane. rewrite vol_mean0. pose proof PI_RGT_0. cbn. repeat split; lra.
Qed.

Example C51_case :
  get_random_struct (defaults [1; 1]) u0 0 = Done (cell0, [Vec 0 0 0; Vec (1 / 2) (1 / 2) 0]) 12.
Proof. exact run0. Qed.

Print Assumptions C51_distances.
Print Assumptions C51_cell.
Print Assumptions C51_cell_attempts.
Print Assumptions C51_atom_attempts.
Print Assumptions C51_gives_up.
Print Assumptions C51_nofail.
Print Assumptions C51_nearest_image_refuted.
