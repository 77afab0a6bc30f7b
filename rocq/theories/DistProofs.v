From Coq Require Import Reals List Arith Bool ZArith Lra Lia.
From Verif Require Import Vec3 Wrap WrapSpec WrapProofs RpdfProofs OmpPriv OmpPrivProofs Dist DistSpec.
Import ListNotations.
Open Scope R_scope.

Lemma eqb2_spec a b : eqb2 a b = true <-> a = b.
Proof. unfold eqb2. destruct a, b. cbn. rewrite andb_true_iff, !Nat.eqb_eq. split; [intros []; now f_equal|now intros [= -> ->]]. Qed.
Lemma eqb3_spec a b : eqb3 a b = true <-> a = b.
Proof. unfold eqb3. destruct a, b. cbn. rewrite andb_true_iff, eqb2_spec, Nat.eqb_eq. split; [intros []; now f_equal|now intros [= -> ->]]. Qed.
Lemma eqbt_spec a b : eqbt a b = true <-> a = b.
Proof. unfold eqbt. destruct a, b. cbn. rewrite andb_true_iff, eqb2_spec, Nat.eqb_eq. split; [intros []; now f_equal|now intros [= -> ->]]. Qed.

(** *** The while loops end *)
Lemma wrap_ends x : exists y, wrap1 (rounds x) x = Some y /\ centred x y.
Proof.
  set (n := Z.to_nat (up (Rabs x))).
  assert (Hn : Rabs x < INR n).
  { unfold n. destruct (archimed (Rabs x)) as [H _]. destruct (Z.le_gt_cases 0 (up (Rabs x))) as [P|N].
    - rewrite INR_IZR_INZ, Z2Nat.id by exact P. exact H.
    - assert (IZR (up (Rabs x)) < 0) by (apply IZR_lt; lia). pose proof (Rabs_pos x). lra. }
  destruct (Rabs_def2 _ _ Hn) as [U L].
  assert (F : (n < rounds x)%nat) by (unfold rounds; fold n; lia).
  destruct (masked_while_ge n [x] (rounds x)) as (r & E & Hr); [constructor; [lra|constructor]|exact F|].
  inversion Hr as [|? y ? ? (C & Uy & B) Hr']; subst. inversion Hr'; subst.
  rewrite do_while_masked in E. unfold wrap1. destruct (do_while _ (-1) _ x) as [z|]; [|discriminate]. injection E as ->.
  destruct (masked_while_lt n [y] (rounds x)) as (r & E & Hq); [constructor; [|constructor]|exact F|].
  { pose proof (pos_INR n). destruct B as [->|B]; lra. }
  inversion Hq as [|? y' ? ? (C' & Ly & B') Hq']; subst. inversion Hq'; subst.
  rewrite do_while_masked in E. destruct (do_while _ 1 _ y) as [z'|]; [|discriminate]. injection E as ->.
  exists y'. split; [reflexivity|]. split; [apply congruent_trans with y; assumption|]. split; [exact Ly|]. destruct B' as [->|B']; lra.
Qed.
Lemma wrap_while_centred x : centred x (wrap_while x).
Proof. unfold wrap_while. destruct (wrap_ends x) as (y & -> & H). exact H. Qed.
Lemma wrap_while_idem x : wrap_while (wrap_while x) = wrap_while x.
Proof.
  apply (centred_unique (wrap_while x)); [apply wrap_while_centred|]. split; [apply congruent_refl|]. apply (wrap_while_centred x).
Qed.

(** *** A sequence of assignments *)
Section Fold.
  Context {K A : Type} (eqb : K -> K -> bool) (eqb_ok : forall a b, eqb a b = true <-> a = b).
  Lemma fold_set (g : K -> A -> A) L f0 key : (forall k a, g k (g k a) = g k a) ->
    fold_left (fun f k => set eqb f k (g k (f k))) L f0 key = if existsb (eqb key) L then g key (f0 key) else f0 key.
  Proof.
    intros I. revert f0. induction L as [|k L IH]; intros f0; [reflexivity|]. cbn [fold_left existsb]. rewrite IH.
    unfold set. destruct (eqb key k) eqn:E; cbn [orb].
    - apply eqb_ok in E. subst k. destruct (existsb (eqb key) L); [apply I|reflexivity].
    - reflexivity.
  Qed.
  Lemma existsb_in key L : existsb (eqb key) L = true <-> In key L.
  Proof.
    rewrite existsb_exists. split; [intros (x & H & E); apply eqb_ok in E; now subst|]. intros H. exists key. split; [exact H|]. now apply eqb_ok.
  Qed.
End Fold.

Lemma in_loop_ji n ij : In ij (loop_ji n) <-> (fst ij < n /\ snd ij < n)%nat.
Proof.
  unfold loop_ji. rewrite in_flat_map. split.
  - intros (jj & Hj & H). apply in_map_iff in H. destruct H as (ii & <- & Hi). apply in_seq in Hi, Hj. cbn. lia.
  - intros [Hi Hj]. exists (snd ij). split; [apply in_seq; lia|]. apply in_map_iff. exists (fst ij). split; [now destruct ij|]. apply in_seq. lia.
Qed.
Lemma in_loop_kji m n k : In k (loop_kji m n) <-> (fst (fst k) < n /\ snd (fst k) < n /\ snd k < m)%nat.
Proof.
  unfold loop_kji. rewrite in_flat_map. split.
  - intros (kk & Hk & H). apply in_map_iff in H. destruct H as (ij & <- & Hi). apply in_loop_ji in Hi. apply in_seq in Hk. cbn. lia.
  - intros (Hi & Hj & Hk). exists (snd k). split; [apply in_seq; lia|]. apply in_map_iff. exists (fst k). split; [now destruct k|].
    apply in_loop_ji. auto.
Qed.

Definition runs (p : list (scratch -> scratch)) (s : scratch) : scratch := fold_left (fun s f => f s) p s.
Lemma runs_app p q s : runs (p ++ q) s = runs q (runs p s).
Proof. unfold runs. apply fold_left_app. Qed.
Lemma pass_dvf (g : key3 -> R -> R) L s : runs (map (fun k s => set_dvf s k (g k (dvf s k))) L) s
  = Scratch (fold_left (fun f k => set eqb3 f k (g k (f k))) L (dvf s)) (dv s) (dsq s).
Proof. revert s. induction L as [|k L IH]; intros s; [now destruct s|]. cbn. unfold runs in IH. rewrite IH. reflexivity. Qed.
Lemma pass_dv (v : (key3 -> R) -> key3 -> R) L s : runs (map (fun k s => set_dv s k (v (dvf s) k)) L) s
  = Scratch (dvf s) (fold_left (fun f k => set eqb3 f k (v (dvf s) k)) L (dv s)) (dsq s).
Proof. revert s. induction L as [|k L IH]; intros s; [now destruct s|]. cbn. unfold runs in IH. rewrite IH. reflexivity. Qed.
Lemma pass_dsq (v : (key3 -> R) -> key2 -> R) L s : runs (map (fun k s => set_dsq s k (v (dv s) k)) L) s
  = Scratch (dvf s) (dv s) (fold_left (fun f k => set eqb2 f k (v (dv s) k)) L (dsq s)).
Proof. revert s. induction L as [|k L IH]; intros s; [now destruct s|]. cbn. unfold runs in IH. rewrite IH. reflexivity. Qed.

Lemma flat_map_map {X Y Z} (f : X -> Y -> Z) (l : list X) (a : list Y) :
  flat_map (fun x => map (f x) a) l = map (fun p => f (fst p) (snd p)) (flat_map (fun x => map (pair x) a) l).
Proof. induction l as [|x l IH]; [reflexivity|]. cbn. now rewrite map_app, map_map, IH. Qed.
Lemma in_axes n k : In k (flat_map (fun x => map (pair x) axes) (loop_ji n)) <-> (fst (fst k) < n /\ snd (fst k) < n /\ snd k < 3)%nat.
Proof.
  rewrite in_flat_map. split.
  - intros (ij & Hij & H). apply in_map_iff in H. destruct H as (kk & <- & Hk). apply in_loop_ji in Hij. cbn in *. lia.
  - intros (Hi & Hj & Hk). exists (fst k). split; [apply in_loop_ji; auto|]. apply in_map_iff. exists (snd k). split; [now destruct k|]. cbn. lia.
Qed.

(** The vector of the entry i,j in fractional coordinates *)
Definition frac_of (pbc : bool) (u v : vec) : vec :=
  let d := vsub u v in if pbc then Vec (wrap_while (vx d)) (wrap_while (vy d)) (wrap_while (vz d)) else d.
Lemma frac_of_spec (pbc : bool) u v : if pbc then centred3 (vsub u v) (frac_of pbc u v) else frac_of pbc u v = vsub u v.
Proof. unfold frac_of. destruct pbc; [|reflexivity]. repeat split; cbn; apply wrap_while_centred. Qed.

Lemma comp_vec x y z k : (k < 3)%nat -> comp (Vec x y z) k = match k with 0%nat => x | 1%nat => y | _ => z end.
Proof. destruct k as [|[|[|]]]; reflexivity. Qed.

Lemma distsq_frac_spec coords cell pbc n s0 i j : (i < n)%nat -> (j < n)%nat ->
  let s := runs (distsq_frac coords cell pbc n) s0 in
  let f := frac_of pbc (coords i) (coords j) in let w := vecmat f cell in
  (forall k, (k < 3)%nat -> dvf s ((i, j), k) = comp f k) /\ (forall k, (k < 3)%nat -> dv s ((i, j), k) = comp w k) /\ dsq s (i, j) = dot w w.
Proof.
  intros Hi Hj. cbv zeta. unfold distsq_frac. rewrite !runs_app.
  match goal with |- context [runs (flat_map ?F ?L) s0] => replace (flat_map F L) with
    (map (fun p s => set_dvf s p ((fun p (_ : R) => comp (coords (fst (fst p))) (snd p) - comp (coords (snd (fst p))) (snd p)) p (dvf s p)))
       (flat_map (fun x => map (pair x) axes) L)) end.
  2:{ rewrite (flat_map_map (fun ij kk s => set_dvf s (ij, kk) (comp (coords (fst ij)) kk - comp (coords (snd ij)) kk))).
      apply map_ext. intros [ij kk]. reflexivity. }
  rewrite (pass_dvf (fun p (_ : R) => comp (coords (fst (fst p))) (snd p) - comp (coords (snd (fst p))) (snd p))). set (f1 := fold_left _ (flat_map _ _) (dvf s0)).
  assert (F1 : forall k, (k < 3)%nat -> f1 ((i, j), k) = comp (vsub (coords i) (coords j)) k).
  { intros k Hk. unfold f1. rewrite (fold_set eqb3 eqb3_spec (fun p _ => comp (coords (fst (fst p))) (snd p) - comp (coords (snd (fst p))) (snd p))) by reflexivity.
    rewrite (proj2 (existsb_in eqb3 eqb3_spec _ _)) by (apply in_axes; auto). cbn [fst snd]. unfold vsub.
    destruct k as [|[|[|]]]; [reflexivity..|lia]. }
  clearbody f1.
  set (s2 := runs (if pbc then _ else _) _).
  assert (F2 : forall k, (k < 3)%nat -> dvf s2 ((i, j), k) = comp (frac_of pbc (coords i) (coords j)) k).
  { intros k Hk. unfold s2, frac_of. destruct pbc.
    - rewrite (pass_dvf (fun _ x => wrap_while x)). cbn [dvf].
      rewrite (fold_set eqb3 eqb3_spec (fun _ x => wrap_while x)) by (intros; apply wrap_while_idem).
      rewrite (proj2 (existsb_in eqb3 eqb3_spec _ _)) by (apply in_loop_kji; auto). rewrite F1 by exact Hk.
      destruct k as [|[|[|]]]; [reflexivity..|lia].
    - cbn. apply F1. exact Hk. }
  clearbody s2.
  rewrite (pass_dv (fun d k => d (fst k, 0%nat) * comp (ra cell) (snd k) + d (fst k, 1%nat) * comp (rb cell) (snd k) + d (fst k, 2%nat) * comp (rc cell) (snd k))).
  set (f3 := fold_left _ (loop_kji 3 n) (dv s2)).
  assert (F3 : forall k, (k < 3)%nat -> f3 ((i, j), k) = comp (vecmat (frac_of pbc (coords i) (coords j)) cell) k).
  { intros k Hk. unfold f3. rewrite (fold_set eqb3 eqb3_spec (fun k _ => dvf s2 (fst k, 0%nat) * comp (ra cell) (snd k) + dvf s2 (fst k, 1%nat) * comp (rb cell) (snd k) + dvf s2 (fst k, 2%nat) * comp (rc cell) (snd k))) by reflexivity.
    rewrite (proj2 (existsb_in eqb3 eqb3_spec _ _)) by (apply in_loop_kji; auto). cbn [fst snd]. rewrite !F2 by lia.
    unfold vecmat, vadd, Vec3.scale. destruct k as [|[|[|]]]; [reflexivity..|lia]. }
  clearbody f3. rewrite (pass_dsq (fun d ij => d (ij, 0%nat) * d (ij, 0%nat) + d (ij, 1%nat) * d (ij, 1%nat) + d (ij, 2%nat) * d (ij, 2%nat))).
  cbn [dvf dv dsq]. split; [exact F2|]. split; [exact F3|].
  rewrite (fold_set eqb2 eqb2_spec (fun ij _ => f3 (ij, 0%nat) * f3 (ij, 0%nat) + f3 (ij, 1%nat) * f3 (ij, 1%nat) + f3 (ij, 2%nat) * f3 (ij, 2%nat))) by reflexivity.
  rewrite (proj2 (existsb_in eqb2 eqb2_spec _ _)) by (apply in_loop_ji; auto). rewrite !F3 by lia. reflexivity.
Qed.
