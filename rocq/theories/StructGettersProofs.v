From Coq Require Import List String Arith Lia Bool.
From Verif Require Import Getters GettersSpec GettersProofs StructGetters StructGettersSpec.
Import ListNotations.

(** ** getters that agree with a table *)
Section Table.
Context {V : Type}.
Variable get : string -> getter V.
Variable init fin : string -> option V.
Variable rank : string -> nat.
Hypothesis Hfin : forall a v, init a = Some v -> fin a = Some v.
(** The getter gives o, whether the attributes it looks at are set already or
    not. *)
Fixpoint yields (p : getter V) (o : option V) : Prop :=
  match p with
  | Return v => v = o
  | Raise => False
  | Ask a k => yields (k (fin a)) o
  | Look a k => yields (k (fin a)) o /\ (init a = None -> yields (k None) o)
  end.
Variable ok : string -> Prop.
Fixpoint asks_ok (p : getter V) : Prop :=
  match p with
  | Return _ | Raise => True
  | Ask a k => ok a /\ forall o, asks_ok (k o)
  | Look _ k => forall o, asks_ok (k o)
  end.
Hypothesis Hacyc : acyclic get rank.
Hypothesis Hy : forall a, ok a -> init a = None -> yields (get a) (fin a) /\ asks_ok (get a).

Definition sound (s : obj V) : Prop := forall a, attrs s a = fin a \/ (attrs s a = None /\ init a = None).
Definition good (s : obj V) (a : string) : Prop :=
  match init a with
  | Some v => attrs s a = Some v /\ times a (log s) = 0
  | None => (attrs s a = None /\ times a (log s) = 0) \/
            (attrs s a = fin a /\ times a (log s) > 0 /\ (fin a <> None -> times a (log s) = 1))
  end.
Record part (r : nat) (s s' : obj V) : Prop := {
  p_good : forall b, rank b < r -> good s' b;
  p_sound : sound s';
  p_high : forall b, r <= rank b -> attrs s' b = attrs s b /\ times b (log s') = times b (log s);
  p_keep : forall b, attrs s b = fin b -> attrs s' b = fin b }.
Lemma part_trans r s1 s2 s3 : part r s1 s2 -> part r s2 s3 -> part r s1 s3.
Proof.
  intros [A1 A2 A3 A4] [B1 B2 B3 B4]. constructor; auto. intros b Hb. destruct (A3 b Hb), (B3 b Hb). split; congruence.
Qed.
Definition try_ok (try : string -> obj V -> res V unit) (r : nat) : Prop := forall a s,
  rank a < r -> ok a -> (forall b, rank b < r -> good s b) -> sound s ->
  exists s', try a s = Done tt s' /\ part r s s' /\ attrs s' a = fin a.

Lemma run_ok try r : try_ok try r -> forall p o s,
  below rank r p -> asks_ok p -> yields p o -> (forall b, rank b < r -> good s b) -> sound s ->
  exists s', run try p s = Done o s' /\ part r s s'.
Proof.
  intros Ht. induction p as [v| |a k IH|a k IH]; intros o s Hb Hk Hp Hg Hs.
  - simpl in Hp. subst. exists s. split; [reflexivity|]. constructor; auto.
  - contradiction.
  - destruct Hb as [Hra Hb], Hk as [Hka Hk].
    destruct (Ht a s Hra Hka Hg Hs) as (s1 & E1 & P1 & Ea).
    destruct (IH (fin a) o s1 (Hb _) (Hk _) Hp (p_good _ _ _ P1) (p_sound _ _ _ P1)) as (s2 & E2 & P2).
    exists s2. simpl. rewrite E1, Ea, E2. split; [reflexivity|]. now apply part_trans with s1.
  - destruct Hp as [Hp1 Hp2]. simpl. destruct (Hs a) as [E|[E Ei]]; rewrite E; apply IH; auto; apply Hb.
Qed.

Lemma try_set_ok : forall r fuel, r <= fuel -> try_ok (try_set get fuel) r.
Proof.
  induction r as [r IHr] using lt_wf_ind. intros fuel Hf a s Ha Hka Hg Hs.
  pose proof (Hg a Ha) as Hga. unfold good in Hga.
  destruct (attrs s a) as [v|] eqn:Es.
  - exists s. assert (E : try_set get fuel a s = Done tt s) by (destruct fuel; simpl; rewrite Es; reflexivity).
    split; [assumption|]. split; [constructor; auto|]. destruct (Hs a) as [H|[H _]]; congruence.
  - destruct fuel as [|fuel]; [lia|]. simpl. rewrite Es.
    destruct (init a) as [v|] eqn:Ei; [destruct Hga; congruence|].
    set (s0 := Obj (attrs s) (a :: log s)).
    assert (L : forall b, a <> b -> times b (log s0) = times b (log s)) by (intros; now apply times_other).
    assert (G0 : forall b, rank b < rank a -> good s0 b).
    { intros b Hb. specialize (Hg b ltac:(lia)). unfold good in *. rewrite (L b) by (intros ->; lia). exact Hg. }
    destruct (Hy a Hka Ei) as [Hya Hoka].
    destruct (run_ok (try_set get fuel) (rank a) (IHr (rank a) Ha fuel ltac:(lia)) (get a) (fin a) s0 (Hacyc a) Hoka Hya G0 Hs) as (s1 & E & P).
    rewrite E. set (s2 := Obj (set a (fin a) (attrs s1)) (log s1)). exists s2. split; [reflexivity|].
    split; [|simpl; apply set_eq].
    destruct (p_high _ _ _ P a (le_n _)) as [H1 H2]. change (log s0) with (a :: log s) in H2. rewrite times_same in H2.
    constructor.
    + intros b Hb. unfold good. simpl. destruct (string_dec a b) as [<-|Hne].
      * rewrite Ei, set_eq. right. rewrite H2. split; [reflexivity|]. split; [lia|]. intros Hfa. f_equal.
        destruct Hga as [[_ H]|(H & _ & _)]; [assumption|congruence].
      * rewrite set_ne by assumption. destruct (le_lt_dec (rank a) (rank b)) as [Hr|Hr].
        -- destruct (p_high _ _ _ P b Hr) as [H3 H4]. rewrite H3, H4, (L b Hne). exact (Hg b Hb).
        -- exact (p_good _ _ _ P b Hr).
    + intros b. simpl. destruct (string_dec a b) as [<-|Hne]; [rewrite set_eq; now left|]. rewrite set_ne by assumption. apply (p_sound _ _ _ P).
    + intros b Hb. assert (a <> b) by (intros ->; lia). simpl. rewrite set_ne by assumption.
      destruct (p_high _ _ _ P b ltac:(lia)) as [H3 H4]. rewrite H3, H4. split; [reflexivity|]. now apply L.
    + intros b Hb. simpl. destruct (string_dec a b) as [<-|Hne]; [apply set_eq|]. rewrite set_ne by assumption. now apply (p_keep _ _ _ P).
Qed.

Lemma set_all_ok l : forall fuel s, (forall a, In a l -> ok a) ->
  (forall a, In a l -> rank a < fuel) -> (forall b, rank b < fuel -> good s b) -> sound s ->
  exists s', set_all get fuel l s = Done tt s' /\ part fuel s s' /\ forall a, In a l -> attrs s' a = fin a.
Proof.
  induction l as [|a l IH]; intros fuel s Hk Hr Hg Hs.
  - exists s. split; [reflexivity|]. split; [constructor; auto|]. intros a [].
  - destruct (try_set_ok fuel fuel (le_n _) a s (Hr a (or_introl eq_refl)) (Hk a (or_introl eq_refl)) Hg Hs) as (s1 & E1 & P1 & Ea).
    destruct (IH fuel s1 (fun b Hb => Hk b (or_intror Hb)) (fun b Hb => Hr b (or_intror Hb)) (p_good _ _ _ P1) (p_sound _ _ _ P1)) as (s2 & E2 & P2 & S2).
    exists s2. simpl. rewrite E1, E2. split; [reflexivity|]. split; [now apply part_trans with s1|].
    intros b [<-|Hb]; [|auto]. now apply (p_keep _ _ _ P2).
Qed.

Lemma table_spec l fuel : (forall a, In a l -> ok a) -> (forall a, In a l -> rank a < fuel) ->
  exists s', set_all get fuel l (Obj init []) = Done tt s' /\
    (forall a, In a l -> attrs s' a = fin a) /\
    (forall a v, In a l -> init a = None -> fin a = Some v -> times a (log s') = 1) /\
    (forall a v, init a = Some v -> attrs s' a = Some v /\ times a (log s') = 0).
Proof.
  intros Hk Hr. destruct (set_all_ok l fuel (Obj init []) Hk Hr) as (s' & E & P & S).
  - intros b _. unfold good. simpl. destruct (init b); auto.
  - intros a. simpl. destruct (init a) eqn:Ei; [left; symmetry; now apply Hfin|now right].
  - exists s'. split; [assumption|]. split; [assumption|].
    split.
    + intros a v Ha Hi Hv. pose proof (p_good _ _ _ P a (Hr a Ha)) as G. unfold good in G. rewrite Hi in G.
      destruct G as [[G _]|(_ & _ & G)]; [rewrite (S a Ha) in G; congruence|]. apply G. congruence.
    + intros a v Hi. destruct (le_lt_dec fuel (rank a)) as [H|H].
      * destruct (p_high _ _ _ P a H) as [H1 H2]. simpl in *. rewrite H1, H2. auto.
      * pose proof (p_good _ _ _ P a H) as G. unfold good in G. now rewrite Hi in G.
Qed.
End Table.

(** ** the getters of Structure and Trajectory *)
Open Scope string_scope.
Section Struct.
Variable V : Type.
Variable F : funs V.
Variable is_traj : bool.

Definition rank_of (a : string) : nat :=
  if a =? "coords" then 1 else if a =? "coords_frac" then 1 else if a =? "volume" then 1 else if a =? "pressure" then 1 else
  if a =? "velocity" then 2 else if a =? "ekin" then 3 else if a =? "temperature" then 4 else if a =? "time" then 1 else
  if a =? "symbols_unique" then 1 else if a =? "order" then 2 else if a =? "typat" then 3 else if a =? "znucl_unique" then 2 else
  if a =? "znucl" then 1 else if a =? "ntypat" then 2 else if a =? "nspecies" then 4 else if a =? "mass" then 1 else
  if a =? "mass_unique" then 3 else 0.
Lemma rank_small a : rank_of a < 5.
Proof. unfold rank_of. repeat (destruct (a =? _); [lia|]). lia. Qed.

Ltac unfold_getters := unfold get_by_other, get_transformed, get_natoms, get_nstep, unless_set, from1, from2, itself, traj_only, ask_all.
Ltac walk := repeat (cbn [below asks_ok];
  match goal with
  | |- _ /\ _ => split
  | |- forall _, _ => intros ?
  | |- True => exact I
  | |- _ < _ => vm_compute; lia
  | |- below _ _ (match ?x with _ => _ end) => destruct x
  | |- below _ _ _ => progress (cbn [below])
  end).
Lemma struct_acyclic : acyclic (getter_of F is_traj) rank_of.
Proof.
  intros a. unfold getter_of.
  repeat match goal with |- below _ _ (if a =? ?n then _ else _) => destruct (String.eqb_spec a n) as [->|?] end;
    unfold_getters; destruct is_traj; walk.
Qed.

(** All but the attributes only a trajectory has. *)
Definition usable (a : string) : Prop := is_traj = true \/ ~ In a attrs_only_traj.
Lemma attr_lst_usable a : In a (attr_lst is_traj) -> usable a.
Proof.
  unfold attr_lst, usable. destruct is_traj; [now left|]. intros H. right. apply filter_In in H. destruct H as [_ H].
  intros Hin. apply negb_true_iff in H. rewrite <- not_true_iff_false in H. apply H. apply existsb_exists. exists a. split; [assumption|apply String.eqb_refl].
Qed.

Variable given : string -> option V.
Notation meant := (meant V F given).
Hypothesis Hshapes : shapes_kept V F.

Lemma meant_given a v : given a = Some v -> meant a = Some v.
Proof.
  intros H. unfold StructGettersSpec.meant.
  repeat match goal with |- (if a =? ?n then _ else _) = _ => destruct (String.eqb_spec a n) as [->|?] end;
    unfold cell, cryst_const, coords, coords_frac, natoms, nstep, velocity, mass, ekin, unique, order, typat, znucl_unique, symbols; rewrite ?H; reflexivity.
Qed.

Lemma meanings :
  meant "cell" = cell V F given /\ meant "cryst_const" = cryst_const V F given /\ meant "coords" = coords V F given /\
  meant "coords_frac" = coords_frac V F given /\ meant "symbols" = given "symbols" /\ meant "timestep" = given "timestep" /\
  meant "stress" = given "stress" /\ meant "natoms" = natoms V F given /\ meant "nstep" = nstep V F given /\
  meant "velocity" = velocity V F given /\ meant "mass" = mass V F given /\ meant "ekin" = ekin V F given /\
  meant "symbols_unique" = unique V F given /\ meant "order" = order V F given /\ meant "typat" = typat V F given /\
  meant "znucl_unique" = znucl_unique V F given.
Proof. repeat split. Qed.
Lemma meanings2 :
  meant "volume" = or_else V (given "volume") (map1 V (volume_of V F) (cell V F given)) /\
  meant "pressure" = or_else V (given "pressure") (map1 V (third_trace V F) (given "stress")) /\
  meant "temperature" = or_else V (given "temperature") (map2 V (temp_of V F) (ekin V F given) (natoms V F given)) /\
  meant "time" = or_else V (given "time") (map2 V (time_of V F) (given "timestep") (nstep V F given)) /\
  meant "znucl" = or_else V (given "znucl") (map1 V (numbers_of V F) (given "symbols")) /\
  meant "ntypat" = or_else V (given "ntypat") (map1 V (length_of V F) (unique V F given)) /\
  meant "nspecies" = or_else V (given "nspecies") (map2 V (counts_of V F) (order V F given) (typat V F given)) /\
  meant "mass_unique" = or_else V (given "mass_unique") (map1 V (masses_of_numbers V F) (znucl_unique V F given)).
Proof. repeat split. Qed.
Lemma meant_rest a : (forall n, In n ["cell"; "cryst_const"; "coords"; "coords_frac"; "volume"; "pressure"; "velocity"; "ekin"; "temperature";
  "time"; "nstep"; "natoms"; "symbols_unique"; "order"; "typat"; "znucl_unique"; "znucl"; "ntypat"; "nspecies"; "mass"; "mass_unique"] -> a <> n) ->
  meant a = given a.
Proof.
  intros H. unfold StructGettersSpec.meant.
  repeat match goal with |- (if a =? ?n then _ else _) = _ => destruct (String.eqb_spec a n) as [X|X]; [exfalso; apply (H n); [simpl; tauto|exact X]|clear X] end.
  reflexivity.
Qed.

Lemma struct_asks a : usable a -> asks_ok usable (getter_of F is_traj a).
Proof.
  intros Hu. unfold getter_of.
  repeat match goal with |- asks_ok _ (if a =? ?n then _ else _) => destruct (String.eqb_spec a n) as [->|?] end;
  unfold_getters; unfold usable in *; destruct is_traj;
  repeat (cbn [asks_ok];
  match goal with
  | |- _ /\ _ => split
  | |- true = true \/ _ => now left
  | |- false = true \/ _ => right; vm_compute; intuition discriminate
  | |- forall _, _ => intros ?
  | |- True => exact I
  | |- asks_ok _ (match ?x with _ => _ end) => destruct x
  | |- asks_ok _ _ => progress (cbn [asks_ok])
  end).
Qed.

Lemma struct_yields a : usable a -> given a = None -> yields given meant (getter_of F is_traj a) (meant a).
Proof.
  intros Hu Hg. unfold getter_of.
  destruct meanings as (M1 & M2 & M3 & M4 & M5 & M6 & M7 & M8 & M9 & M10 & M11 & M12 & M13 & M14 & M15 & M16).
  destruct meanings2 as (K1 & K2 & K3 & K4 & K5 & K6 & K7 & K8).
  assert (Nf : given "coords_frac" <> None -> natoms V F given <> None).
  { unfold natoms, symbols, or_else, map1. destruct (given "natoms"), (given "symbols"), (given "coords"), (given "coords_frac"); cbn; congruence. }
  assert (Nc : given "coords" <> None -> natoms V F given <> None).
  { unfold natoms, symbols, or_else, map1. destruct (given "natoms"), (given "symbols"), (given "coords"), (given "coords_frac"); cbn; congruence. }
  Ltac ev M1 M2 M3 M4 M5 M6 M7 M8 M9 M10 M11 M12 M13 M14 M15 M16 :=
    repeat progress (cbn [yields]; rewrite ?M1, ?M2, ?M3, ?M4, ?M5, ?M6, ?M7, ?M8, ?M9, ?M10, ?M11, ?M12, ?M13, ?M14, ?M15, ?M16; cbn); try (intuition congruence).
  Ltac red_all := unfold cell, cryst_const, coords, coords_frac, or_else, map1, map2 in *.
  pose proof (meant_rest a) as MR. set (mt := StructGettersSpec.meant V F given) in *. clearbody mt.
  destruct (String.eqb_spec a "cell") as [->|?].
  { unfold_getters. clear Nf Nc. red_all. rewrite Hg in *. destruct (given "cryst_const") eqn:?; cbn in *; ev M1 M2 M3 M4 M5 M6 M7 M8 M9 M10 M11 M12 M13 M14 M15 M16. }
  destruct (String.eqb_spec a "cryst_const") as [->|?].
  { unfold_getters. clear Nf Nc. red_all. rewrite Hg in *. destruct (given "cell") eqn:?; cbn in *; ev M1 M2 M3 M4 M5 M6 M7 M8 M9 M10 M11 M12 M13 M14 M15 M16. }
  destruct (String.eqb_spec a "coords") as [->|?].
  { unfold_getters. clear Nc. unfold coords, coords_frac, or_else, map1, map2 in *. rewrite Hg in *.
    destruct is_traj; destruct (given "coords_frac") eqn:?; destruct (cell V F given) eqn:?; destruct (natoms V F given) eqn:?; cbn in *; ev M1 M2 M3 M4 M5 M6 M7 M8 M9 M10 M11 M12 M13 M14 M15 M16. }
  destruct (String.eqb_spec a "coords_frac") as [->|?].
  { unfold_getters. clear Nf. unfold coords, coords_frac, or_else, map1, map2 in *. rewrite Hg in *.
    destruct is_traj; destruct (given "coords") eqn:?; destruct (cell V F given) eqn:?; destruct (natoms V F given) eqn:?; cbn in *; ev M1 M2 M3 M4 M5 M6 M7 M8 M9 M10 M11 M12 M13 M14 M15 M16. }
  clear Nf Nc.
  destruct (String.eqb_spec a "volume") as [->|?].
  { unfold_getters. unfold or_else, map1, map2 in *. rewrite Hg in *. rewrite K1. destruct (cell V F given) eqn:?; ev M1 M2 M3 M4 M5 M6 M7 M8 M9 M10 M11 M12 M13 M14 M15 K1. }
  destruct (String.eqb_spec a "pressure") as [->|?].
  { unfold_getters. unfold or_else, map1, map2 in *. rewrite Hg in *. rewrite K2. destruct (given "stress") eqn:?; ev M1 M2 M3 M4 M5 M6 M7 M8 M9 M10 M11 M12 M13 M14 M15 K2. }
  assert (HT : In a attrs_only_traj -> is_traj = true) by (intros X; destruct Hu; [assumption|contradiction]).
  destruct (String.eqb_spec a "velocity") as [->|?].
  { rewrite HT by (vm_compute; auto 10). unfold_getters. unfold velocity, or_else, map1, map2 in *. rewrite Hg in *. destruct (coords V F given) eqn:?; destruct (given "timestep") eqn:?; ev M1 M2 M3 M4 M5 M6 M7 M8 M9 M10 M11 M12 M13 M14 M15 M16. }
  destruct (String.eqb_spec a "ekin") as [->|?].
  { rewrite HT by (vm_compute; auto 10). unfold_getters. unfold ekin, or_else, map1, map2 in *. rewrite Hg in *. destruct (mass V F given) eqn:?; destruct (velocity V F given) eqn:?; ev M1 M2 M3 M4 M5 M6 M7 M8 M9 M10 M11 M12 M13 M14 M15 M16. }
  destruct (String.eqb_spec a "temperature") as [->|?].
  { rewrite HT by (vm_compute; auto 10). unfold_getters. unfold or_else, map1, map2 in *. rewrite Hg in *. rewrite K3. destruct (ekin V F given) eqn:?; destruct (natoms V F given) eqn:?; ev M1 M2 M3 M4 M5 M6 M7 M8 M9 M10 M11 M12 M13 M14 M15 K3. }
  destruct (String.eqb_spec a "time") as [->|?].
  { rewrite HT by (vm_compute; auto 10). unfold_getters. unfold or_else, map1, map2 in *. rewrite Hg in *. rewrite K4. destruct (given "timestep") eqn:?; destruct (nstep V F given) eqn:?; ev M1 M2 M3 M4 M5 M6 M7 M8 M9 M10 M11 M12 M13 M14 M15 K4. }
  destruct (String.eqb_spec a "timestep") as [->|?].
  { rewrite HT by (vm_compute; auto 10). unfold_getters. cbn. rewrite M6. auto. }
  assert (S1 : forall x c, natoms_of V F (frac2cart V F x c) = natoms_of V F x) by apply Hshapes.
  assert (S2 : forall x c, natoms_of V F (cart2frac V F x c) = natoms_of V F x) by apply Hshapes.
  assert (S3 : forall x c, nstep_of V F (frac2cart V F x c) = nstep_of V F x) by apply Hshapes.
  assert (S4 : forall x c, nstep_of V F (cart2frac V F x c) = nstep_of V F x) by apply Hshapes.
  destruct (String.eqb_spec a "nstep") as [->|?].
  { rewrite HT by (vm_compute; auto 10). unfold_getters. unfold nstep, coords, coords_frac, or_else, map1, map2 in *. rewrite Hg in *.
    destruct (given "coords") eqn:?; destruct (given "coords_frac") eqn:?; destruct (cell V F given) eqn:?; cbn in *; rewrite ?M3; cbn; rewrite ?S3, ?S4; ev M1 M2 M3 M4 M5 M6 M7 M8 M9 M10 M11 M12 M13 M14 M15 M16. }
  destruct (String.eqb_spec a "natoms") as [->|?].
  { unfold_getters. unfold natoms, symbols, coords, coords_frac, or_else, map1, map2 in *. rewrite Hg in *.
    destruct (given "symbols") eqn:?; destruct (given "coords") eqn:?; destruct (given "coords_frac") eqn:?; destruct (cell V F given) eqn:?; cbn in *; rewrite ?M3, ?M5; cbn; rewrite ?M3; cbn; rewrite ?S1, ?S2; ev M1 M2 M3 M4 M5 M6 M7 M8 M9 M10 M11 M12 M13 M14 M15 M16. }
  destruct (String.eqb_spec a "symbols_unique") as [->|?].
  { unfold_getters. cbn. rewrite M5, M13. unfold unique, symbols. rewrite Hg. destruct (given "symbols"); reflexivity. }
  destruct (String.eqb_spec a "order") as [->|?].
  { unfold_getters. cbn. rewrite M13, M14. unfold order. rewrite Hg. destruct (unique V F given); reflexivity. }
  destruct (String.eqb_spec a "typat") as [->|?].
  { unfold_getters. cbn. rewrite M5, M14, M15. unfold typat, symbols. rewrite Hg. destruct (given "symbols"), (order V F given); reflexivity. }
  destruct (String.eqb_spec a "znucl_unique") as [->|?].
  { unfold_getters. cbn. rewrite M13, M16. unfold znucl_unique. rewrite Hg. destruct (unique V F given); reflexivity. }
  destruct (String.eqb_spec a "znucl") as [->|?].
  { unfold_getters. cbn. rewrite M5, K5. rewrite Hg. destruct (given "symbols"); reflexivity. }
  destruct (String.eqb_spec a "ntypat") as [->|?].
  { unfold_getters. cbn. rewrite M13, K6. rewrite Hg. destruct (unique V F given); reflexivity. }
  destruct (String.eqb_spec a "nspecies") as [->|?].
  { unfold_getters. cbn. rewrite M14, M15, K7. rewrite Hg. destruct (order V F given), (typat V F given); reflexivity. }
  destruct (String.eqb_spec a "mass") as [->|?].
  { unfold_getters. cbn. rewrite M5, M11. unfold mass, symbols. rewrite Hg. destruct (given "symbols"); reflexivity. }
  destruct (String.eqb_spec a "mass_unique") as [->|?].
  { unfold_getters. cbn. rewrite M16, K8. rewrite Hg. destruct (znucl_unique V F given); reflexivity. }
  unfold itself. cbn [yields]. rewrite MR, Hg; [auto|]. intros nm Hnm E. subst nm. simpl in Hnm. repeat (destruct Hnm as [X|Hnm]; [congruence|]). contradiction.
Qed.

(** ** the result, for any order of the attributes *)
Lemma struct_set_all l : (forall a, In a l -> In a (attr_lst is_traj)) ->
  exists s', set_all (getter_of F is_traj) 5 l (Obj given []) = Done tt s' /\
    (forall a, In a l -> attrs s' a = meant a) /\
    (forall a v, In a l -> given a = None -> meant a = Some v -> times a (log s') = 1) /\
    (forall a v, given a = Some v -> attrs s' a = Some v /\ times a (log s') = 0).
Proof.
  intros Hl. apply (table_spec (getter_of F is_traj) given meant rank_of meant_given usable struct_acyclic).
  - intros a Hu Hg. split; [now apply struct_yields|now apply struct_asks].
  - intros a Ha. apply attr_lst_usable. auto.
  - intros a _. apply rank_small.
Qed.
End Struct.
