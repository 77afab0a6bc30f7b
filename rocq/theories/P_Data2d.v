(** C100: Data2D holds the same data in all its forms *)
From Coq Require Import List Bool Arith Lia.
From Verif Require Import Data2d Data2dSpec.
Import ListNotations.

Lemma list_ext {T} (l m : list T) : (forall i, nth_error l i = nth_error m i) -> l = m.
Proof.
  revert m. induction l as [|a l IH]; intros [|b m] H; [reflexivity|specialize (H 0); discriminate|specialize (H 0); discriminate|]. assert (H0 := H 0). injection H0 as ->. f_equal. apply IH. intros i. exact (H (S i)).
Qed.
Lemma nth_none {T} (l : list T) i : length l <= i -> nth_error l i = None. Proof. apply nth_error_None. Qed.
Lemma entry_ext {T} n k (M N : list (list T)) : rect n k M -> rect n k N -> (forall i j, i < n -> j < k -> entry M i j = entry N i j) -> M = N.
Proof.
  intros (L & F) (L' & F') H. apply list_ext. intros i. destruct (nth_error M i) as [r|] eqn:E, (nth_error N i) as [s|] eqn:E'.
  - f_equal. rewrite Forall_forall in F, F'. assert (R1 := F r (nth_error_In _ _ E)). assert (R2 := F' s (nth_error_In _ _ E')). assert (I : i < n) by (rewrite <- L; apply nth_error_Some; congruence).
    apply list_ext. intros j. destruct (le_lt_dec k j); [rewrite !nth_none by lia; reflexivity|]. assert (H1 := H i j I l). unfold entry in H1. rewrite E, E' in H1. exact H1.
  - apply nth_error_None in E'. assert (i < length M) by (apply nth_error_Some; congruence). lia.
  - apply nth_error_None in E. assert (i < length N) by (apply nth_error_Some; congruence). lia.
  - reflexivity.
Qed.
Lemma nth_repeat_error {T} (a : T) n i : i < n -> nth_error (repeat a n) i = Some a.
Proof. revert i. induction n as [|n IH]; intros i I; [lia|]. destruct i; [reflexivity|]. cbn. apply IH. lia. Qed.
Lemma concat_entry {T} n k (M : list (list T)) : rect n k M -> length (concat M) = n * k /\ (forall i j, i < n -> j < k -> nth_error (concat M) (i * k + j) = entry M i j).
Proof.
  intros (L & F). revert n L. induction F as [|r M R F IH]; intros n L; [cbn in L; subst; split; [reflexivity|intros; lia]|]. destruct n as [|n]; [discriminate|]. injection L as L. destruct (IH n L) as (A & B). cbn [concat]. split; [rewrite app_length, A, R; lia|].
  intros i j I J. destruct i as [|i]; [cbn; rewrite nth_error_app1 by lia; reflexivity|]. rewrite nth_error_app2 by (rewrite R; cbn; lia). rewrite R. replace (S i * k + j - k) with (i * k + j) by (cbn; lia). rewrite B by lia. reflexivity.
Qed.
Lemma flat_concat {T} nx ny (Z : list (list T)) zz : flat nx ny Z zz -> zz = concat Z.
Proof.
  intros (R & L & E). destruct (concat_entry nx ny Z R) as (A & B). apply list_ext. intros k. destruct (le_lt_dec (nx * ny) k); [rewrite !nth_none by lia; reflexivity|].
  assert (NZ : ny <> 0) by (intros ->; lia). assert (D := Nat.div_mod k ny NZ). assert (M := Nat.mod_upper_bound k ny NZ). assert (I : k / ny < nx) by (apply Nat.div_lt_upper_bound; lia). replace k with (k / ny * ny + k mod ny) by lia. rewrite <- E, B by assumption. reflexivity.
Qed.
Lemma chunks {T} nx ny (Z : list (list T)) : rect nx ny Z -> map (fun i => firstn ny (skipn (i * ny) (concat Z))) (seq 0 nx) = Z.
Proof.
  intros (L & F). revert nx L. induction F as [|r M R F IH]; intros nx L; [cbn in L; subst; reflexivity|]. destruct nx as [|n]; [discriminate|]. injection L as L. cbn [seq map concat]. f_equal; [cbn; rewrite firstn_app, <- R, firstn_all, Nat.sub_diag; apply app_nil_r|].
  rewrite <- seq_shift, map_map. transitivity (map (fun i => firstn ny (skipn (i * ny) (concat M))) (seq 0 n)); [|exact (IH n L)]. apply map_ext. intros i. f_equal. rewrite skipn_app, R. replace (S i * ny - ny) with (i * ny) by (cbn; lia). rewrite skipn_all2 by (rewrite R; cbn; lia). reflexivity.
Qed.
Lemma flat_reshape {T} nx ny (Z : list (list T)) zz : flat nx ny Z zz -> reshape T zz nx ny = Some Z.
Proof. intros F. assert (E := flat_concat _ _ _ _ F). destruct F as (R & L & _). unfold reshape. rewrite L, Nat.eqb_refl, E. now rewrite chunks. Qed.
Section P.
Variables (A B : Type) (eqb : A -> A -> bool).
Hypothesis eqb_ok : forall a b, eqb a b = true <-> a = b.
Notation uniq := (uniq A eqb).
Notation data := (data A B).
Notation data2d := (data2d A B eqb).
Lemma eqb_same a : eqb a a = true. Proof. now apply eqb_ok. Qed.
Lemma mesh_grid (x y : list A) : on_grid x y (fst (meshgridt A x y)) (snd (meshgridt A x y)).
Proof.
  unfold meshgridt. cbn [fst snd]. split; [|split].
  - split; [apply map_length|]. apply Forall_forall. intros r I. apply in_map_iff in I as (a & <- & _). apply repeat_length.
  - split; [apply repeat_length|]. apply Forall_forall. intros r I. apply repeat_spec in I. now subst.
  - intros i j a b E F. assert (J : j < length y) by (apply nth_error_Some; congruence). assert (I : i < length x) by (apply nth_error_Some; congruence). unfold entry. rewrite nth_error_map, E. cbn [option_map]. rewrite nth_repeat_error by exact J. rewrite nth_repeat_error by exact I. now split.
Qed.
Lemma grid_unique x y X Y : on_grid x y X Y -> (X, Y) = meshgridt A x y.
Proof.
  intros (RX & RY & E). destruct (mesh_grid x y) as (RX' & RY' & E'). rewrite (surjective_pairing (meshgridt A x y)). f_equal; (eapply entry_ext; [eassumption|eassumption|]); intros i j I J;
    (destruct (nth_error x i) as [a|] eqn:EA; [|apply nth_error_None in EA; lia]); (destruct (nth_error y j) as [b|] eqn:EB; [|apply nth_error_None in EB; lia]); destruct (E i j a b EA EB); destruct (E' i j a b EA EB); congruence.
Qed.
Lemma mesh_flat (x y : list A) : concat (fst (meshgridt A x y)) = map fst (loops x y) /\ concat (snd (meshgridt A x y)) = map snd (loops x y).
Proof.
  unfold meshgridt, loops. cbn [fst snd]. induction x as [|a x (IH1 & IH2)]; [now split|]. cbn [map concat flat_map repeat length]. rewrite !map_app, <- IH1, <- IH2, !map_map. cbn [fst snd]. rewrite map_id. split; [|reflexivity]. f_equal.
  clear. induction y as [|b y IH]; [reflexivity|]. cbn [length repeat map]. now rewrite IH.
Qed.
Lemma loops_len (x y : list A) : length (loops x y) = length x * length y.
Proof. unfold loops. induction x as [|a x IH]; [reflexivity|]. cbn [flat_map length Nat.mul]. now rewrite app_length, map_length, IH. Qed.
Lemma pair_loops (l : list (A * A)) : pair_up A (map fst l) (map snd l) = Some l.
Proof. unfold pair_up. rewrite !map_length, Nat.eqb_refl. f_equal. induction l as [|[a b] l IH]; [reflexivity|]. cbn. now rewrite IH. Qed.
Lemma col_mesh (x y : list A) : y <> [] -> first_col A (fst (meshgridt A x y)) = Some x.
Proof. intros N. unfold meshgridt. cbn [fst]. destruct y as [|b y]; [congruence|]. induction x as [|a x IH]; [reflexivity|]. change (match first_col A (map (fun a0 : A => repeat a0 (length (b :: y))) x) with Some t => Some (a :: t) | None => None end = Some (a :: x)). now rewrite IH. Qed.
(** *** first occurrences *)
Lemma uniq_in l a : In a (uniq l) <-> In a l.
Proof.
  induction l as [|b l IH]; [tauto|]. cbn [Data2d.uniq In]. rewrite filter_In, IH. split; [tauto|]. intros [->|I]; [tauto|]. destruct (eqb b a) eqn:E; [apply eqb_ok in E; tauto|]. right. split; [exact I|]. reflexivity.
Qed.
Lemma filter_filter (f g : A -> bool) l : filter f (filter g l) = filter (fun a => g a && f a) l.
Proof. induction l as [|a l IH]; [reflexivity|]. cbn. destruct (g a) eqn:E; cbn; rewrite IH; [reflexivity|reflexivity]. Qed.
Definition out (m : list A) (b : A) : bool := negb (existsb (fun a => eqb a b) m).
Lemma uniq_app l m : uniq (l ++ m) = uniq l ++ filter (out l) (uniq m).
Proof.
  induction l as [|a l IH]; [cbn; symmetry; rewrite <- (filter_ext (fun _ => true)) by reflexivity; induction (uniq m) as [|b u IH]; cbn; [reflexivity|now rewrite IH]|]. cbn [app Data2d.uniq]. rewrite IH, filter_app, filter_filter. cbn [app]. do 2 f_equal. apply filter_ext. intros b. unfold out. cbn [existsb]. rewrite negb_orb. apply andb_comm.
Qed.
Lemma filter_id (f : A -> bool) l : (forall a, In a l -> f a = true) -> filter f l = l.
Proof. induction l as [|a l IH]; intros H; [reflexivity|]. cbn. rewrite (H a) by now left. f_equal. apply IH. intros b I. apply H. now right. Qed.
Lemma filter_nil (f : A -> bool) l : (forall a, In a l -> f a = false) -> filter f l = [].
Proof. induction l as [|a l IH]; intros H; [reflexivity|]. cbn. rewrite (H a) by now left. apply IH. intros b I. apply H. now right. Qed.
Lemma uniq_nodup l : NoDup l -> uniq l = l.
Proof. induction 1 as [|a l N D IH]; [reflexivity|]. cbn [Data2d.uniq]. rewrite IH. f_equal. apply filter_id. intros b I. destruct (eqb a b) eqn:E; [apply eqb_ok in E; congruence|reflexivity]. Qed.
Lemma out_in m b : out m b = false <-> In b m.
Proof. unfold out. rewrite negb_false_iff, existsb_exists. split; [intros (a & I & E); apply eqb_ok in E; now subst|intros I; exists b; split; [exact I|apply eqb_same]]. Qed.
Lemma uniq_snd (x y : list A) : NoDup y -> x <> [] -> uniq (map snd (loops x y)) = y.
Proof.
  intros D NX. destruct x as [|a x]; [congruence|]. unfold loops. cbn [flat_map]. rewrite map_app, map_map. cbn [snd]. rewrite map_id, uniq_app, uniq_nodup by exact D. rewrite filter_nil; [apply app_nil_r|]. intros b I. apply (proj1 (uniq_in _ _)) in I. apply out_in. apply in_map_iff in I as ([p q] & <- & I). apply in_flat_map in I as (c & _ & I). apply in_map_iff in I as (e & E & I). injection E as _ <-. exact I.
Qed.
Lemma uniq_const a n m : uniq (repeat a (S n) ++ m) = a :: filter (fun b => negb (eqb a b)) (uniq m).
Proof.
  induction n as [|n IH]; [reflexivity|]. change (repeat a (S (S n)) ++ m) with (a :: repeat a (S n) ++ m). cbn [Data2d.uniq]. rewrite IH. cbn [filter]. rewrite eqb_same. cbn [negb]. rewrite filter_filter. f_equal. apply filter_ext. intros b. apply andb_diag.
Qed.
Lemma fst_row (a : A) y : map fst (map (fun b : A => (a, b)) y) = repeat a (length y). Proof. rewrite map_map. cbn [fst]. induction y as [|b y IH]; [reflexivity|]. cbn. now rewrite IH. Qed.
Lemma uniq_fst (x y : list A) : y <> [] -> uniq (map fst (loops x y)) = uniq x.
Proof.
  intros NY. unfold loops. induction x as [|a x IH]; [reflexivity|]. cbn [flat_map]. rewrite map_app, fst_row. destruct y as [|b y]; [congruence|]. cbn [length]. rewrite uniq_const, IH. reflexivity.
Qed.
Lemma uniq_short l : length (uniq l) <= length l /\ (length (uniq l) = length l -> NoDup l).
Proof.
  induction l as [|a l (IH1 & IH2)]; [split; [apply le_n|constructor]|]. cbn [Data2d.uniq length]. assert (F : forall (f : A -> bool) m, length (filter f m) <= length m /\ (length (filter f m) = length m -> forall b, In b m -> f b = true)).
  { intros f m. induction m as [|b m (I1 & I2)]; [split; [apply le_n|intros _ b []]|]. cbn. destruct (f b) eqn:E; cbn; (split; [lia|]); intros H; [intros c [<-|I]; [exact E|apply I2; [lia|exact I]]|lia]. }
  destruct (F (fun b => negb (eqb a b)) (uniq l)) as (F1 & F2). split; [lia|]. intros E. constructor; [|apply IH2; lia]. intros I. assert (K := F2 ltac:(lia) a ltac:(now apply uniq_in)). rewrite eqb_same in K. discriminate.
Qed.
(** the object with all forms *)
Definition whole (x y : list A) (X Y : list (list A)) (zz : option (list B)) (Z : option (list (list B))) : data :=
  Data (Some x) (Some y) (Some (map fst (loops x y))) (Some (map snd (loops x y))) zz (Some X) (Some Y) Z (Some (loops x y)).
Lemma xy_axes d x y X Y : on_grid x y X Y -> d_x A B d = Some x -> d_y A B d = Some y -> update_xy A B eqb d = Some (x, y, map fst (loops x y), map snd (loops x y), X, Y, loops x y).
Proof.
  intros G E1 E2. apply grid_unique in G. destruct (mesh_flat x y) as (F1 & F2). unfold update_xy. rewrite E1, E2. rewrite <- G in *. cbn [fst snd] in F1, F2. cbv zeta. rewrite F1, F2, pair_loops. reflexivity.
Qed.
(** x and y are the axes of everything else, whatever else is given *)
Theorem C100_axes d x y : d_x A B d = Some x -> d_y A B d = Some y -> d_zz A B d = None -> d_Z A B d = None ->
  exists X Y, on_grid x y X Y /\ data2d d = Some (whole x y X Y None None).
Proof.
  intros E1 E2 E3 E4. exists (fst (meshgridt A x y)), (snd (meshgridt A x y)). split; [apply mesh_grid|]. unfold Data2d.data2d, refresh. rewrite (xy_axes d x y _ _ (mesh_grid x y) E1 E2), E3, E4. reflexivity.
Qed.
Lemma z_forms d x y X Y Z zz : update_xy A B eqb d = Some (x, y, map fst (loops x y), map snd (loops x y), X, Y, loops x y) -> flat (length x) (length y) Z zz ->
  (d_Z A B d = Some Z \/ d_Z A B d = None /\ d_zz A B d = Some zz) -> data2d d = Some (whole x y X Y (Some zz) (Some Z)).
Proof.
  intros U F [E|[E1 E2]]; unfold Data2d.data2d, refresh; rewrite U; [rewrite E; unfold whole; now rewrite (flat_concat _ _ _ _ F)|]. rewrite E1, E2, (flat_reshape _ _ _ _ F). reflexivity.
Qed.
(** All ways to give the data lead to the same object. *)
Theorem C100_same x y X Y Z zz : on_grid x y X Y -> flat (length x) (length y) Z zz ->
  let r := whole x y X Y (Some zz) (Some Z) in let xx := map fst (loops x y) in let yy := map snd (loops x y) in
  data2d (Data (Some x) (Some y) None None None None None (Some Z) None) = Some r /\
  data2d (Data (Some x) (Some y) None None (Some zz) None None None None) = Some r /\
  (x <> [] -> y <> [] ->
    data2d (Data None None None None None (Some X) (Some Y) (Some Z) None) = Some r /\ data2d (Data None None None None (Some zz) (Some X) (Some Y) None None) = Some r) /\
  (x <> [] -> y <> [] -> NoDup x -> NoDup y ->
    data2d (Data None None (Some xx) (Some yy) None None None (Some Z) None) = Some r /\ data2d (Data None None (Some xx) (Some yy) (Some zz) None None None None) = Some r /\
    data2d (Data None None None None None None None (Some Z) (Some (loops x y))) = Some r /\ data2d (Data None None None None (Some zz) None None None (Some (loops x y))) = Some r) /\
  copy A B eqb r = Some r.
Proof.
  intros G F r xx yy. assert (AX : forall d, d_x A B d = Some x -> d_y A B d = Some y -> update_xy A B eqb d = Some (x, y, xx, yy, X, Y, loops x y)) by (intros d; now apply xy_axes).
  split; [|split; [|split; [|split]]].
  - eapply z_forms; [now apply AX|exact F|now left].
  - eapply z_forms; [now apply AX|exact F|now right].
  - intros NX NY. assert (U : forall zz Z, update_xy A B eqb (Data None None None None zz (Some X) (Some Y) Z None) = Some (x, y, xx, yy, X, Y, loops x y)).
    { intros z0 Z0. unfold update_xy. cbn [d_x d_y d_X d_Y]. destruct (mesh_flat x y) as (F1 & F2). assert (GU := grid_unique _ _ _ _ G). assert (C := col_mesh x y NY). rewrite <- GU in *. cbn [fst snd] in *. rewrite C.
      destruct Y as [|y0 Y'] eqn:EY. { destruct G as (_ & (L & _) & _). destruct x; [congruence|discriminate]. }
      assert (Y0 : y0 = y). { unfold meshgridt in GU. injection GU as _ GU. destruct x; [congruence|]. cbn in GU. congruence. } subst y0. rewrite <- EY in *. rewrite F1, F2, pair_loops. reflexivity. }
    split; (eapply z_forms; [apply U|exact F|]); [now left|now right].
  - intros NX NY DX DY. assert (U1 : uniq xx = x) by (unfold xx; rewrite uniq_fst by exact NY; now apply uniq_nodup). assert (U2 : uniq yy = y) by now apply uniq_snd. assert (GU := grid_unique _ _ _ _ G).
    assert (V : forall zz Z, update_xy A B eqb (Data None None (Some xx) (Some yy) zz None None Z None) = Some (x, y, xx, yy, X, Y, loops x y)).
    { intros z0 Z0. unfold update_xy. cbn [d_x d_y d_X d_Y d_xx d_yy]. rewrite U1, U2, <- GU. unfold xx, yy. now rewrite pair_loops. }
    assert (W : forall zz Z, update_xy A B eqb (Data None None None None zz None None Z (Some (loops x y))) = Some (x, y, xx, yy, X, Y, loops x y)).
    { intros z0 Z0. unfold update_xy. cbn [d_x d_y d_X d_Y d_xx d_yy d_XY]. fold xx yy. now rewrite U1, U2, <- GU. }
    repeat split; (eapply z_forms; [apply V || apply W|exact F|]); (now left) || now right.
  - unfold copy. eapply z_forms; [now apply AX|exact F|now left].
Qed.
(** what xx, yy and XY are, number by number *)
Theorem C100_index (x y : list A) i j a b : nth_error x i = Some a -> nth_error y j = Some b -> nth_error (loops x y) (i * length y + j) = Some (a, b) /\ length (loops x y) = length x * length y.
Proof.
  intros EA EB. split; [|apply loops_len]. assert (J : j < length y) by (apply nth_error_Some; congruence). revert i EA. unfold loops. induction x as [|c x IH]; intros i EA; [destruct i; discriminate|]. cbn [flat_map]. destruct i as [|i]; [injection EA as ->; cbn; rewrite nth_error_app1 by (rewrite map_length; exact J); rewrite nth_error_map, EB; reflexivity|].
  rewrite nth_error_app2 by (rewrite map_length; cbn; lia). rewrite map_length. replace (S i * length y + j - length y) with (i * length y + j) by (cbn; lia). apply IH. exact EA.
Qed.
(** New xx, yy, X, Y, XY (and zz if there is Z) given to update are dropped: the object stays as it was. *)
Definition ignored (k : kw A B) : Prop := match k with Kx _ _ _ | Ky _ _ _ | KZ _ _ _ => False | _ => True end.
Theorem C100_update_refuted x y X Y Z zz ks : on_grid x y X Y -> flat (length x) (length y) Z zz -> Forall ignored ks ->
  update A B eqb (whole x y X Y (Some zz) (Some Z)) ks = Some (whole x y X Y (Some zz) (Some Z)).
Proof.
  intros G F IG. assert (H : forall d, d_x A B d = Some x -> d_y A B d = Some y -> d_Z A B d = Some Z -> let d' := fold_left (set_kw A B) ks d in d_x A B d' = Some x /\ d_y A B d' = Some y /\ d_Z A B d' = Some Z).
  { induction IG as [|k ks I IG IH]; intros d E1 E2 E3; [now repeat split|]. cbn [fold_left]. apply IH; destruct d; destruct k; cbn in *; tauto. }
  destruct (H (whole x y X Y (Some zz) (Some Z)) eq_refl eq_refl eq_refl) as (E1 & E2 & E3). unfold update. eapply z_forms; [apply xy_axes; [exact G|exact E1|exact E2]|exact F|now left].
Qed.
(** a new Z is taken over; without Z a new zz *)
Theorem C100_update x y X Y Z zz Z' zz' : on_grid x y X Y -> flat (length x) (length y) Z' zz' ->
  update A B eqb (whole x y X Y (Some zz) (Some Z)) [KZ A B (Some Z')] = Some (whole x y X Y (Some zz') (Some Z')) /\
  update A B eqb (whole x y X Y None None) [Kzz A B (Some zz')] = Some (whole x y X Y (Some zz') (Some Z')).
Proof.
  intros G F. split; unfold update; (eapply z_forms; [apply xy_axes; [exact G|reflexivity|reflexivity]|exact F|]); [now left|now right].
Qed.
(** With all keywords (None for those not wanted) an update gives what a new object would be. *)
Theorem C100_update_all d x y xx yy zz X Y Z XY :
  update A B eqb d [Kx A B x; Ky A B y; Kxx A B xx; Kyy A B yy; Kzz A B zz; KX A B X; KY A B Y; KZ A B Z; KXY A B XY] = data2d (Data x y xx yy zz X Y Z XY).
Proof. destruct d. reflexivity. Qed.
(** A new axis alone: x, y and the grid are new, Z and zz keep their old shape. *)
Theorem C100_shape_refuted x y X Y Z zz x' : flat (length x) (length y) Z zz ->
  exists X' Y', on_grid x' y X' Y' /\ update A B eqb (whole x y X Y (Some zz) (Some Z)) [Kx A B (Some x')] = Some (whole x' y X' Y' (Some zz) (Some Z)).
Proof.
  intros F. exists (fst (meshgridt A x' y)), (snd (meshgridt A x' y)). split; [apply mesh_grid|]. unfold update, refresh. cbn [fold_left set_kw whole]. erewrite xy_axes; [|apply mesh_grid|reflexivity|reflexivity]. cbn [d_Z]. now rewrite (flat_concat _ _ _ _ F).
Qed.
(** xx and yy in the other order of loops: no exception, Z belongs to other points than X and Y. *)
Theorem C100_order_refuted x y (f : A -> A -> B) : x <> [] -> y <> [] -> NoDup x -> NoDup y ->
  let pts := map (fun p => (snd p, fst p)) (loops y x) in
  exists X Y Z zz, on_grid x y X Y /\ flat (length x) (length y) Z zz /\
    data2d (Data None None (Some (map fst pts)) (Some (map snd pts)) (Some (map (fun p => f (fst p) (snd p)) pts)) None None None None) =
      Some (Data (Some x) (Some y) (Some (map fst pts)) (Some (map snd pts)) (Some zz) (Some X) (Some Y) (Some Z) (Some pts)) /\
    forall i j a b, i < length x -> j < length y -> let k := i * length y + j in nth_error x (k mod length x) = Some a -> nth_error y (k / length x) = Some b -> entry Z i j = Some (f a b).
Proof.
  intros NX NY DX DY pts. set (zz := map (fun p => f (fst p) (snd p)) pts). assert (LP : length pts = length x * length y) by (unfold pts; rewrite map_length, loops_len; lia).
  set (Z := map (fun i => firstn (length y) (skipn (i * length y) zz)) (seq 0 (length x))). assert (LZ : length zz = length x * length y) by (unfold zz; now rewrite map_length).
  assert (RZ : rect (length x) (length y) Z). { split; [unfold Z; now rewrite map_length, seq_length|]. apply Forall_forall. intros r I. apply in_map_iff in I as (i & <- & I). apply in_seq in I. rewrite firstn_length, skipn_length, LZ. apply Nat.min_l. assert (S i * length y <= length x * length y) by (apply Nat.mul_le_mono_r; lia). cbn in H. lia. }
  assert (EZ : forall i j, i < length x -> j < length y -> entry Z i j = nth_error zz (i * length y + j)).
  { intros i j I J. unfold entry, Z. rewrite nth_error_map, (nth_error_nth' (seq 0 (length x)) 0) by (rewrite seq_length; exact I). rewrite seq_nth by exact I. cbn [option_map Nat.add]. 
    assert (NF : forall T (l : list T) n m, m < n -> nth_error (firstn n l) m = nth_error l m). { intros T l. induction l as [|c l IH]; intros n m LT; [now rewrite firstn_nil|]. destruct n; [lia|]. destruct m; [reflexivity|]. cbn. apply IH. lia. }
    assert (NS : forall T (l : list T) n m, nth_error (skipn n l) m = nth_error l (n + m)). { intros T l. induction l as [|c l IH]; intros n m; [rewrite skipn_nil; destruct m, n; reflexivity|]. destruct n; [reflexivity|]. cbn. apply IH. }
    now rewrite NF, NS. }
  assert (F1 : map fst pts = map snd (loops y x)) by (unfold pts; now rewrite map_map). assert (F2 : map snd pts = map fst (loops y x)) by (unfold pts; now rewrite map_map).
  exists (fst (meshgridt A x y)), (snd (meshgridt A x y)), Z, zz. split; [apply mesh_grid|]. split; [split; [exact RZ|]; split; [exact LZ|exact EZ]|]. split.
  - unfold Data2d.data2d, refresh, update_xy. cbn [d_x d_y d_X d_Y d_xx d_yy d_Z d_zz]. rewrite pair_loops, F1, F2, uniq_snd by assumption. rewrite uniq_fst by exact NX. rewrite uniq_nodup by exact DY. rewrite (surjective_pairing (meshgridt A x y)). cbn [option_map]. fold zz.
    unfold reshape. rewrite LZ, Nat.eqb_refl. reflexivity.
  - intros i j a b I J k EA EB. rewrite EZ by assumption. fold k. assert (NL : length x <> 0) by (destruct x; [congruence|discriminate]). unfold zz, pts. rewrite !nth_error_map. rewrite (Nat.div_mod k (length x) NL), (Nat.mul_comm (length x)). destruct (C100_index y x (k / length x) (k mod length x) b a EB EA) as (-> & _). reflexivity.
Qed.
(** A repeated value on an axis: x, y work, but xx, yy give an exception if there is zz, shorter axes if not. *)
Theorem C100_repeat_refuted x y zz : ~ NoDup x -> y <> [] -> NoDup y -> length zz = length x * length y ->
  data2d (Data None None (Some (map fst (loops x y))) (Some (map snd (loops x y))) (Some zz) None None None None) = None /\
  exists x' X Y, length x' < length x /\ on_grid x' y X Y /\
    data2d (Data None None (Some (map fst (loops x y))) (Some (map snd (loops x y))) None None None None None) = Some (Data (Some x') (Some y) (Some (map fst (loops x y))) (Some (map snd (loops x y))) None (Some X) (Some Y) None (Some (loops x y))).
Proof.
  intros ND NY DY LZ. assert (NX : x <> []) by (intros ->; apply ND; constructor). destruct (uniq_short x) as (S1 & S2). assert (LT : length (uniq x) < length x) by (destruct (Nat.eq_dec (length (uniq x)) (length x)) as [E|]; [now apply S2 in E|lia]).
  unfold Data2d.data2d, refresh, update_xy. cbn [d_x d_y d_X d_Y d_xx d_yy d_Z d_zz]. rewrite pair_loops, uniq_fst by exact NY. rewrite uniq_snd by assumption. rewrite (surjective_pairing (meshgridt A (uniq x) y)). cbn [option_map]. split.
  - unfold reshape. rewrite LZ. destruct (Nat.eqb_spec (length x * length y) (length (uniq x) * length y)) as [E|]; [|reflexivity]. apply Nat.mul_cancel_r in E; [lia|]. destruct y; [congruence|discriminate].
  - exists (uniq x). do 2 eexists. split; [exact LT|]. split; [apply mesh_grid|reflexivity].
Qed.
End P.
(** x = [1,2], y = [5,6,7] *)
Example grid100 : on_grid [1; 2] [5; 6; 7] [[1; 1; 1]; [2; 2; 2]] [[5; 6; 7]; [5; 6; 7]] /\ flat 2 3 [[6; 7; 8]; [7; 8; 9]] [6; 7; 8; 7; 8; 9] /\ NoDup [1; 2] /\ NoDup [5; 6; 7] /\ ~ NoDup [1; 1].
Proof.
  split; [|split; [|split; [|split]]].
  - split; [split; [reflexivity|repeat constructor]|]. split; [split; [reflexivity|repeat constructor]|]. intros i j a b I J. destruct i as [|[|i]]; [| |destruct i; discriminate]; destruct j as [|[|[|j]]]; try (destruct j; discriminate); cbn in *; now split.
  - split; [split; [reflexivity|repeat constructor]|]. split; [reflexivity|]. intros i j I J. destruct i as [|[|i]]; [| |lia]; destruct j as [|[|[|j]]]; try lia; reflexivity.
  - repeat constructor; cbn; intuition discriminate.
  - repeat constructor; cbn; intuition discriminate.
  - intros N. inversion N as [|? ? H]. apply H. now left.
Qed.
Example eqb100 : forall a b, Nat.eqb a b = true <-> a = b. Proof. exact Nat.eqb_eq. Qed.
(** with loops the other way, f(x, y) = 10 x + y: the element for x = 1, y = 6 holds f(2, 5) *)
Example order100 : match Data2d.data2d nat nat Nat.eqb (Data None None (Some [1; 2; 1; 2; 1; 2]) (Some [5; 5; 6; 6; 7; 7]) (Some [15; 25; 16; 26; 17; 27]) None None None None) with
  Some d => (d_X nat nat d, d_Y nat nat d, d_Z nat nat d) = (Some [[1; 1; 1]; [2; 2; 2]], Some [[5; 6; 7]; [5; 6; 7]], Some [[15; 25; 16]; [26; 17; 27]]) | None => False end.
Proof. reflexivity. Qed.
Print Assumptions C100_axes. Print Assumptions C100_same. Print Assumptions C100_index. Print Assumptions C100_update_refuted. Print Assumptions C100_update. Print Assumptions C100_update_all.
Print Assumptions C100_shape_refuted. Print Assumptions C100_order_refuted. Print Assumptions C100_repeat_refuted.
