From Coq Require Import Reals List Arith ZArith String Bool Lra Lia.
From Verif Require Import StructGetters Traj Signal VacfSpec Smooth SmoothSpec SmoothProofs TrajStat SmoothTraj.
Import ListNotations.
Local Open Scope list_scope.
Local Open Scope R_scope.
Local Notation length := List.length.
Local Notation total := VacfSpec.total.

Lemma pick_map {A B} (f : A -> B) (l : list A) d cnt : forall a, pick (map f l) a d cnt = map f (pick l a d cnt).
Proof. induction cnt as [|cnt IH]; intros a; [reflexivity|]. cbn [pick]. rewrite nth_error_map. destruct (nth_error l (Z.to_nat a)); cbn; rewrite IH; reflexivity. Qed.
Lemma slice_map {A B} (f : A -> B) s l : slice_list s (map f l) = option_map (map f) (slice_list s l).
Proof. unfold slice_list. rewrite map_length. destruct (slice_indices s _) as [[[a b] d]|]; [|reflexivity]. cbn. now rewrite pick_map. Qed.
Lemma pick_in {A} (l : list A) d cnt x : forall a, In x (pick l a d cnt) -> In x l.
Proof.
  induction cnt as [|cnt IH]; intros a; [intros []|]. cbn [pick]. destruct (nth_error l (Z.to_nat a)) eqn:E; [|apply IH].
  intros [<-|H]; [eapply nth_error_In; exact E|eapply IH; exact H].
Qed.
Lemma slice_in {A} s (l r : list A) x : slice_list s l = Some r -> In x r -> In x l.
Proof. unfold slice_list. destruct (slice_indices s _) as [[[a b] d]|]; [|discriminate]. intros H. injection H as <-. apply pick_in. Qed.
Lemma item_map {A B} (f : A -> B) i l : item_list i (map f l) = option_map f (item_list i l).
Proof. unfold item_list. rewrite map_length. destruct (_ && _); [|reflexivity]. apply nth_error_map. Qed.
Lemma nth_nil c : nth c (@nil R) 0 = 0.
Proof. now destruct c. Qed.
Lemma column_length c l : length (column c l) = length l.
Proof. apply map_length. Qed.
Lemma column_nth c l i : nth i (column c l) 0 = nth c (nth i l []) 0.
Proof. unfold column. rewrite <- (nth_nil c) at 1. apply (map_nth (fun f => nth c f 0)). Qed.
Lemma repeat_nth c n : nth c (repeat 0 n) 0 = 0.
Proof. revert c. induction n as [|n IH]; intros [|c]; cbn; auto. Qed.
Lemma column_repeat c f n : column c (repeat f n) = repeat (nth c f 0) n.
Proof. induction n as [|n IH]; cbn; [reflexivity|]. unfold column in IH. now rewrite IH. Qed.

Lemma column_app c l m : column c (l ++ m) = column c l ++ column c m.
Proof. apply map_app. Qed.

Lemma pads_col c data M edge : smooth_pads (column c data) M edge = option_map (fun p => (column c (fst p), column c (snd p))) (smooth2_pads data M edge).
Proof.
  unfold smooth_pads, smooth2_pads. rewrite column_length. destruct (edge =? "m")%string.
  - unfold column at 1 2. rewrite !slice_map. destruct (slice_list _ data) as [dl|]; [|reflexivity]. cbn [option_map].
    destruct (slice_list (Slice (Some (-2)%Z) _ _) data) as [dr|]; [|reflexivity]. cbn [option_map]. fold (column c dl) (column c dr). rewrite !column_length.
    destruct (negb _); [reflexivity|]. destruct (_ <? M)%nat; [|reflexivity]. cbn [option_map fst snd]. rewrite !column_app, column_repeat, repeat_nth. reflexivity.
  - destruct (edge =? "c")%string; [|reflexivity]. unfold column at 1 2. rewrite !item_map. destruct (item_list 0 data), (item_list (-1) data); try reflexivity.
    cbn [option_map fst snd]. now rewrite !column_repeat.
Qed.
Lemma pads_rows data M edge n dl dr : (forall f, In f data -> length f = n) -> data <> [] -> smooth2_pads data M edge = Some (dl, dr) ->
  forall f, In f (dl ++ data ++ dr) -> length f = n.
Proof.
  intros H NE P f I. assert (Nc : ncol data = n) by (destruct data as [|a data]; [congruence|]; apply H; now left).
  rewrite !in_app_iff in I. destruct I as [I|[I|I]]; [|now apply H|]; unfold smooth2_pads in P; (destruct (edge =? "m")%string; [|destruct (edge =? "c")%string; [|discriminate]]).
  - destruct (slice_list _ data) as [l|] eqn:E1; [|discriminate]. destruct (slice_list (Slice (Some (-2)%Z) _ _) data) as [r|] eqn:E2; [|discriminate].
    destruct (negb _); [discriminate|]. destruct (_ <? M)%nat; injection P as <- <-; rewrite ?in_app_iff in I; [destruct I as [I|I]|].
    + apply repeat_spec in I. subst f. rewrite repeat_length. exact Nc.
    + first [exact (H f (slice_in _ _ _ f E1 I))|exact (H f (slice_in _ _ _ f E2 I))].
    + first [exact (H f (slice_in _ _ _ f E1 I))|exact (H f (slice_in _ _ _ f E2 I))].
  - destruct (item_list 0 data) as [x|] eqn:E1; [|discriminate]. destruct (item_list (-1) data); [|discriminate]. injection P as <- <-. apply repeat_spec in I. subst f.
    apply H. unfold item_list in E1. destruct (_ && _); [|discriminate]. eapply nth_error_In; exact E1.
  - destruct (slice_list _ data) as [l|] eqn:E1; [|discriminate]. destruct (slice_list (Slice (Some (-2)%Z) _ _) data) as [r|] eqn:E2; [|discriminate].
    destruct (negb _); [discriminate|]. destruct (_ <? M)%nat; injection P as <- <-; rewrite ?in_app_iff in I; [destruct I as [I|I]|].
    + first [exact (H f (slice_in _ _ _ f E1 I))|exact (H f (slice_in _ _ _ f E2 I))].
    + apply repeat_spec in I. subst f. rewrite repeat_length. exact Nc.
    + first [exact (H f (slice_in _ _ _ f E1 I))|exact (H f (slice_in _ _ _ f E2 I))].
  - destruct (item_list 0 data); [|discriminate]. destruct (item_list (-1) data) as [x|] eqn:E1; [|discriminate]. injection P as <- <-. apply repeat_spec in I. subst f.
    apply H. unfold item_list in E1. destruct (_ && _); [|discriminate]. eapply nth_error_In; exact E1.
Qed.
Lemma convolve_col c sig kk : (c < ncol sig)%nat -> column c (convolve2_valid sig (map (fun x => [x]) kk)) = convolve_valid (column c sig) kk.
Proof.
  intros H. unfold convolve2_valid, convolve_valid. rewrite map_length, column_length. unfold column at 1. rewrite map_map. apply map_ext. intros i.
  replace (ncol sig - 1 + 1)%nat with (ncol sig) by lia.
  match goal with |- nth c (map ?g _) 0 = _ => rewrite (nth_indep _ 0 (g 0%nat)) by (now rewrite map_length, seq_length); rewrite (map_nth g), seq_nth by exact H end.
  cbn [Nat.add]. f_equal. apply map_ext. intros k. cbn [seq map]. unfold rsum. cbn [fold_right]. rewrite column_nth. rewrite Rplus_0_r.
  replace (c + 1 - 1 - 0)%nat with c by lia. f_equal.
  destruct (Nat.lt_ge_cases k (length kk)) as [L|L].
  - rewrite (nth_indep _ [] ((fun x => [x]) 0)) by (rewrite map_length; exact L). rewrite (map_nth (fun x => [x])). reflexivity.
  - rewrite (nth_overflow kk) by exact L. rewrite (nth_overflow (map _ kk)) by (rewrite map_length; exact L). reflexivity.
Qed.
Lemma concat_single (l : list R) : List.concat (map (fun x => [x]) l) = l.
Proof. induction l as [|a l IH]; cbn; [reflexivity|]. now rewrite IH. Qed.
Lemma smooth2_col data kern edge norm n : data <> [] -> (0 < n)%nat -> (forall f, In f data -> length f = n) ->
  match smooth2 data (map (fun x => [x]) kern) edge norm with
  | Some out => length out = length data /\ (forall f, In f out -> length f = n) /\ forall c, (c < n)%nat -> smooth (column c data) kern edge norm = Some (column c out)
  | None => forall c, (c < n)%nat -> smooth (column c data) kern edge norm = None
  end.
Proof.
  intros NE Hn H. unfold smooth2. rewrite map_length, concat_single.
  destruct (smooth2_pads data (length kern) edge) as [[dl dr]|] eqn:P.
  2:{ intros c _. unfold smooth. rewrite column_length, pads_col, P. reflexivity. }
  pose proof (pads_rows _ _ _ _ _ _ H NE P) as HR. set (sig := dl ++ data ++ dr) in *.
  assert (NS : ncol sig = n). { unfold ncol. destruct sig as [|f s] eqn:E; [|apply HR; now left]. unfold sig in E. apply app_eq_nil in E. destruct E as [_ E]. apply app_eq_nil in E. tauto. }
  assert (CS : forall c, column c sig = column c dl ++ column c data ++ column c dr) by (intros c; unfold sig, column; now rewrite !map_app).
  set (kk := if norm then if Req_EM_T (rsum kern) 0 then None else Some (map (fun x => x / rsum kern) kern) else Some kern).
  assert (K : (if norm then if Req_EM_T (rsum kern) 0 then None else Some (map (map (fun x => x / rsum kern)) (map (fun x => [x]) kern)) else Some (map (fun x => [x]) kern)) = option_map (map (fun x => [x])) kk).
  { unfold kk. destruct norm; [|reflexivity]. destruct (Req_EM_T _ _); [reflexivity|]. cbn. now rewrite !map_map. }
  rewrite K. assert (SM : forall c, smooth (column c data) kern edge norm = match kk with None => None | Some kk =>
      let ret := convolve_valid (column c sig) kk in
      if negb (length ret =? length data + length kern + 1)%nat then None else
      let h := Z.of_nat (length kern / 2) in
      let sl := if Nat.even (length kern) then Slice (Some h) (Some (- h - 1)%Z) None else Slice (Some (h + 1)%Z) (Some (- h - 1)%Z) None in
      match slice_list sl ret with
      | None => None
      | Some out => if (length out =? length data)%nat then Some out else None
      end end).
  { intros c. unfold smooth. rewrite column_length, pads_col, P. cbn [option_map fst snd]. rewrite CS. reflexivity. }
  destruct kk as [k|]; cbn [option_map]; [|intros c _; apply SM].
  rewrite NS. destruct (Nat.eqb_spec n 0); [lia|].
  assert (CV : forall c, (c < n)%nat -> convolve_valid (column c sig) k = column c (convolve2_valid sig (map (fun x => [x]) k))) by (intros c Hc; symmetry; apply convolve_col; lia).
  set (ret := convolve2_valid sig (map (fun x => [x]) k)) in *.
  assert (RR : forall f, In f ret -> length f = n).
  { intros f Hf. unfold ret, convolve2_valid in Hf. apply in_map_iff in Hf. destruct Hf as (i & <- & _). rewrite map_length, seq_length. lia. }
  destruct (negb (length ret =? length data + length kern + 1)%nat) eqn:Lr.
  { intros c Hc. rewrite SM. cbv zeta. rewrite (CV c Hc), column_length, Lr. reflexivity. }
  set (sl := if Nat.even (length kern) then _ else _). destruct (slice_list sl ret) as [out|] eqn:S.
  2:{ intros c Hc. rewrite SM. cbv zeta. rewrite (CV c Hc), column_length, Lr. fold sl. unfold column. rewrite slice_map, S. reflexivity. }
  destruct (Nat.eqb_spec (length out) (length data)) as [L|L].
  - split; [exact L|]. split; [intros f Hf; apply RR; eapply slice_in; eassumption|]. intros c Hc. rewrite SM. cbv zeta. rewrite (CV c Hc), column_length, Lr. fold sl.
    unfold column at 1. rewrite slice_map, S. cbn [option_map]. rewrite map_length, L, Nat.eqb_refl. reflexivity.
  - intros c Hc. rewrite SM. cbv zeta. rewrite (CV c Hc), column_length, Lr. fold sl. unfold column at 1. rewrite slice_map, S. cbn [option_map]. rewrite map_length.
    destruct (Nat.eqb_spec (length out) (length data)); [contradiction|reflexivity].
Qed.
Lemma sequence_some {A} (l : list (option A)) r : sequence l = Some r <-> l = map Some r.
Proof.
  revert r. induction l as [|[a|] l IH]; cbn; intros r.
  - split; [intros H; now injection H as <-|]. destruct r; [reflexivity|discriminate].
  - destruct (sequence l) as [m|].
    + split; [intros H; injection H as <-; cbn; f_equal; now apply IH|]. destruct r as [|b r]; [discriminate|]. cbn. intros H. injection H as <- H. apply IH in H. injection H as <-. reflexivity.
    + split; [discriminate|]. destruct r as [|b r]; [discriminate|]. cbn. intros H. injection H as <- H. apply IH in H. discriminate.
  - split; [discriminate|]. destruct r; discriminate.
Qed.
Lemma sequence_none {A} (l : list (option A)) : In None l -> sequence l = None.
Proof. intros H. destruct (sequence l) eqn:E; [|reflexivity]. apply sequence_some in E. subst l. apply in_map_iff in H. destruct H as (a & Ha & _). discriminate. Qed.
(** Both methods *)
Lemma methods_agree data kern n : data <> [] -> (0 < n)%nat -> (forall f, In f data -> length f = n) -> smooth_columns data kern = smooth_broadcast data kern.
Proof.
  intros NE Hn H. pose proof (smooth2_col data kern "m" true n NE Hn H) as S. unfold smooth_columns, smooth_broadcast.
  assert (Nc : ncol data = n) by (destruct data as [|a data]; [congruence|]; apply H; now left). rewrite Nc.
  destruct (smooth2 data (map (fun x => [x]) kern) "m" true) as [out|].
  - destruct S as (L & HR & C).
    assert (E : map (fun c => smooth (column c data) kern "m" true) (seq 0 n) = map Some (map (fun c => column c out) (seq 0 n))).
    { rewrite map_map. apply map_ext_in. intros c Hc. apply in_seq in Hc. apply C. lia. }
    apply sequence_some in E. rewrite E. f_equal. rewrite <- L.
    apply (nth_ext _ _ [] []); [rewrite map_length; apply seq_length|]. rewrite map_length, seq_length. intros i Hi.
    match goal with |- nth i (map ?g _) [] = _ => rewrite (nth_indep _ [] (g 0%nat)) by (now rewrite map_length, seq_length); rewrite (map_nth g), seq_nth by exact Hi end.
    cbn [Nat.add]. rewrite map_map. assert (Lf : length (nth i out []) = n) by (apply HR, nth_In, Hi).
    apply (nth_ext _ _ 0 0); [rewrite map_length, seq_length; now symmetry|]. rewrite map_length, seq_length. intros c Hc.
    match goal with |- nth c (map ?g _) 0 = _ => rewrite (nth_indep _ 0 (g 0%nat)) by (now rewrite map_length, seq_length); rewrite (map_nth g), seq_nth by exact Hc end.
    cbn [Nat.add]. apply column_nth.
  - rewrite sequence_none; [reflexivity|]. apply in_map_iff. exists 0%nat. split; [now apply S|]. apply in_seq. lia.
Qed.
(** The loop over attributes *)
Section T.
Variable X : Type.
Notation obj := (Traj.obj frame X R).
Definition smoothed (method : Z) (l : list frame) (kern : list R) : option (list frame) :=
  if (method =? 1)%Z then smooth_columns l kern else if (method =? 2)%Z then smooth_broadcast l kern else None.
Lemma loop_none kern meth self names : fold_left (smooth_step X kern meth self) names None = None.
Proof. induction names; cbn; auto. Qed.
Lemma setattr_same (o : obj) a v : setattr o a v a = v.
Proof. unfold setattr. now rewrite String.eqb_refl. Qed.
Lemma setattr_other (o : obj) a b v : a <> b -> setattr o a v b = o b.
Proof. intros N. unfold setattr. destruct (String.eqb_spec a b); [contradiction|reflexivity]. Qed.
Lemma loop_spec kern meth (self : obj) names : forall o r, NoDup names -> fold_left (smooth_step X kern meth self) names (Some o) = Some r -> forall a,
  (~ In a names -> r a = o a) /\
  (In a names -> match self a with None => r a = o a | Some v => exists l l', v = Arr l /\ smoothed meth l kern = Some l' /\ r a = Some (Arr l') end).
Proof.
  induction names as [|b names IH]; intros o r ND H a; [injection H as <-; split; [auto|intros []]|].
  inversion ND as [|? ? Nb ND']; subst. cbn [fold_left] in H.
  unfold smooth_step at 2 in H. destruct (self b) as [v|] eqn:Eb.
  - destruct v as [l| | | |]; try (rewrite loop_none in H; discriminate). fold (smoothed meth l kern) in H. destruct (smoothed meth l kern) as [l'|] eqn:Es; [|rewrite loop_none in H; discriminate].
    destruct (IH _ _ ND' H a) as [I1 I2]. split.
    + intros N. rewrite I1 by (intros I; apply N; now right). apply setattr_other. intros ->. apply N. now left.
    + intros [->|I].
      * rewrite Eb. exists l, l'. split; [reflexivity|]. split; [exact Es|]. rewrite I1 by exact Nb. apply setattr_same.
      * specialize (I2 I). destruct (self a) as [w|] eqn:Ea; [exact I2|]. rewrite I2. apply setattr_other. intros ->. congruence.
  - destruct (IH _ _ ND' H a) as [I1 I2]. split; [intros N; apply I1; intros I; apply N; now right|]. intros [->|I].
    + rewrite Eb. apply I1. exact Nb.
    + now apply I2.
Qed.
Lemma copy_spec (self : obj) names : forall o a, (In a names -> fold_left (fun o name => setattr o name (self name)) names o a = self a) /\
  (~ In a names -> fold_left (fun o name => setattr o name (self name)) names o a = o a).
Proof.
  induction names as [|b names IH]; intros o a; [split; [intros []|reflexivity]|]. cbn [fold_left]. destruct (IH (setattr o b (self b)) a) as [I1 I2].
  split.
  - intros H. destruct (in_dec string_dec a names) as [I|N]; [now apply I1|]. rewrite (I2 N). destruct H as [->|H]; [apply setattr_same|contradiction].
  - intros N. rewrite I2 by (intros I; apply N; now right). apply setattr_other. intros ->. apply N. now left.
Qed.
Lemma loop_some kern meth (self : obj) names : forall o, (forall a, In a names -> match self a with None => True | Some v => exists l l', v = Arr l /\ smoothed meth l kern = Some l' end) ->
  exists r, fold_left (smooth_step X kern meth self) names (Some o) = Some r.
Proof.
  induction names as [|b names IH]; intros o H; [eexists; reflexivity|]. cbn [fold_left]. pose proof (H b (or_introl eq_refl)) as Hb. unfold smooth_step at 2.
  assert (H' : forall a, In a names -> match self a with None => True | Some v => exists l l', v = Arr l /\ smoothed meth l kern = Some l' end) by (intros a Ha; apply H; now right).
  destruct (self b) as [v|]; [|now apply IH]. destruct Hb as (l & l' & -> & E). fold (smoothed meth l kern). rewrite E. now apply IH.
Qed.
End T.
(** Smoothing is linear *)
Lemma continued_linear (d a b c : list R) p q r : length a = length d -> length b = length d -> length c = length d ->
  (forall i, nth i d 0 = nth i a 0 * p + nth i b 0 * q + nth i c 0 * r) -> forall z,
  continued "m" d z = continued "m" a z * p + continued "m" b z * q + continued "m" c z * r.
Proof.
  intros La Lb Lc H z. unfold continued. cbn [String.eqb Ascii.eqb Bool.eqb]. unfold mirrored, item. rewrite La, Lb, Lc.
  destruct (z <? 0)%Z; [destruct (_ <? _)%Z; [apply H|ring]|]. destruct (z <? _)%Z; [apply H|]. destruct (_ <=? _)%Z; [apply H|ring].
Qed.
Lemma total_lin3 n w f g h p q r : total n (fun k => w k * (f k * p + g k * q + h k * r)) = total n (fun k => w k * f k) * p + total n (fun k => w k * g k) * q + total n (fun k => w k * h k) * r.
Proof. induction n as [|n IH]; cbn; [ring|]. rewrite IH. ring. Qed.
Lemma total_ext' n f g : (forall k, f k = g k) -> total n f = total n g.
Proof. intros H. induction n as [|n IH]; cbn; [reflexivity|]. now rewrite IH, H. Qed.
Lemma window_linear (d a b c : list R) p q r w M i : length a = length d -> length b = length d -> length c = length d ->
  (forall i, nth i d 0 = nth i a 0 * p + nth i b 0 * q + nth i c 0 * r) ->
  window_sum "m" d w M i = window_sum "m" a w M i * p + window_sum "m" b w M i * q + window_sum "m" c w M i * r.
Proof.
  intros La Lb Lc H. unfold window_sum. rewrite <- total_lin3. apply total_ext'. intros k. now rewrite (continued_linear d a b c p q r).
Qed.
