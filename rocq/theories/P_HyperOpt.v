(** C104: cross validation and optimized parameters of radial basis functions *)
From Coq Require Import Reals List Arith Bool Lia Lra Permutation.
From Verif Require Import Rbf RbfSpec RbfProofs P_Rbf HyperOpt HyperOptSpec.
Import ListNotations.
Open Scope R_scope.

Lemma rows_at {A} (l : list A) idx r : rows l idx = Some r <-> at_rows l idx r.
Proof.
  unfold rows, at_rows. split.
  - revert r. induction idx as [|i idx IH]; intros r E; cbn in E; [injection E as <-; constructor|]. destruct (nth_error l i) eqn:N; [|discriminate]. destruct (mapM _ idx) eqn:M; [|discriminate]. injection E as <-. constructor; [exact N|now apply IH].
  - induction 1 as [|i x idx r N F IH]; [reflexivity|]. cbn. now rewrite N, IH.
Qed.
Lemma at_len {A} (l : list A) idx r : at_rows l idx r -> length r = length idx.
Proof. induction 1; cbn; congruence. Qed.
Lemma mapM_f2 {A B} (f : A -> option B) l r : mapM f l = Some r -> Forall2 (fun a b => f a = Some b) l r.
Proof. revert r. induction l as [|a l IH]; intros r E; cbn in E; [injection E as <-; constructor|]. destruct (f a) eqn:N; [|discriminate]. destruct (mapM f l) eqn:M; [|discriminate]. injection E as <-. constructor; [exact N|now apply IH]. Qed.
Lemma f2_mapM {A B} (f : A -> option B) l r : Forall2 (fun a b => f a = Some b) l r -> mapM f l = Some r.
Proof. induction 1 as [|a b l r N F IH]; [reflexivity|]. cbn. now rewrite N, IH. Qed.
(** predictions are made row by row *)
Lemma predict_rows m ps y : predict m ps = Some y -> Forall2 (fun x v => predict1 m x = Some v) ps y.
Proof.
  unfold predict1, predict. destruct (forallb _ ps) eqn:L; [|discriminate]. unfold apply_rbf, squared_dists. destruct (mapM _ (map _ ps)) as [g|] eqn:G; [|discriminate]. destruct (maxabs (w_ m)) as [mx|]; [|discriminate]. destruct (length (points m) =? length (w_ m))%nat; [|discriminate]. destruct (mapM _ (w_ m)) as [wn|]; [|discriminate]. intros E. injection E as <-.
  revert g L G. induction ps as [|x ps IH]; intros g L G; cbn in G; [injection G as <-; constructor|]. cbn [forallb] in L. apply andb_prop in L as [L1 L2]. destruct (mapM _ (map (sqdist (ndim m) x) (points m))) as [r|] eqn:R1; [|discriminate]. destruct (mapM _ (map _ ps)) as [rs|] eqn:R2; [|discriminate]. injection G as <-. cbn [map]. constructor; [|now apply IH].
  cbn [forallb]. rewrite L1. cbn [andb]. cbn [map mapM]. rewrite R1. reflexivity.
Qed.

Section S.
Variable solve : list (list R) -> list R -> option (list R).
Variable lstsq : list (list R) -> list R -> list R.
Variable garbage : nat -> R.
Notation make := (make solve lstsq). Notation get_rbfi := (get_rbfi solve lstsq). Notation fold_error := (fold_error solve lstsq). Notation cv := (cv solve lstsq garbage). Notation err_cv := (err_cv solve lstsq garbage). Notation err_direct := (err_direct solve lstsq). Notation call := (call solve lstsq garbage). Notation trained := (trained solve lstsq).
Lemma get_fit e params pts vals m : get_rbfi e params pts vals = Some m <-> exists b p r, chosen (fe_kwds e) params b p r /\ fit solve lstsq (fe_n e) pts vals b p r = Some m.
Proof.
  unfold HyperOpt.get_rbfi, chosen. destruct (fe_kwds e) as [kb kp kr]. cbn [k_rbf k_p k_r]. split.
  - intros E. destruct params as [|[p|] [|r [|]]]; try discriminate.
    + destruct kp; [discriminate|]. cbn in E. exists (dflt kb Gauss), p, (dflt kr (Some 0)). split; [|exact E]. split; [now destruct kb|]. split; [reflexivity|]. left. now destruct kr.
    + destruct kp; [discriminate|]. destruct kr; [discriminate|]. cbn in E. exists (dflt kb Gauss), p, r. split; [|exact E]. split; [now destruct kb|]. split; [reflexivity|]. now right.
  - intros (b & p & r & (-> & -> & [(-> & ->)|(-> & ->)]) & F); cbn; unfold HyperOpt.make; cbn; destruct kb; try destruct kr; exact F.
Qed.
Lemma fit_attrs n pts vals b p r m : fit solve lstsq n pts vals b p r = Some m -> points m = pts /\ values m = vals /\ fn m = b /\ p_ m = p /\ ndim m = n.
Proof. unfold fit. destruct (shapes n pts vals); [|discriminate]. destruct (apply_rbf _ _ _); [|discriminate]. destruct (match r with Some _ => _ | None => _ end); [|discriminate]. intros E. injection E as <-. now repeat split. Qed.
(** What is not given is rbf="gauss", p="mean", r=0, each on its own. *)
Theorem C104_defaults n pts vals b p r : make n pts vals (RKwds None p r) = make n pts vals (RKwds (Some Gauss) p r) /\
  make n pts vals (RKwds b None r) = make n pts vals (RKwds b (Some PMean) r) /\ make n pts vals (RKwds b p None) = make n pts vals (RKwds b p (Some (Some 0))).
Proof. now repeat split. Qed.
(** Only p, or p and r, and nothing that is fixed already; otherwise an exception. *)
Theorem C104_params e params : (forall p, params <> [Some p]) /\ (forall p r, params <> [Some p; r]) \/ k_p (fe_kwds e) <> None \/ (length params = 2%nat /\ k_r (fe_kwds e) <> None) ->
  err_direct e params = None /\ forall s f, In f (folds s) -> err_cv e s params = None.
Proof.
  intros H. assert (G : forall pts vals, get_rbfi e params pts vals = None).
  { intros pts vals. destruct (get_rbfi e params pts vals) as [m|] eqn:E; [|reflexivity]. apply get_fit in E as (b & p & r & (_ & K & C) & _). exfalso. destruct H as [(H1 & H2)|[H|(H & H')]]; [destruct C as [(-> & _)|(-> & _)]; [now apply (H1 p)|now apply (H2 p r)]|congruence|]. destruct C as [(-> & _)|(-> & C)]; [discriminate|congruence]. }
  split; [unfold HyperOpt.err_direct; now rewrite G|]. intros s f I. unfold HyperOpt.err_cv, HyperOpt.cv. destruct (_ <=? _)%nat; [|reflexivity]. assert (N : fold_error e params f = None) by (unfold HyperOpt.fold_error; destruct (rows _ _); [|reflexivity]; destruct (rows _ _); [|reflexivity]; now rewrite G).
  destruct (mapM (fold_error e params) (folds s)) as [errs|] eqn:M; [|reflexivity]. exfalso. apply mapM_f2 in M. revert I N. clear -M. induction M as [|a b l r E F IH]; intros I N; [destruct I|]. destruct I as [->|I]; [congruence|now apply IH].
Qed.
(** A fold's error is the mean squared deviation of its rows from a model trained on the other rows. *)
Lemma fold_spec e params f x p rest : params = Some p :: rest -> 0 <= p -> fold_error e params f = Some x ->
  exists m ps vs y, trained e params (fst f) m /\ at_rows (fe_points e) (snd f) ps /\ at_rows (fe_values e) (snd f) vs /\ Forall2 (fun q v => predict1 m q = Some v) ps y /\ x = sqres y vs / INR (length (snd f)) /\ snd f <> [].
Proof.
  intros P P0. unfold HyperOpt.fold_error. destruct (rows (fe_points e) (fst f)) as [pt|] eqn:R1; [|discriminate]. destruct (rows (fe_values e) (fst f)) as [vt|] eqn:R2; [|discriminate]. destruct (get_rbfi e params pt vt) as [m|] eqn:G; [|discriminate]. destruct (rows (fe_points e) (snd f)) as [ps|] eqn:R3; [|discriminate]. destruct (rows (fe_values e) (snd f)) as [vs|] eqn:R4; [|discriminate]. intros E.
  apply rows_at in R1, R2, R3, R4. apply get_fit in G as (b & p' & r & C & F). assert (p' = p) as -> by (destruct C as (_ & _ & [(C & _)|(C & _)]); rewrite P in C; now injection C).
  exists m, ps, vs. unfold fit_error in E. destruct (predict m ps) as [y|] eqn:Y; [|discriminate]. exists y. split; [exists pt, vt, b, p, r; split; [exact R1|split; [exact R2|split; [exact C|exact F]]]|]. split; [exact R3|]. split; [exact R4|]. split; [exact (predict_rows m ps y Y)|].
  destruct (length vs =? length y)%nat eqn:L; [|discriminate]. apply Nat.eqb_eq in L. assert (NV : vs <> []). { intros ->. cbn in E. unfold fdiv in E. destruct (Req_EM_T 0 0); [discriminate|congruence]. }
  destruct (C57_fit_error m ps vs y Y L NV) as (x' & E' & PE & _). unfold fit_error in E'. rewrite Y in E'. rewrite (proj2 (Nat.eqb_eq _ _) L) in E'. rewrite E in E'. injection E' as <-. destruct (fit_attrs _ _ _ _ _ _ _ F) as (_ & _ & _ & PM & _). rewrite PM in PE. destruct (PE P0) as (-> & _). split; [|intros N; apply NV; rewrite N in R4; now inversion R4]. now rewrite (at_len _ _ _ R4).
Qed.
(** Values of the tested rows have no influence on what is predicted for them. *)
Theorem C104_held_out e params f x p rest : params = Some p :: rest -> 0 <= p -> fold_error e params f = Some x -> (forall i, In i (fst f) -> ~ In i (snd f)) ->
  exists y, forall e' vs, agree_on (fst f) e e' -> at_rows (fe_values e') (snd f) vs -> fold_error e' params f = Some (sqres y vs / INR (length (snd f))).
Proof.
  intros P P0 E DJ. destruct (fold_spec e params f x p rest P P0 E) as (m & ps & vs0 & y & (pt & vt & b & p' & r & R1 & R2 & C & F) & R3 & R4 & _ & _ & NE).
  assert (p' = p) as -> by (destruct C as (_ & _ & [(C & _)|(C & _)]); rewrite P in C; now injection C). assert (K : exists y, predict m ps = Some y /\ length y = length ps).
  { unfold HyperOpt.fold_error in E. apply rows_at in R1, R2, R3, R4. rewrite R1, R2, R3, R4 in E. assert (G : get_rbfi e params pt vt = Some m) by (apply get_fit; now exists b, p, r). rewrite G in E. unfold fit_error in E. destruct (predict m ps) as [y0|] eqn:Y; [|discriminate]. exists y0. split; [reflexivity|]. apply predict_rows in Y. clear -Y. induction Y; cbn; congruence. }
  destruct K as (y1 & Y & LY). exists y1. intros e' vs (AN & AP & AK & AL & AV) R4'. unfold HyperOpt.fold_error. rewrite AP. assert (R2' : at_rows (fe_values e') (fst f) vt). { clear -R2 AV. unfold at_rows in *. induction R2 as [|i v l l' N R2 IH]; constructor; [rewrite AV by (now left); exact N|]. apply IH. intros j J. apply AV. now right. }
  rewrite (proj2 (rows_at _ _ _) R1), (proj2 (rows_at _ _ _) R2'). assert (G : get_rbfi e' params pt vt = Some m) by (apply get_fit; exists b, p, r; rewrite AK, AN; now split). rewrite G, (proj2 (rows_at _ _ _) R3), (proj2 (rows_at _ _ _) R4').
  assert (LV : length vs = length y1) by (rewrite LY, (at_len _ _ _ R4'), (at_len _ _ _ R3); reflexivity). assert (NV : vs <> []) by (intros ->; inversion R4'; congruence).
  destruct (C57_fit_error m ps vs y1 Y LV NV) as (x' & E' & PE & _). rewrite E'. destruct (fit_attrs _ _ _ _ _ _ _ F) as (_ & _ & _ & PM & _). rewrite PM in PE. destruct (PE P0) as (-> & _). now rewrite (at_len _ _ _ R4').
Qed.
Lemma sum_perm (l l' : list R) : Permutation l l' -> fold_right Rplus 0 l = fold_right Rplus 0 l'.
Proof. induction 1; cbn; lra. Qed.
Lemma sum_app l l' : fold_right Rplus 0 (l ++ l') = fold_right Rplus 0 l + fold_right Rplus 0 l'.
Proof. induction l; cbn; lra. Qed.
(** K folds of equal size: the error is the mean over all rows of the squared deviation of the row from the
    prediction of a model that has not seen it. *)
Theorem C104_cv e s params x p rest size : params = Some p :: rest -> 0 <= p -> err_cv e s params = Some x ->
  announced s = length (folds s) -> kfold (length (fe_values e)) (folds s) -> Forall (fun f => length (snd f) = size) (folds s) ->
  exists pred, (forall f i, In f (folds s) -> In i (snd f) -> ~ In i (fst f) /\ exists m q, trained e params (fst f) m /\ nth_error (fe_points e) i = Some q /\ predict1 m q = Some (pred i)) /\
    x = total (length (fe_values e)) (fun i => (nth i (fe_values e) 0 - pred i) ^ 2) / INR (length (fe_values e)).
Proof.
  intros P P0 E AN (PM & KF) SZ. unfold HyperOpt.err_cv, HyperOpt.cv in E. rewrite AN, Nat.leb_refl, Nat.sub_diag in E. cbn [seq map] in E. destruct (mapM (fold_error e params) (folds s)) as [errs|] eqn:M; [|discriminate]. rewrite app_nil_r in E. apply mapM_f2 in M.
  assert (ND : NoDup (concat (map snd (folds s)))) by (eapply Permutation_NoDup; [symmetry; exact PM|apply seq_NoDup]).
  assert (K : exists pred, (forall f i, In f (folds s) -> In i (snd f) -> ~ In i (fst f) /\ exists m q, trained e params (fst f) m /\ nth_error (fe_points e) i = Some q /\ predict1 m q = Some (pred i)) /\
    fold_right Rplus 0 errs * INR size = fold_right Rplus 0 (map (fun i => (nth i (fe_values e) 0 - pred i) ^ 2) (concat (map snd (folds s))))).
  { clear E AN PM. revert KF SZ ND. induction M as [|f er fs errs FE M IH]; intros KF SZ ND.
    - exists (fun _ => 0). split; [intros f i []|]. cbn. lra.
    - inversion KF as [|? ? (NE & TR) KF']; subst. inversion SZ as [|? ? SZ1 SZ']; subst. cbn [map concat] in ND. assert (ND1 : NoDup (snd f)) by (clear -ND; induction (snd f); constructor; inversion ND; subst; [intros I; apply H1, in_or_app; now left|now apply IHl]). assert (DJ : forall i, In i (snd f) -> ~ In i (concat (map snd fs))) by (clear -ND; induction (snd f) as [|a l IH]; intros i I J; [destruct I|]; inversion ND; subst; destruct I as [->|I]; [apply H1, in_or_app; now right|now apply (IH H2 i)]). assert (ND2 : NoDup (concat (map snd fs))) by (clear -ND; induction (snd f); [exact ND|]; inversion ND; subst; now apply IHl).
      destruct (IH KF' SZ' ND2) as (pred & PR & SU). destruct (fold_spec e _ f er p rest eq_refl P0 FE) as (m & ps & vs & y & T & R3 & R4 & Y & -> & _).
      set (look := fun i => nth (match find (fun q => fst q =? i)%nat (combine (snd f) (seq 0 (length (snd f)))) with Some q => snd q | None => O end) y 0).
      assert (LK : Forall2 (fun i v => look i = v) (snd f) y).
      { assert (LY : length y = length (snd f)) by (rewrite <- (at_len _ _ _ R3); clear -Y; induction Y; cbn; congruence). 
        assert (G : forall l off z, NoDup l -> length z = length l -> (forall k, (k < length l)%nat -> nth (off + k) y 0 = nth k z 0) -> Forall2 (fun i v => nth (match find (fun q => fst q =? i)%nat (combine l (seq off (length l))) with Some q => snd q | None => O end) y 0 = v) l z).
        { induction l as [|a l IHl]; intros off [|v z] N L H; try discriminate; constructor.
          - cbn. rewrite Nat.eqb_refl. cbn. specialize (H O). cbn in H. rewrite Nat.add_0_r in H. apply H. lia.
          - inversion N as [|? ? NI N']; subst. assert (H' := IHl (S off) z N' ltac:(now injection L) ltac:(intros k Hk; specialize (H (S k)); cbn in H; rewrite Nat.add_succ_r in H; cbn; apply H; lia)). clear -H' NI. cbn [length seq combine find fst]. revert H'. generalize (combine l (seq (S off) (length l))). intros c H'. assert (W : Forall (fun i => i <> a) l) by (apply Forall_forall; intros i I ->; contradiction). clear NI. induction H' as [|i u l z E H' IH]; constructor; [|apply IH; now inversion W]. inversion W; subst. destruct (a =? i)%nat eqn:Q; [apply Nat.eqb_eq in Q; congruence|reflexivity]. }
        apply (G (snd f) O y ND1 LY). reflexivity. }
      clearbody look. exists (fun i => if in_dec Nat.eq_dec i (snd f) then look i else pred i). split.
      + intros g i [<-|I] J.
        * split; [intros A; apply TR in A; tauto|]. destruct (in_dec Nat.eq_dec i (snd f)) as [_|N]; [|contradiction]. exists m. assert (Q : exists q v, nth_error (fe_points e) i = Some q /\ predict1 m q = Some v /\ look i = v).
          { clear -R3 Y LK J. revert y Y LK. unfold at_rows in R3. induction R3 as [|a q l ps N R3 IH]; intros y Y LK; [destruct J|]. inversion Y as [|? v ? y' Y1 Y2]; subst. inversion LK as [|? ? ? ? L1 L2]; subst. destruct J as [->|J]; [now exists q, (look i)|]. exact (IH J y' Y2 L2). }
          destruct Q as (q & v & Q1 & Q2 & <-). exists q. now repeat split.
        * destruct (PR g i I J) as (H1 & H2). split; [exact H1|]. destruct (in_dec Nat.eq_dec i (snd f)) as [A|_]; [|exact H2]. exfalso. apply (DJ i A). apply in_concat. exists (snd g). split; [now apply in_map|exact J].
      + cbn [map concat fold_right]. rewrite map_app, sum_app. rewrite Rmult_plus_distr_r, SU. f_equal.
        * assert (SP : INR (length (snd f)) <> 0) by (apply not_0_INR; destruct (snd f); [congruence|discriminate]). unfold Rdiv. rewrite Rmult_assoc, Rinv_l, Rmult_1_r by exact SP. 
          assert (EX : map (fun i => (nth i (fe_values e) 0 - (if in_dec Nat.eq_dec i (snd f) then look i else pred i)) ^ 2) (snd f) = map (fun i => (nth i (fe_values e) 0 - look i) ^ 2) (snd f)) by (apply map_ext_in; intros i I; destruct (in_dec Nat.eq_dec i (snd f)); [reflexivity|contradiction]). rewrite EX. unfold sqres, dist2, sumR. f_equal.
          clear -R4 LK. revert y LK. unfold at_rows in R4. induction R4 as [|i v l vs N R4 IH]; intros y LK; inversion LK as [|? u ? y' L1 L2]; subst; [reflexivity|]. cbn [map combine fst snd]. rewrite (nth_error_nth _ _ 0 N). f_equal. now apply IH.
        * f_equal. apply map_ext_in. intros i I. destruct (in_dec Nat.eq_dec i (snd f)) as [A|_]; [|reflexivity]. now destruct (DJ i A). }
  destruct K as (pred & PR & SU). exists pred. split; [exact PR|]. unfold mean, fdiv in E. destruct (Req_EM_T (INR (length errs)) 0) as [|NZ]; [discriminate|]. injection E as <-. unfold total. rewrite <- (sum_perm _ _ (Permutation_map _ PM)), <- SU.
  assert (LE : length (fe_values e) = (length errs * size)%nat). { rewrite <- (seq_length (length (fe_values e)) 0), <- (Permutation_length PM). clear -SZ M. induction M; cbn; [reflexivity|]. inversion SZ; subst. rewrite app_length, IHM by assumption. lia. }
  rewrite LE, mult_INR. assert (SP : INR size <> 0). { intros Z. destruct (folds s) as [|f fs] eqn:FS; [inversion M; subst; cbn in NZ; congruence|]. inversion KF as [|? ? (NE & _) _]; subst. inversion SZ as [|? ? SZ1 _]; subst. apply NE. apply (INR_eq _ 0) in Z. now destruct (snd f). }
  field. now split.
Qed.
(** cv=None and r=0: the error of an interpolation is 0, with the penalty for p < 0 it is 1. *)
Theorem C104_direct e p x : solve_ok solve -> fe_cv e = None -> fe_points e <> [] -> (exists v, In v (fe_values e) /\ v <> 0) ->
  forall params, params = [Some p; Some 0] \/ params = [Some p] /\ (k_r (fe_kwds e) = None \/ k_r (fe_kwds e) = Some (Some 0)) -> call e params = Some x -> x = if Rlt_dec p 0 then 1 else 0.
Proof.
  intros OK CV NP NZ params HP E. unfold HyperOpt.call in E. rewrite CV in E. unfold HyperOpt.err_direct in E. destruct (get_rbfi e params (fe_points e) (fe_values e)) as [m|] eqn:G; [|discriminate]. apply get_fit in G as (b & p' & r & C & F).
  assert (p' = p /\ r = Some 0) as (-> & ->). { destruct C as (_ & _ & [(C & CR)|(C & CR)]), HP as [->|(-> & [K|K])]; try discriminate; injection C as <-; rewrite ?K in CR; try tauto. subst. now split. }
  assert (Y := C57_interpolates _ _ _ _ _ _ _ _ OK F NZ). assert (NV : fe_values e <> []) by (destruct NZ as (v & I & _); intros N; now rewrite N in I). destruct (C57_fit_error m _ (fe_values e) _ Y eq_refl NV) as (x' & E' & P1 & P2). rewrite E in E'. injection E' as <-. destruct (fit_attrs _ _ _ _ _ _ _ F) as (_ & _ & _ & PM & _). rewrite PM in P1, P2.
  destruct (Rlt_dec p 0) as [L|L]; [|destruct (P1 ltac:(lra)) as (_ & _ & Z); now apply Z]. destruct (P2 L) as (-> & _). unfold sqres. rewrite dist2_self. unfold Rdiv. rewrite Rmult_0_l. apply exp_0.
Qed.
Section O.
Variable fmin : (list R -> option R) -> list R -> bool -> okwds -> option (list R).
Variable diff_evo : (list R -> option R) -> list (R * R) -> bool -> okwds -> option (list R).
Variable brute : (list R -> option R) -> list (R * R) -> bool -> okwds -> option (list R).
Notation fit_opt := (fit_opt solve lstsq garbage fmin diff_evo brute).
(** what the optimizer is called with *)
Definition answer n pts vals me c o k (start : list R) (bounds : list (R * R)) : option (list R) :=
  let err := fun x => call (FitError n pts vals k c) (map Some x) in let disp := match o_disp o with Some d => d | None => false end in
  match me with
  | Fmin => fmin err (match o_x0 o with Some x => x | None => start end) disp (OKwds None None (o_bounds o) (o_ranges o))
  | DE => diff_evo err (match o_bounds o with Some b => b | None => bounds end) disp (OKwds None (o_x0 o) None (o_ranges o))
  | Brute => brute err (match o_ranges o with Some b => b | None => bounds end) disp (OKwds None (o_x0 o) (o_bounds o) None)
  | OtherMethod => None
  end.
(** The result is the model of all data with the optimizer's p (and r) and the fixed keywords; the default start is
    the mean distance of the points. *)
Theorem C104_fit_opt n pts vals me w c o k m o' : fit_opt n pts vals me w c o k = (Some m, o') ->
  exists p0, mean_p n pts = Some p0 /\ me <> OtherMethod /\ k_p k = None /\ (exists b, b = match k_rbf k with Some b => b | None => Gauss end /\
  ((w = WP /\ exists p t, answer n pts vals me c o k [p0] [(0, 5 * p0)] = Some (p :: t) /\ fit solve lstsq n pts vals b p (match k_r k with Some r => r | None => Some 0 end) = Some m) \/
   (w = WPR /\ k_r k = None /\ exists p r t, answer n pts vals me c o k [p0; / 10 ^ 8] [(0, 5 * p0); (/ 10 ^ 12, / 10)] = Some (p :: r :: t) /\ fit solve lstsq n pts vals b p (Some r) = Some m))).
Proof.
  unfold HyperOpt.fit_opt. destruct (allowed me w k) eqn:A; [|discriminate]. destruct (mean_p n pts) as [p0|]; [|discriminate]. unfold allowed in A. apply andb_prop in A as [A1 A2]. intros E. exists p0. split; [reflexivity|]. split; [intros ->; discriminate|]. destruct k as [kb kp kr]. cbn [k_p k_r k_rbf] in *. assert (KP : kp = None) by (destruct w, kp; try discriminate; reflexivity). split; [exact KP|]. subst kp. exists (dflt kb Gauss). split; [now destruct kb|].
  replace (/ 10 ^ 8) with (1 / 100000000) by (cbn; lra). replace (/ 10 ^ 12) with (1 / 1000000000000) by (cbn; lra). replace (/ 10) with (1 / 10) by lra. destruct w; [left|right|discriminate].
  - split; [reflexivity|]. assert (H : exists x, answer n pts vals me c o (RKwds kb None kr) [p0] [(0, 5 * p0)] = Some x /\ match with_opt WP x (RKwds kb None kr) with Some k' => make n pts vals k' | None => None end = Some m).
    { unfold answer. destruct me; try discriminate; cbn zeta in E; injection E as E _; unfold pop_disp, pop_bounds, pop_x0, pop_ranges, dflt in E; cbn [o_disp o_x0 o_bounds o_ranges] in E; match type of E with match ?t with _ => _ end = _ => destruct t as [x|] eqn:X; [|discriminate]; exists x; split; [first [exact X | reflexivity]|exact E] end. }
    destruct H as ([|p t] & X & H); [discriminate|]. exists p, t. split; [exact X|]. cbn in H. unfold HyperOpt.make in H. cbn in H. now destruct kr.
  - split; [reflexivity|]. assert (KR : kr = None) by (destruct kr; [discriminate|reflexivity]). split; [exact KR|]. subst kr. assert (H : exists x, answer n pts vals me c o (RKwds kb None None) [p0; 1 / 100000000] [(0, 5 * p0); (1 / 1000000000000, 1 / 10)] = Some x /\ match with_opt WPR x (RKwds kb None None) with Some k' => make n pts vals k' | None => None end = Some m).
    { unfold answer. destruct me; try discriminate; cbn zeta in E; injection E as E _; unfold pop_disp, pop_bounds, pop_x0, pop_ranges, dflt in E; cbn [o_disp o_x0 o_bounds o_ranges] in E; match type of E with match ?t with _ => _ end = _ => destruct t as [x|] eqn:X; [|discriminate]; exists x; split; [first [exact X | reflexivity]|exact E] end. }
    destruct H as ([|p [|r t]] & X & H); try discriminate. exists p, r, t. now split.
Qed.
(** method='fmin', cv=None: the fit error of the returned model is not larger than that of a model with the start
    values. *)
Theorem C104_not_worse n pts vals w o k m o' m0 y0 b p0 r0 : improves fmin -> fit_opt n pts vals Fmin w None o k = (Some m, o') ->
  b = match k_rbf k with Some b => b | None => Gauss end -> mean_p n pts = Some p0 -> (w = WP /\ r0 = match k_r k with Some r => r | None => Some 0 end \/ w = WPR /\ r0 = Some (/ 10 ^ 8)) -> o_x0 o = None ->
  fit solve lstsq n pts vals b p0 r0 = Some m0 -> fit_error m0 pts vals = Some y0 -> exists y, fit_error m pts vals = Some y /\ y <= y0.
Proof.
  intros IM E B P0 W X0 F0 Y0. destruct (C104_fit_opt _ _ _ _ _ _ _ _ _ _ E) as (p0' & P0' & _ & KP & b' & -> & H). assert (p0' = p0) as -> by congruence. rewrite <- B in H. unfold answer in H. rewrite X0 in H. destruct H as [(-> & p & t & A & F)|(-> & KR & p & r & t & A & F)].
  - destruct W as [(_ & W)|(W & _)]; [|discriminate]. apply IM in A as (L & y & Y & LE). destruct t; [|discriminate]. exists y. cbn [map] in Y. unfold HyperOpt.call, HyperOpt.err_direct in Y. cbn [fe_cv fe_points fe_values] in Y. assert (G : get_rbfi (FitError n pts vals k None) [Some p] pts vals = Some m) by (apply get_fit; exists b, p, r0; cbn [fe_kwds fe_n]; split; [split; [exact B|split; [exact KP|now left]]|now rewrite W]). rewrite G in Y. split; [exact Y|].
    apply LE. cbn [map]. unfold HyperOpt.call, HyperOpt.err_direct. cbn [fe_cv fe_points fe_values]. assert (G0 : get_rbfi (FitError n pts vals k None) [Some p0] pts vals = Some m0) by (apply get_fit; exists b, p0, r0; cbn [fe_kwds fe_n]; split; [split; [exact B|split; [exact KP|now left]]|exact F0]). now rewrite G0.
  - destruct W as [(W & _)|(_ & W)]; [discriminate|]. apply IM in A as (L & y & Y & LE). destruct t; [|discriminate]. exists y. cbn [map] in Y. unfold HyperOpt.call, HyperOpt.err_direct in Y. cbn [fe_cv fe_points fe_values] in Y. assert (G : get_rbfi (FitError n pts vals k None) [Some p; Some r] pts vals = Some m) by (apply get_fit; exists b, p, (Some r); cbn [fe_kwds fe_n]; split; [split; [exact B|split; [exact KP|now right]]|exact F]). rewrite G in Y. split; [exact Y|].
    apply LE. cbn [map]. unfold HyperOpt.call, HyperOpt.err_direct. cbn [fe_cv fe_points fe_values]. assert (G0 : get_rbfi (FitError n pts vals k None) [Some p0; Some (/ 10 ^ 8)] pts vals = Some m0) by (apply get_fit; exists b, p0, (Some (/ 10 ^ 8)); cbn [fe_kwds fe_n]; split; [split; [exact B|split; [exact KP|now right]]|now rewrite <- W]). now rewrite G0.
Qed.
(** The caller's opt_kwds lose disp and start values, bounds or ranges. *)
Theorem C104_dict n pts vals me w c o k m o' : fit_opt n pts vals me w c o k = (Some m, o') ->
  o' = OKwds None (match me with Fmin => None | _ => o_x0 o end) (match me with DE => None | _ => o_bounds o end) (match me with Brute => None | _ => o_ranges o end).
Proof.
  intros E. unfold HyperOpt.fit_opt in E. destruct (allowed me w k) eqn:A; [|discriminate]. destruct (mean_p n pts); [|discriminate]. destruct me; cbn zeta in E; injection E as _ <-; try reflexivity. unfold allowed in A. now rewrite andb_false_r in A.
Qed.
End O.
End S.
(** ** A case: four points on a line, two folds, gauss with p=1; a solver for two equations *)
Definition four : list (list R) := [[0]; [1]; [2]; [3]].
Definition e104 := FitError 1 four [1; 3; 2; 5] (RKwds None None None) None.
Definition s104 := Splitter 2 [([0; 1]%nat, [2; 3]%nat); ([2; 3]%nat, [0; 1]%nat)].
Example folds104 : kfold 4 (folds s104) /\ Forall (fun f => length (snd f) = 2%nat) (folds s104) /\ announced s104 = length (folds s104).
Proof.
  split; [|split; [repeat constructor|reflexivity]]. split; [apply (Permutation_app_comm [2; 3]%nat [0; 1]%nat)|]. constructor; [|constructor; [|constructor]]; (split; [discriminate|]); intros i; cbn; lia.
Qed.
Lemma pair_fit104 (p a : R) z1 z2 : 0 < p -> (z1, z2) <> (0, 0) -> exists m, fit solve2 (fun _ z => z) 1 [[a]; [a + 1]] [z1; z2] Gauss p (Some 0) = Some m /\ fitted m /\ fn m = Gauss /\ p_ m = p /\ ndim m = 1%nat.
Proof.
  intros PP NZ. assert (E : exists m, fit solve2 (fun _ z => z) 1 [[a]; [a + 1]] [z1; z2] Gauss p (Some 0) = Some m).
  { unfold fit, shapes. cbn [length Nat.eqb forallb andb]. rewrite (apply_phi Gauss p 1 [[a]; [a + 1]] [[a]; [a + 1]]). 2,3: intros x [<-|[<-|[]]]; reflexivity. 2:{ intros x _. cbn. lra. }
    cbn [map phi]. unfold dist2. cbn [combine map fst snd sumR fold_right]. replace (- (((a - a) ^ 2 + 0) / (2 * p ^ 2))) with 0 by (field; lra). replace (- (((a + 1 - (a + 1)) ^ 2 + 0) / (2 * p ^ 2))) with 0 by (field; lra). replace (- (((a - (a + 1)) ^ 2 + 0) / (2 * p ^ 2))) with (- (1 / (2 * p ^ 2))) by (field; lra). replace (- (((a + 1 - a) ^ 2 + 0) / (2 * p ^ 2))) with (- (1 / (2 * p ^ 2))) by (field; lra).
    assert (QP : 0 < 1 / (2 * p ^ 2)) by (apply Rdiv_lt_0_compat; [lra|]; apply Rmult_lt_0_compat; [lra|]; now apply pow_lt). rewrite exp_0. destruct (Req_EM_T 0 0) as [_|]; [|congruence]. cbn [solve2]. set (e := exp (- (1 / (2 * p ^ 2)))). assert (B : 0 < e < 1). { split; [apply exp_pos|]. apply (Rlt_le_trans _ (exp 0)); [apply exp_increasing; lra|rewrite exp_0; lra]. } destruct (Req_EM_T (1 * 1 - e * e) 0) as [K|_]; [exfalso; nra|]. eexists. reflexivity. }
  destruct E as (m & E). exists m. split; [exact E|]. destruct (fit_attrs _ _ _ _ _ _ _ _ _ E) as (_ & _ & F1 & F2 & F3). split; [|now repeat split].
  eapply (proj1 (C57_regularised _ _ _ _ _ _ _ _ _ solve2_ok E _)). Unshelve. destruct (Req_EM_T z1 0) as [->|N]; [|exists z1; split; [now left|exact N]]. exists z2. split; [right; now left|]. intros ->. now apply NZ.
Qed.
Lemma fold_ok104 tr te a z1 z2 q1 q2 v1 v2 : (z1, z2) <> (0, 0) -> rows four tr = Some [[a]; [a + 1]] -> rows (fe_values e104) tr = Some [z1; z2] -> rows four te = Some [[q1]; [q2]] -> rows (fe_values e104) te = Some [v1; v2] -> exists x, fold_error solve2 (fun _ z => z) e104 [Some 1; Some 0] (tr, te) = Some x.
Proof.
  intros NZ R1 R2 R3 R4. destruct (pair_fit104 1 a z1 z2 Rlt_0_1 NZ) as (m & E & F & F1 & F2 & F3). unfold fold_error. cbn [fst snd]. change (fe_points e104) with four. rewrite R1, R2, R3, R4. assert (G : get_rbfi solve2 (fun _ z => z) e104 [Some 1; Some 0] [[a]; [a + 1]] [z1; z2] = Some m). { apply get_fit. exists Gauss, 1, (Some 0). split; [|exact E]. split; [reflexivity|]. split; [reflexivity|]. now right. }
  rewrite G. destruct (C57_predict m [[q1]; [q2]] F) as (P & _); [intros x [<-|[<-|[]]]; now rewrite F3|intros x _; rewrite F1, F2; cbn; lra|]. destruct (C57_fit_error m _ [v1; v2] _ P eq_refl ltac:(discriminate)) as (x & X & _). now exists x.
Qed.
(** the hypotheses of C104_cv and C104_held_out hold *)
Example case104 garbage : exists x, err_cv solve2 (fun _ z => z) garbage e104 s104 [Some 1; Some 0] = Some x.
Proof.
  destruct (fold_ok104 [0; 1]%nat [2; 3]%nat 0 1 3 2 3 2 5) as (x1 & X1); [intros E; injection E; lra|cbn; now rewrite Rplus_0_l|reflexivity..|].
  destruct (fold_ok104 [2; 3]%nat [0; 1]%nat 2 2 5 0 1 1 3) as (x2 & X2); [intros E; injection E; lra|cbn; do 4 f_equal; lra|reflexivity..|].
  unfold err_cv, cv. cbn [folds s104 length announced Nat.leb]. cbn [mapM]. rewrite X1, X2. unfold mean, fdiv. cbn [app length Nat.sub seq map]. destruct (Req_EM_T (INR 2) 0) as [K|_]; [cbn in K; lra|]. eexists. reflexivity.
Qed.
(** an optimizer that returns the start is not worse *)
Definition lazy104 (f : list R -> option R) (x0 : list R) (d : bool) (o : okwds) : option (list R) := match f x0 with Some _ => Some x0 | None => None end.
Example improves104 : improves lazy104.
Proof. intros f x0 d o x E. unfold lazy104 in E. destruct (f x0) as [y|] eqn:Y; [|discriminate]. injection E as <-. split; [reflexivity|]. exists y. split; [exact Y|]. intros y0 Z. assert (y0 = y) by congruence. subst. lra. Qed.
Lemma opt_ok104 garbage p c x0 : (match o_x0 x0 with Some x => x | None => [1 / 2] end) = [p] -> 0 < p -> c = None -> exists m, fit_opt solve2 (fun _ z => z) garbage lazy104 (fun _ _ _ _ => None) (fun _ _ _ _ => None) 1 [[0]; [0 + 1]] [1; 3] Fmin WP c x0 (RKwds None None None) = (Some m, OKwds None None (o_bounds x0) (o_ranges x0)) /\ p_ m = p.
Proof.
  intros X PP ->. destruct (pair_fit104 p 0 1 3 PP) as (m & E & F & F1 & F2 & F3); [intros K; injection K; lra|]. exists m. split; [|exact F2]. unfold fit_opt. cbn [allowed absent k_p k_r andb].
  assert (P0 : mean_p 1 [[0]; [0 + 1]] = Some (1 / 2)). { unfold mean_p, squared_dists, sqdist, rsum, nthR. cbn [map seq fold_right concat app nth length INR]. replace ((0 - 0) ^ 2 + 0) with (0 * 0) by ring. replace ((0 - (0 + 1)) ^ 2 + 0) with (1 * 1) by ring. replace ((0 + 1 - 0) ^ 2 + 0) with (1 * 1) by ring. replace ((0 + 1 - (0 + 1)) ^ 2 + 0) with (0 * 0) by ring. rewrite !sqrt_square by lra. unfold fdiv. destruct (Req_EM_T (1 + 1 + 1 + 1) 0); [lra|]. f_equal. field. }
  rewrite P0. cbn zeta. unfold lazy104. assert (X' : dflt (o_x0 x0) [1 / 2] = [p]) by exact X. rewrite X'. cbn [map]. assert (G : get_rbfi solve2 (fun _ z => z) (FitError 1 [[0]; [0 + 1]] [1; 3] (RKwds None None None) None) [Some p] [[0]; [0 + 1]] [1; 3] = Some m). { apply get_fit. exists Gauss, p, (Some 0). split; [|exact E]. split; [reflexivity|]. split; [reflexivity|]. now left. }
  unfold call. cbn [fe_cv]. unfold err_direct. cbn [fe_points fe_values]. rewrite G. destruct (C57_predict m [[0]; [0 + 1]] F) as (P & _); [intros x [<-|[<-|[]]]; now rewrite F3|intros x _; rewrite F1, F2; cbn; lra|]. destruct (C57_fit_error m _ [1; 3] _ P eq_refl ltac:(discriminate)) as (x & XX & _). rewrite XX. cbn [with_opt]. unfold make. cbn [k_p k_rbf k_r dflt]. rewrite E. reflexivity.
Qed.
(** Two calls with the same arguments, in particular the same dict, give different models: the second does not get
    the start values. *)
Theorem C104_twice_refuted : exists solve lstsq garbage fmin, solve_ok solve /\ improves fmin /\ exists n pts vals o k m1 m2 o1 o2, let run o := fit_opt solve lstsq garbage fmin (fun _ _ _ _ => None) (fun _ _ _ _ => None) n pts vals Fmin WP None o k in
  run o = (Some m1, o1) /\ run o1 = (Some m2, o2) /\ p_ m1 <> p_ m2.
Proof.
  exists solve2, (fun _ z => z), (fun _ => 0), lazy104. split; [exact solve2_ok|]. split; [exact improves104|]. destruct (opt_ok104 (fun _ => 0) 1 None (OKwds (Some true) (Some [1]) None None) eq_refl Rlt_0_1 eq_refl) as (m1 & E1 & P1). destruct (opt_ok104 (fun _ => 0) (1 / 2) None (OKwds None None None None) eq_refl ltac:(lra) eq_refl) as (m2 & E2 & P2). cbn [o_bounds o_ranges] in E1, E2.
  eexists _, _, _, _, _, _, _, _, _. cbv zeta. split; [exact E1|]. split; [exact E2|]. rewrite P1, P2. lra.
Qed.
Print Assumptions C104_defaults. Print Assumptions C104_params. Print Assumptions C104_held_out. Print Assumptions C104_cv. Print Assumptions C104_direct. Print Assumptions C104_fit_opt. Print Assumptions C104_not_worse. Print Assumptions C104_dict. Print Assumptions C104_twice_refuted.
