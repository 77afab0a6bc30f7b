(** C89: thermodynamic properties from Gibbs *)
From Coq Require Import String List Arith Bool Lia Reals Lra.
From Verif Require Import Gibbs GibbsSpec GibbsProofs.
Import ListNotations.
Local Open Scope string_scope.
Local Open Scope list_scope.
Local Open Scope nat_scope.
Local Notation length := List.length.

Section C89.
Variables GPa eV kb : R.
Definition ret_keys (g : gibbs) : list string := [(prefix g ++ "/Etot")%string; (prefix g ++ "/V")%string; (prefix g ++ prefix g)%string; "/P/P"; "/T/T"].
Lemma g_ret_none g k : ~ In k (ret_keys g) -> g_ret g k = None.
Proof. intros N. unfold g_ret. cbn in N. rewrite !set_other; [reflexivity|intros E; apply N; rewrite E; auto 9 ..]. Qed.
Lemma update_none d e k : e k = None -> update d e k = d k.
Proof. unfold update. now intros ->. Qed.
Lemma fit_opt_kept g gg prfx sym idx ws : g_nax g <= 3 -> ~ In sym ["ax0"; "ax1"; "ax2"; "V"; "B"] -> fit_opt GPa g gg prfx sym idx = Some ws -> forall k i v d, In (k, i, v) ws -> not_calc g prfx d k = d k.
Proof.
  intros N3 NS H k i v d I. cbn in NS. unfold fit_opt in H. unfold not_calc. destruct (String.eqb (g_case g) "1d") eqn:C1.
  - destruct (f_1dG _ _ _) as [fit|]; [|discriminate H]. destruct (low fit) as [vopt|]; [|discriminate H]. destruct (g_fitax g) as [fa|]; [|discriminate H]. destruct (opt_map _ _) as [axs|] eqn:E; [|discriminate H]. injection H as <-.
    assert (N : exists nm, k = opt_key prfx nm /\ (nm = "V" \/ nm = sym \/ nm = "B" \/ exists iax, iax < g_nax g /\ nm = ax iax)).
    { destruct I as [C|[C|I]]; [injection C as <- <- <-; eauto|injection C as <- <- <-; eauto|]. apply in_app_or in I as [I|[C|[]]]; [|injection C as <- <- <-; eauto 6]. apply (axs_spec _ _ _ _ _ _ E) in I as (iax & f & A & _ & -> & _). eauto 9. }
    destruct N as (nm & -> & N). destruct (g_nax g) as [|[|[|]]]; try reflexivity; repeat rewrite set_other; try reflexivity; intros X; apply opt_key_inj in X; subst nm; (destruct N as [N|[N|[N|(iax & L & N)]]]; [discriminate N|intuition congruence|discriminate N|]); destruct iax as [|[|]]; try discriminate N; lia.
  - destruct (String.eqb (g_case g) "2d"); [|discriminate H]. destruct (Nat.eqb_spec (g_nax g) 2) as [E2|]; [|discriminate H]. cbn [negb] in H. destruct (lmin gg) as [mn|]; [|discriminate H]. destruct (lmax gg) as [mx|]; [|discriminate H]. destruct (Req_EM_T mx mn); [discriminate H|]. destruct (f_2dG _ _ _) as [fit|]; [|discriminate H]. destruct (low2 fit) as [xo|]; [|discriminate H].
    destruct (nth_error xo 0) as [x0|]; [|discriminate H]. destruct (nth_error xo 1) as [x1|]; [|discriminate H]. destruct (g_vol g xo) as [u|]; [|discriminate H]. injection H as <-. rewrite E2.
    destruct I as [C|[C|[C|[C|[]]]]]; injection C as <- <- <-; rewrite !set_other; try reflexivity; intros X; apply opt_key_inj in X; try discriminate X; subst; intuition congruence.
Qed.
Lemma not_calc_other g prfx d k : ~ In k (map (opt_key prfx) ["ax1"; "ax2"; "B"]) -> not_calc g prfx d k = d k.
Proof. intros N. cbn in N. unfold not_calc. destruct (g_nax g) as [|[|[|]]]; try reflexivity; [|destruct (String.eqb _ _)]; rewrite !set_other; try reflexivity; intros ->; apply N; auto. Qed.
Lemma not_calc_cases g prfx d k : (not_calc g prfx (fun _ => None) k = Some ENone /\ not_calc g prfx d k = Some ENone) \/ (not_calc g prfx (fun _ => None) k = None /\ not_calc g prfx d k = d k).
Proof. unfold not_calc, set. destruct (g_nax g) as [|[|[|]]]; auto; [|destruct (String.eqb (g_case g) "1d")]; repeat (destruct (String.eqb k _); auto). Qed.
Lemma f2_gets k idxs d l : gets k idxs d = Some l -> Forall2 (fun i x => cell d k i x) idxs l.
Proof. intros H. apply opt_map_spec in H. clear - H. induction H as [|i x idxs l E _ IH]; constructor; [now apply get_cell|exact IH]. Qed.

(** ** What the methods return *)
Ltac ne := keys.
Lemma calc_F_spec g b ret : calc_F g b = Some ret ->
  (forall i, i < npoints g -> exists ha e, nth_error (g_vib g) i = Some ha /\ nth_error (g_etot g) i = Some e /\ Forall (fun nv => length (snd nv) = nT g) (F_rows g b ha e) /\
     forall name vs t x, In (name, vs) (F_rows g b ha e) -> nth_error vs t = Some x -> cell ret (T_key g name) [i; t] x) /\
  (forall k, ~ In k (map (T_key g) (F_names b)) -> ret k = g_ret g k) /\
  (forall name, In name (F_names b) -> exists f, ret (T_key g name) = Some (EArr [npoints g; nT g] f)).
Proof.
  unfold calc_F. intros H. destruct (loop _ _ _) as [d|] eqn:L; [|discriminate H]. injection H as <-. apply f_fill in L as (A & B & C). change (fun n => (prefix g ++ "/T/" ++ n)%string) with (T_key g) in *.
  assert (NR : forall name, In name (F_names b) -> g_ret g (T_key g name) = None).
  { intros name I. apply g_ret_none. unfold ret_keys, T_key. destruct b; cbn [F_names In] in I; repeat (destruct I as [<-|I]; [keys|]); destruct I. }
  split; [|split].
  - intros i L. destruct (B i L) as (ha & e & X1 & X2 & X3 & X4). exists ha, e. split; [exact X1|]. split; [exact X2|]. split; [exact X3|]. intros name vs t x I X. apply (cell_same d); [|exact (X4 name vs t x I X)]. symmetry. apply update_none. apply NR. exact (F_rows_names g _ _ _ _ _ I).
  - intros k N. unfold update. destruct (g_ret g k); [reflexivity|]. rewrite A by exact N. now rewrite empties_other.
  - intros name I. destruct (C (T_key g name) [npoints g; nT g] (fun _ => None)) as (f & E); [now apply empties_in, in_map|]. exists f. rewrite update_none by now apply NR. exact E.
Qed.
Lemma calc_H_spec g b ret : g_nax g <= 3 -> calc_H GPa g b = Some ret ->
  (forall p, p < nP g -> exists q, nth_error (g_P g) p = Some q /\ length (shifted GPa g (g_etot g) q) = npoints g /\ gets (H_key g) (across [p] (npoints g)) ret = Some (shifted GPa g (g_etot g) q) /\
     (b = true -> exists ws, fit_opt GPa g (shifted GPa g (g_etot g) q) "/P" "H" [p] = Some ws /\ forall k x v, In (k, x, v) ws -> cell ret k x v)) /\
  (forall k, ~ In k (H_key g :: opt_keys "/P" "H" ++ ret_keys g) -> ret k = None) /\
  (forall k, In k (ret_keys g) -> ret k = g_ret g k) /\
  (exists f, ret (H_key g) = Some (EArr [nP g; npoints g] f)) /\
  (forall k, In k (opt_keys "/P" "H") -> not_calc g "/P" (fun _ => None) k = Some ENone /\ ret k = Some ENone \/ not_calc g "/P" (fun _ => None) k = None /\ (b = true -> exists f, ret k = Some (EArr [nP g] f)) /\ (b = false -> ret k = None)).
Proof.
  intros N3 H. unfold calc_H in H. destruct (loop (h_body GPa g) _ _) as [d1|] eqn:L1; [|discriminate H]. apply h_fill in L1 as (A1 & B1 & C1).
  set (step := if b then _ else _) in H. destruct step as [d2|] eqn:L2; [|discriminate H]. injection H as <-. subst step.
  assert (NH : g_ret g (H_key g) = None) by (apply g_ret_none; unfold ret_keys; ne).
  assert (NHO : ~ In (H_key g) (opt_keys "/P" "H")) by (unfold opt_keys; ne).
  assert (NO : forall k, In k (opt_keys "/P" "H") -> g_ret g k = None).
  { intros k I. apply g_ret_none. unfold opt_keys, ret_keys in *. cbn [map In] in I. repeat (destruct I as [<-|I]; [keys|]). destruct I. }
  assert (KN : forall k, ~ In k (opt_keys "/P" "H") -> not_calc g "/P" d2 k = d2 k) by (intros k N; apply not_calc_other; intros I; apply N; unfold opt_keys; cbn [map In] in *; tauto).
  assert (D2 : (forall k, ~ In k (opt_keys "/P" "H") -> d2 k = d1 k) /\ (b = true -> forall p, p < nP g -> exists gg ws, gets (H_key g) (across [p] (npoints g)) d1 = Some gg /\ fit_opt GPa g gg "/P" "H" [p] = Some ws /\ forall k x v, In (k, x, v) ws -> cell d2 k x v) /\
    (forall k, In k (opt_keys "/P" "H") -> if b then exists f, d2 k = Some (EArr [nP g] f) else d2 k = None)).
  { destruct b; [|injection L2 as <-; split; [reflexivity|split; [discriminate|]]; intros k I; assert (NE : k <> H_key g) by (intros ->; now apply NHO); rewrite A1 by exact NE; now rewrite set_other]. destruct (opt_loop GPa g (H_key g) (fun p => across [p] (npoints g)) (fun p => [p]) "/P" "H") with (5 := L2) as (X & Y & Z); [exact N3|cbn; intuition discriminate|exact NHO|intros i j E; now injection E|].
    fold (opt_keys "/P" "H") in X, Y, Z. split; [intros k N; rewrite X by exact N; now apply empties_other|]. split; [|intros k I; apply (Z k _ (fun _ => None)); now apply empties_in]. intros _ p L. destruct (Y p) as (gg & ws & G & F & W); [apply in_seq; lia|]. exists gg, ws. split; [|auto]. rewrite <- G. apply gets_same. symmetry. now apply empties_other. }
  destruct D2 as (A2 & B2 & C2). split; [|split; [|split; [|split]]].
  4:{ destruct (C1 [nP g; npoints g] (fun _ => None)) as (f & E); [apply set_same|]. exists f. rewrite update_none by exact NH. rewrite KN by exact NHO. now rewrite A2. }
  4:{ intros k I. rewrite update_none by now apply NO. destruct (not_calc_cases g "/P" d2 k) as [(E1 & E2)|(E1 & E2)]; [left; auto|right]. split; [exact E1|]. rewrite E2. specialize (C2 k I). destruct b; split; intros E; try discriminate E; exact C2. }
  - intros p L. destruct (B1 p L) as (q & Q & LL & G). exists q. split; [exact Q|]. split; [exact LL|]. split.
    + rewrite <- G. apply gets_same. rewrite update_none by exact NH. rewrite KN by exact NHO. now rewrite A2.
    + intros E. destruct (B2 E p L) as (gg & ws & G2 & F & W). rewrite G in G2. injection G2 as <-. exists ws. split; [exact F|]. intros k x v I. apply (cell_same d2); [|exact (W k x v I)]. symmetry.
      rewrite update_none by (apply NO; exact (proj2 (fit_opt_keys _ _ _ _ _ _ _ F k x v I))). apply (fit_opt_kept g _ _ _ _ _ N3) with (2 := F) (3 := I). cbn. intuition discriminate.
  - intros k N. cbn [In] in N. assert (N1 : ~ In k (opt_keys "/P" "H")) by (intros I; apply N; right; apply in_or_app; now left). rewrite update_none by (apply g_ret_none; intros I; apply N; right; apply in_or_app; now right). rewrite KN, A2, A1 by (auto || (intros ->; apply N; now left)). apply set_other. intros ->. apply N. now left.
  - intros k I. unfold update. destruct (g_ret g k) eqn:E; [reflexivity|]. exfalso. unfold g_ret in E. cbn [ret_keys In] in I. unfold set in E. repeat (destruct I as [<-|I]; [repeat first [rewrite String.eqb_refl in E; discriminate E|destruct (String.eqb _ _); [discriminate E|]]|]). destruct I.
Qed.
(** the two ways to call calc_G *)
Definition given (g : gibbs) (user : option dict) (b : bool) (d : dict) : Prop := match user with Some u => d = u | None => calc_F g b = Some d end.
Definition new_keys (g : gibbs) (b : bool) : list string := G_key g :: if b then H_key g :: Cp_key :: opt_keys "/T/P" "G" ++ opt_keys "/P" "H" ++ map alpha_key alpha_names else [].
Lemma calc_G_spec g user b ret : g_nax g <= 3 -> calc_G GPa eV kb g user b = Some ret -> exists ret0, given g user b ret0 /\ ret (F_key g) = ret0 (F_key g) /\
  (forall t p, t < nT g -> p < nP g -> exists f q, gets (F_key g) (down (npoints g) t) ret0 = Some f /\ nth_error (g_P g) p = Some q /\ length (shifted GPa g f q) = npoints g /\ gets (G_key g) (across [t; p] (npoints g)) ret = Some (shifted GPa g f q) /\
     (b = true -> exists ws, fit_opt GPa g (shifted GPa g f q) "/T/P" "G" [t; p] = Some ws /\ forall k x v, In (k, x, v) ws -> cell ret k x v)) /\
  (b = true -> 
    (forall p, p < nP g -> exists q, nth_error (g_P g) p = Some q /\ gets (H_key g) (across [p] (npoints g)) ret = Some (shifted GPa g (g_etot g) q) /\
       exists ws, fit_opt GPa g (shifted GPa g (g_etot g) q) "/P" "H" [p] = Some ws /\ forall k x v, In (k, x, v) ws -> cell ret k x v) /\
    (forall name, In name alpha_names -> (ret (opt_key "/T/P" name) = Some ENone /\ ret (alpha_key name) = Some ENone) \/
       forall p, p < nP g -> exists x fit, gets (opt_key "/T/P" name) (down (nT g) p) ret = Some x /\ f_alpha (g_fit g) (g_T g) x = Some fit /\ gets (alpha_key name) (down (nT g) p) ret = Some (map (fun tx => (ev fit 1 (fst tx) / snd tx)%R) (combine (g_T g) x))) /\
    (forall p, p < nP g -> exists x fit, gets (opt_key "/T/P" "G") (down (nT g) p) ret = Some x /\ f_C (g_fit g) (g_T g) (map (fun y => y * eV / kb)%R x) = Some fit /\ gets Cp_key (down (nT g) p) ret = Some (map (fun t => (- t * ev fit 2 t)%R) (g_T g)))) /\
  (forall k, ~ In k (new_keys g b) -> ret k = update ret0 (g_ret g) k) /\
  (exists f, ret (G_key g) = Some (EArr [nT g; nP g; npoints g] f)) /\
  (b = true -> (exists h, calc_H GPa g true = Some h /\ forall k, In k (H_key g :: opt_keys "/P" "H") -> ret k = h k) /\
     (exists f, ret Cp_key = Some (EArr [nT g; nP g] f)) /\
     (forall name, In name alpha_names -> ret (alpha_key name) = Some ENone \/ exists f, ret (alpha_key name) = Some (EArr [nT g; nP g] f)) /\
     (forall k, In k (opt_keys "/T/P" "G") -> not_calc g "/T/P" (fun _ => None) k = Some ENone /\ ret k = Some ENone \/ not_calc g "/T/P" (fun _ => None) k = None /\ exists f, ret k = Some (EArr [nT g; nP g] f))).
Proof.
  intros N3 H. unfold calc_G in H. set (o := match user with Some d => Some d | None => calc_F g b end) in H. destruct o as [ret0|] eqn:EO; [|discriminate H]. exists ret0. split; [unfold o in EO; unfold given; destruct user; [now injection EO|exact EO]|]. clear o EO. cbn [bind] in H.
  destruct (loop (g_body GPa g) _ _) as [d1|] eqn:L1; [|discriminate H]. apply g_fill in L1 as (A1 & B1 & C1). cbn [bind] in H.
  assert (NGF : F_key g <> G_key g) by keys.
  assert (RN : forall k, In k (F_key g :: G_key g :: H_key g :: Cp_key :: opt_keys "/T/P" "G" ++ opt_keys "/P" "H" ++ map alpha_key alpha_names) -> g_ret g k = None).
  { intros k I. apply g_ret_none. unfold ret_keys, opt_keys, alpha_names in *. cbn [map In app] in I. repeat (destruct I as [<-|I]; [keys|]). destruct I. }
  destruct b.
  2:{ cbn [bind] in H. injection H as <-. split; [rewrite update_none by (apply RN; cbn; auto); rewrite A1 by exact NGF; now apply set_other|]. split; [|split; [discriminate|split; [|split; [|discriminate]]]].
      2:{ intros k N. unfold update. destruct (g_ret g k); [reflexivity|]. rewrite A1, set_other; [reflexivity| |]; intros ->; apply N; now left. }
      2:{ destruct (C1 [nT g; nP g; npoints g] (fun _ => None)) as (f & E); [apply set_same|]. exists f. rewrite update_none by (apply RN; cbn; auto). exact E. }
      intros t p LT LP. destruct (B1 t p LT LP) as (f & q & F & Q & L & G). exists f, q. split; [rewrite <- F; apply gets_same; symmetry; now apply set_other|]. split; [exact Q|]. split; [exact L|]. split; [|discriminate].
      rewrite <- G. apply gets_same. apply update_none. apply RN. cbn; auto. }
  destruct (calc_H GPa g true) as [hd|] eqn:EH; [|discriminate H]. cbn [bind] in H. assert (EH' := EH). apply calc_H_spec in EH' as (HB & HN & HR & HS & HO); [|exact N3].
  destruct (loop (g_opt GPa g) _ _) as [d2|] eqn:L2; [|discriminate H]. cbn [bind] in H. fold (opt_keys "/T/P" "G") in L2.
  assert (NGO : ~ In (G_key g) (opt_keys "/T/P" "G")) by (unfold opt_keys; ne).
  rewrite (loop_ext _ (fun tp d => match gets (G_key g) (across [fst tp; snd tp] (npoints g)) d with Some gg => fit_opt_store GPa g d gg "/T/P" "G" [fst tp; snd tp] | None => None end)) in L2 by (intros [t p] d; reflexivity).
  destruct (opt_loop GPa g (G_key g) (fun tp => across [fst tp; snd tp] (npoints g)) (fun tp => [fst tp; snd tp]) "/T/P" "G") with (5 := L2) as (A2 & B2 & C2); [exact N3|cbn; intuition discriminate|exact NGO|intros [t p] [t2 p2] E; injection E as <- <-; reflexivity|].
  cbn [alpha_names loop] in H. set (d3 := empties _ _ (not_calc g "/T/P" d2)) in H.
  assert (ASTEP : forall name d d', In name alpha_names -> alpha_step g name d = Some d' -> (forall k, k <> alpha_key name -> d' k = d k) /\ ((d (opt_key "/T/P" name) = Some ENone /\ d' (alpha_key name) = Some ENone) \/ forall p, p < nP g -> exists x fit, gets (opt_key "/T/P" name) (down (nT g) p) d = Some x /\ f_alpha (g_fit g) (g_T g) x = Some fit /\ gets (alpha_key name) (down (nT g) p) d' = Some (map (fun tx => (ev fit 1 (fst tx) / snd tx)%R) (combine (g_T g) x))) /\
    forall s f, d (alpha_key name) = Some (EArr s f) -> d' (alpha_key name) = Some ENone \/ exists f', d' (alpha_key name) = Some (EArr s f')).
  { intros name d d' I E. unfold alpha_step in E. destruct (d (opt_key "/T/P" name)) as [[|s f]|] eqn:ED; [| |discriminate E].
    - injection E as <-. split; [intros k N; now apply set_other|]. split; [left; split; [first [exact ED|reflexivity]|apply set_same]|]. intros s f _. left. apply set_same.
    - apply (a_fill g name d d' I) in E as (X & Y & Z). split; [exact X|]. split; [right; exact Y|]. intros s2 f2 D2. right. exact (Z s2 f2 D2). }
  destruct (alpha_step g "ax0" d3) as [e1|] eqn:E1; [|discriminate H]. destruct (alpha_step g "ax1" e1) as [e2|] eqn:E2; [|discriminate H]. destruct (alpha_step g "ax2" e2) as [e3|] eqn:E3; [|discriminate H]. destruct (alpha_step g "V" e3) as [e4|] eqn:E4; [|discriminate H]. cbn [bind] in H.
  apply ASTEP in E1 as (X1 & Y1 & Z1); [|cbn; auto]. apply ASTEP in E2 as (X2 & Y2 & Z2); [|cbn; auto]. apply ASTEP in E3 as (X3 & Y3 & Z3); [|cbn; auto]. apply ASTEP in E4 as (X4 & Y4 & Z4); [|cbn; auto].
  destruct (loop (c_body eV kb g) _ _) as [d5|] eqn:L5; [|discriminate H]. cbn [bind] in H. injection H as <-. apply c_fill in L5 as (A5 & B5 & C5).
  (* everything but the new keys is kept *)
  assert (K5 : forall k, k <> Cp_key -> ~ In k (map alpha_key alpha_names) -> d5 k = d3 k).
  { intros k N NA. cbn [alpha_names map In] in NA. rewrite A5 by exact N. rewrite set_other by exact N. rewrite X4, X3, X2, X1; [reflexivity| | | |]; intros ->; apply NA; auto. }
  assert (K3 : forall k, ~ In k (map alpha_key alpha_names) -> d3 k = not_calc g "/T/P" d2 k) by (intros k N; now apply empties_other).
  assert (KG : forall k, k <> Cp_key -> ~ In k (map alpha_key alpha_names) -> ~ In k (opt_keys "/T/P" "G") -> d5 k = update d1 hd k).
  { intros k N1 N2 N. rewrite K5, K3 by assumption. rewrite not_calc_other by (intros I; apply N; unfold opt_keys; cbn [map In] in *; tauto). rewrite A2 by exact N. now apply empties_other. }
  assert (HG : hd (G_key g) = None) by (apply HN; unfold opt_keys, ret_keys; ne). assert (HF : hd (F_key g) = None) by (apply HN; unfold opt_keys, ret_keys; ne).
  assert (D5G : d5 (G_key g) = d1 (G_key g)) by (rewrite KG; [now apply update_none|ne|unfold alpha_names; ne|exact NGO]).
  assert (D5F : d5 (F_key g) = ret0 (F_key g)) by (rewrite KG; [rewrite update_none by exact HF; rewrite A1 by exact NGF; now apply set_other|ne|unfold alpha_names; ne|unfold opt_keys; ne]).
  split; [rewrite update_none by (apply RN; cbn; auto); exact D5F|]. split; [|split; [|split; [|split]]].
  3:{ intros k N. unfold new_keys in N. cbn [In] in N. unfold update at 1 2. destruct (g_ret g k) eqn:EK; [reflexivity|].
      assert (NG : k <> G_key g) by (intros ->; tauto). assert (NH : k <> H_key g) by (intros ->; tauto). assert (NC : k <> Cp_key) by (intros ->; tauto). rewrite !in_app_iff in N. rewrite KG by tauto. destruct (in_dec string_dec k (ret_keys g)) as [IR|IR]; [exfalso; rewrite <- HR in EK by exact IR; specialize (HR k IR); clear - EK HR IR; unfold g_ret in HR; rewrite EK in HR; cbn [ret_keys In] in IR; unfold set in HR; repeat (destruct IR as [<-|IR]; [repeat first [rewrite String.eqb_refl in HR; discriminate HR|destruct (String.eqb _ _); [discriminate HR|]]|]); destruct IR|].
      rewrite update_none; [rewrite A1 by exact NG; now apply set_other|]. apply HN. cbn [In]. rewrite in_app_iff. intros [E|[E|E]]; [now apply NH|tauto|tauto]. }
  3:{ destruct (C1 [nT g; nP g; npoints g] (fun _ => None)) as (f & E); [apply set_same|]. exists f. rewrite update_none by (apply RN; cbn; auto). now rewrite D5G. }
  3:{ intros _. split; [|split; [|split]].
      - exists hd. split; [reflexivity|]. intros k I. rewrite update_none by (apply RN; cbn [In]; destruct I as [<-|I]; [auto|do 4 right; apply in_or_app; right; apply in_or_app; now left]).
        assert (EK : d5 k = update d1 hd k) by (apply KG; clear - I; unfold opt_keys, alpha_names in *; cbn [map In] in I; (repeat (destruct I as [<-|I]; [keys|])); destruct I). rewrite EK. unfold update. destruct (hd k) eqn:EHK; [reflexivity|].
        destruct I as [<-|I]; [destruct HS as (f & HS); congruence|]. destruct (HO k I) as [(_ & E)|(_ & E & _)]; [congruence|]. destruct (E eq_refl) as (f & E2). congruence.
      - destruct (C5 [nT g; nP g] (fun _ => None)) as (f & E); [apply set_same|]. exists f. rewrite update_none by (apply RN; cbn; auto). exact E.
      - assert (AE : forall name, In name alpha_names -> update d5 (g_ret g) (alpha_key name) = e4 (alpha_key name)).
        { intros name I. rewrite update_none by (apply RN; do 4 right; apply in_or_app; right; apply in_or_app; right; now apply in_map). assert (N : alpha_key name <> Cp_key) by (clear - I; unfold alpha_names in I; cbn [In] in I; (repeat (destruct I as [<-|I]; [keys|])); destruct I). rewrite A5 by exact N. now apply set_other. }
        assert (A0 : forall name, In name alpha_names -> d3 (alpha_key name) = Some (empty [nT g; nP g])) by (intros name I; apply empties_in; now apply in_map).
        intros name I. rewrite AE by exact I. assert (I' := I). cbn [alpha_names In] in I. destruct I as [<-|[<-|[<-|[<-|[]]]]].
        + rewrite X4, X3, X2 by discriminate. exact (Z1 _ _ (A0 _ I')).
        + rewrite X4, X3 by discriminate. apply (Z2 _ (fun _ => None)). rewrite X1 by discriminate. exact (A0 _ I').
        + rewrite X4 by discriminate. apply (Z3 _ (fun _ => None)). rewrite X2, X1 by discriminate. exact (A0 _ I').
        + apply (Z4 _ (fun _ => None)). rewrite X3, X2, X1 by discriminate. exact (A0 _ I').
      - intros k I. rewrite update_none by (apply RN; cbn [In]; do 4 right; apply in_or_app; now left). rewrite K5, K3; [|clear - I; unfold opt_keys, alpha_names in *; cbn [map In] in I; repeat (destruct I as [<-|I]; [keys|]); destruct I|clear - I; unfold opt_keys in *; cbn [map In] in I; repeat (destruct I as [<-|I]; [keys|]); destruct I|clear - I; unfold opt_keys, alpha_names in *; cbn [map In] in I; repeat (destruct I as [<-|I]; [keys|]); destruct I].
        destruct (not_calc_cases g "/T/P" d2 k) as [(E1 & E2)|(E1 & E2)]; [left; auto|right]. split; [exact E1|]. rewrite E2. apply (C2 k _ (fun _ => None)). now apply empties_in. }
  - intros t p LT LP. destruct (B1 t p LT LP) as (f & q & F & Q & L & G). exists f, q. split; [rewrite <- F; apply gets_same; symmetry; now apply set_other|]. split; [exact Q|]. split; [exact L|]. split.
    + rewrite <- G. apply gets_same. rewrite update_none by (apply RN; cbn; auto). exact D5G.
    + intros _. destruct (B2 (t, p)) as (gg & ws & G2 & FO & W); [now apply tp_in|]. cbn [fst snd] in *. assert (GE : gets (G_key g) (across [t; p] (npoints g)) d1 = Some gg) by (rewrite <- G2; apply gets_same; rewrite empties_other by exact NGO; symmetry; now apply update_none). rewrite G in GE. injection GE as <-. exists ws. split; [exact FO|].
      intros k x v I. apply (cell_same d2); [|exact (W k x v I)]. symmetry. assert (KI := proj2 (fit_opt_keys _ _ _ _ _ _ _ FO k x v I)). rewrite update_none by (apply RN; cbn [In]; do 4 right; apply in_or_app; now left).
      rewrite K5, K3; [|clear - KI; unfold opt_keys, alpha_names in *; cbn [map In] in KI; repeat (destruct KI as [<-|KI]; [keys|]); destruct KI|clear - KI; unfold opt_keys in *; cbn [map In] in KI; repeat (destruct KI as [<-|KI]; [keys|]); destruct KI|clear - KI; unfold opt_keys, alpha_names in *; cbn [map In] in KI; repeat (destruct KI as [<-|KI]; [keys|]); destruct KI].
      apply (fit_opt_kept g _ _ _ _ _ N3) with (2 := FO) (3 := I). cbn. intuition discriminate.
  - intros _. split; [|split].
    + intros p LP. destruct (HB p LP) as (q & Q & _ & G & FO). destruct (FO eq_refl) as (ws & FO1 & W). exists q. split; [exact Q|].
      assert (KH : forall k, In k (H_key g :: opt_keys "/P" "H") -> hd k <> None -> update d5 (g_ret g) k = hd k).
      { intros k I NN. rewrite update_none by (apply RN; cbn [In]; destruct I as [<-|I]; [auto|do 4 right; apply in_or_app; right; apply in_or_app; now left]). rewrite KG; [unfold update; now destruct (hd k)| | |]; clear - I; unfold opt_keys, alpha_names in *; cbn [map In] in I; (repeat (destruct I as [<-|I]; [keys|])); destruct I. }
      split; [|exists ws; split; [exact FO1|]].
      * apply cells_gets; [destruct (gets_cells _ _ _ _ G) as (LL & _); exact LL|]. intros j i x J1 J2. destruct (gets_cells _ _ _ _ G) as (_ & CC). destruct (CC j i J1) as (x2 & J3 & CX). rewrite J2 in J3. injection J3 as <-. apply (cell_same hd); [symmetry; apply KH; [now left|destruct CX as (s & f & E & _); congruence]|exact CX].
      * intros k x v I. assert (CX := W k x v I). apply (cell_same hd); [symmetry; apply KH; [right; exact (proj2 (fit_opt_keys _ _ _ _ _ _ _ FO1 k x v I))|destruct CX as (s & f & E & _); congruence]|exact CX].
    + assert (FIN : forall k, In k (map (opt_key "/T/P") alpha_names) -> update d5 (g_ret g) k = d3 k).
      { intros k I. rewrite update_none by (apply RN; cbn [alpha_names map In] in *; do 4 right; apply in_or_app; left; unfold opt_keys; cbn [map In]; tauto). apply K5; clear - I; unfold alpha_names in *; cbn [map In] in I; (repeat (destruct I as [<-|I]; [keys|])); destruct I. }
      assert (AFIN : forall name, In name alpha_names -> update d5 (g_ret g) (alpha_key name) = e4 (alpha_key name)).
      { intros name I. rewrite update_none by (apply RN; do 4 right; apply in_or_app; right; apply in_or_app; right; now apply in_map). assert (N : alpha_key name <> Cp_key) by (clear - I; unfold alpha_names in I; cbn [In] in I; (repeat (destruct I as [<-|I]; [keys|])); destruct I). rewrite A5 by exact N. now apply set_other. }
      assert (DONE : forall name da db, In name alpha_names -> (forall k, In k (map (opt_key "/T/P") alpha_names) -> da k = d3 k) -> e4 (alpha_key name) = db (alpha_key name) ->
        ((da (opt_key "/T/P" name) = Some ENone /\ db (alpha_key name) = Some ENone) \/ forall p, p < nP g -> exists x fit, gets (opt_key "/T/P" name) (down (nT g) p) da = Some x /\ f_alpha (g_fit g) (g_T g) x = Some fit /\ gets (alpha_key name) (down (nT g) p) db = Some (map (fun tx => (ev fit 1 (fst tx) / snd tx)%R) (combine (g_T g) x))) ->
        (update d5 (g_ret g) (opt_key "/T/P" name) = Some ENone /\ update d5 (g_ret g) (alpha_key name) = Some ENone) \/ forall p, p < nP g -> exists x fit, gets (opt_key "/T/P" name) (down (nT g) p) (update d5 (g_ret g)) = Some x /\ f_alpha (g_fit g) (g_T g) x = Some fit /\ gets (alpha_key name) (down (nT g) p) (update d5 (g_ret g)) = Some (map (fun tx => (ev fit 1 (fst tx) / snd tx)%R) (combine (g_T g) x))).
      { intros name da db I DA DB [[P1 P2]|P1].
        - left. rewrite FIN, AFIN by (auto using in_map). rewrite <- DA by now apply in_map. split; [exact P1|congruence].
        - right. intros p LP. destruct (P1 p LP) as (x & fit & G1 & G2 & G3). exists x, fit. split; [rewrite <- G1; apply gets_same; rewrite FIN by (now apply in_map); symmetry; apply DA; now apply in_map|]. split; [exact G2|]. rewrite <- G3. apply gets_same. rewrite AFIN by exact I. exact DB. }
      intros name I. assert (I' := I). cbn [alpha_names In] in I. destruct I as [<-|[<-|[<-|[<-|[]]]]].
      * apply (DONE "ax0" d3 e1 I'); [reflexivity| |exact Y1]. rewrite X4, X3, X2 by discriminate. reflexivity.
      * apply (DONE "ax1" e1 e2 I'); [| |exact Y2]; [intros k J; apply X1; cbn [alpha_names map In] in J; intuition (subst k; discriminate)|]. rewrite X4, X3 by discriminate. reflexivity.
      * apply (DONE "ax2" e2 e3 I'); [| |exact Y3]; [intros k J; rewrite X2, X1; [reflexivity| |]; cbn [alpha_names map In] in J; intuition (subst k; discriminate)|]. rewrite X4 by discriminate. reflexivity.
      * apply (DONE "V" e3 e4 I'); [|reflexivity|exact Y4]. intros k J; rewrite X3, X2, X1; [reflexivity| | |]; cbn [alpha_names map In] in J; intuition (subst k; discriminate).
    + intros p LP. destruct (B5 p LP) as (x & fit & G1 & G2 & G3). exists x, fit. split; [|split; [exact G2|]].
      * rewrite <- G1. apply gets_same. rewrite update_none by (apply RN; cbn; auto 20). now rewrite A5 by discriminate.
      * rewrite <- G3. apply gets_same. apply update_none. apply RN. cbn; auto.
Qed.

(** ** Objects *)
Definition sound (g : gibbs) : Prop := 1 <= g_nax g <= 3 /\ length (g_etot g) = length (g_axes g) /\ length (g_vib g) = length (g_axes g) /\ Forall2 (fun a v => g_vol g a = Some v) (g_axes g) (g_V g) /\
  Forall (fun r => length r = g_nax g) (g_axes g) /\ match g_fitax g with Some l => length l = g_nax g | None => True end.
Lemma set_fitax_inv g g' : set_fitax g = Some g' -> exists l, g' = Gibbs (g_T g) (g_P g) (g_etot g) (g_vib g) (g_axes g) (g_nax g) (g_vol g) (g_V g) (g_case g) (Some l) (g_fit g) /\
  (g_fitax g = Some l \/ g_fitax g = None /\ axis_fits (g_fit g) (g_V g) (g_axes g) (g_nax g) l).
Proof.
  unfold set_fitax. destruct (g_fitax g) as [l|] eqn:E; [intros H; injection H as <-; exists l; split; [|auto]; destruct g; cbn in *; now rewrite E|]. destruct (opt_map _ _) as [l|] eqn:O; [|discriminate]. intros H. injection H as <-. exists l. split; [reflexivity|]. right. split; [reflexivity|]. apply opt_map_seq in O as (L & O). split; [exact L|].
  intros i f F. assert (IL : i < g_nax g) by (rewrite <- L; apply nth_error_Some; congruence). destruct (O i IL) as (y & A & B). rewrite F in A. injection A as <-. destruct (opt_map (fun r => nth_error r i) (g_axes g)) as [col|] eqn:C; [|discriminate B]. exists col. split; [now apply opt_map_spec|exact B].
Qed.
Lemma run_inv c g g' d : run GPa eV kb c g = Some (g', d) -> set_fitax g = Some g' /\ (match c with CallF b => calc_F g' b | CallH b => calc_H GPa g' b | CallG r b => calc_G GPa eV kb g' r b end) = Some d.
Proof. unfold run. destruct (set_fitax g) as [g1|]; [|discriminate]. destruct (match c with CallF _ => _ | _ => _ end) as [d1|] eqn:E; [|discriminate]. intros H. injection H as <- <-. auto. Qed.
Lemma init_inv T P etot phdos axes nax vol case defaults g : init T P etot phdos axes nax vol case defaults = Some g -> exists V c, Forall2 (fun a v => vol a = Some v) axes V /\ 1 <= nax <= 3 /\ length axes = length phdos /\ length axes = length etot /\ g = Gibbs T P etot phdos axes nax vol V c None defaults.
Proof.
  unfold init. destruct (Nat.eqb_spec (length axes) (length phdos)) as [A|]; [|discriminate]. destruct (Nat.eqb_spec (length axes) (length etot)) as [B|]; [|discriminate]. cbn [andb negb]. destruct (opt_map vol axes) as [V|] eqn:E; [|discriminate]. intros H. apply opt_map_spec in E.
  destruct nax as [|[|[|[|]]]]; try discriminate H; injection H as <-; eexists V, _; (split; [exact E|]); (split; [lia|]); auto.
Qed.
Lemma reach_sound g : reach GPa eV kb g -> sound g.
Proof.
  induction 1 as [T P etot phdos axes nax vol case defaults g FA H|w g _ IH|c g g' d _ IH H].
  - apply init_inv in H as (V & c & E & N & A & B & ->). unfold sound. cbn. auto 9.
  - exact IH.
  - apply run_inv in H as (S1 & _). apply set_fitax_inv in S1 as (l & -> & [E|[E (L & _)]]); unfold sound in *; cbn in *; [rewrite E in IH; exact IH|]. destruct IH as (A & B & C & D & F & _). auto 9.
Qed.
Lemma shifted_nth g f q i x : nth_error (shifted GPa g f q) i = Some x <-> exists a v, nth_error f i = Some a /\ nth_error (g_V g) i = Some v /\ x = (a + v * q / GPa)%R.
Proof.
  unfold shifted. rewrite add_nth, nth_error_map. destruct (nth_error f i) as [a|]; [|split; [discriminate|intros (? & ? & E & _); discriminate E]]. destruct (nth_error (g_V g) i) as [v|]; cbn [option_map]; [|split; [discriminate|intros (? & ? & _ & E & _); discriminate E]].
  split; [intros H; injection H as <-; eauto|intros (a2 & v2 & A & B & ->); congruence].
Qed.
(** the free energies which calc_G reads *)
Lemma F_column g b ret t f : calc_F g b = Some ret -> t < nT g -> gets (F_key g) (down (npoints g) t) ret = Some f -> forall i a, nth_error f i = Some a -> exists e ha u, nth_error (g_etot g) i = Some e /\ nth_error (g_vib g) i = Some ha /\ nth_error (fvib ha) t = Some u /\ a = (e + u)%R.
Proof.
  intros H LT G i a E. apply gets_cells in G as (L & G). rewrite down_len in L. assert (IL : i < npoints g) by (rewrite <- L; apply nth_error_Some; congruence). destruct (G i [i; t]) as (x & X & CX); [now apply down_nth|]. rewrite E in X. injection X as <-.
  apply calc_F_spec in H as (H & _). destruct (H i IL) as (ha & e & A & B & FL & W). exists e, ha. assert (LF : t < length (fvib ha)) by (inversion FL as [|? ? L1 _]; subst; cbn in L1; rewrite map_length in L1; lia). destruct (nth_error (fvib ha) t) as [u|] eqn:EU; [|apply nth_error_None in EU; lia].
  exists u. split; [exact B|]. split; [exact A|]. split; [reflexivity|]. apply (cell_inj ret (T_key g "F") [i; t]); [exact CX|]. apply (W "F" (map (Rplus e) (fvib ha)) t); [left; reflexivity|]. now rewrite nth_error_map, EU.
Qed.
(** the writes of one minimum in the 1d case *)
Lemma min_1d g fa gg prfx sym idx ws d : g_case g = "1d" -> g_fitax g = Some fa -> length fa = g_nax g -> fit_opt GPa g gg prfx sym idx = Some ws -> (forall k x v, In (k, x, v) ws -> cell d k x v) ->
  g_nax g <= 3 -> exists m, minimum_of GPa (g_fit g) fa (g_V g) gg m /\ stored d prfx sym idx m.
Proof.
  intros C FA LF H W N3. unfold fit_opt in H. rewrite C in H. cbn [String.eqb Ascii.eqb Bool.eqb] in H. destruct (f_1dG _ _ _) as [fit|] eqn:EF; [|discriminate H]. destruct (low fit) as [vopt|] eqn:EL; [|discriminate H]. rewrite FA in H. destruct (opt_map _ _) as [axs|] eqn:E; [|discriminate H]. injection H as <-.
  exists (Minimum vopt (ev fit 0 vopt) (vopt * ev fit 2 vopt * GPa) (map (fun f => ev f 0 vopt) fa)). split; [exists fit; cbn; auto|]. unfold stored. cbn [m_V m_E m_B m_ax]. repeat split.
  - apply (W (opt_key prfx "V")). now left.
  - apply (W (opt_key prfx sym)). right. now left.
  - apply (W (opt_key prfx "B")). right. right. apply in_or_app. right. now left.
  - intros i a A. rewrite nth_error_map in A. destruct (nth_error fa i) as [f|] eqn:EI; [|discriminate A]. injection A as <-. assert (IL : i < g_nax g) by (rewrite <- LF; apply nth_error_Some; congruence). change ("/#opt" ++ prfx ++ "/" ++ nth i ["ax0"; "ax1"; "ax2"] "")%string with (opt_key prfx (nth i ["ax0"; "ax1"; "ax2"] "")).
    replace (nth i ["ax0"; "ax1"; "ax2"] "") with (ax i) by (destruct i as [|[|[|]]]; try reflexivity; lia). apply W. right. right. apply in_or_app. left. apply (axs_spec _ _ _ _ _ _ E). exists i, f. auto.
Qed.
(** ** Theorems *)
(** G(V) is fitted at every temperature and pressure, and the minimum of this fit is stored at the
    place of this temperature and pressure. *)
Theorem C89_G g g' ret : reach GPa eV kb g -> g_case g = "1d" -> run GPa eV kb (CallG None true) g = Some (g', ret) ->
  exists fitax, g_fitax g' = Some fitax /\ forall t p q, t < length (g_T g) -> nth_error (g_P g) p = Some q ->
    exists y m, on_grid g (gibbs_energy GPa g t q) y /\ (forall i x, nth_error y i = Some x -> cell ret ("/T/P" ++ prefix g ++ "/G")%string [t; p; i] x) /\
      minimum_of GPa (g_fit g) fitax (g_V g) y m /\ stored ret "/T/P" "G" [t; p] m.
Proof.
  intros RE C H. assert (SG : sound g') by (apply reach_sound; exact (reach_call _ _ _ _ _ _ _ RE H)). apply run_inv in H as (S1 & H). apply set_fitax_inv in S1 as (fa & -> & _). set (g' := Gibbs _ _ _ _ _ _ _ _ _ _ _) in *. exists fa. split; [reflexivity|]. intros t p q LT Q.
  destruct SG as (N3 & LE & LV & FV & FA & LF). apply calc_G_spec in H as (ret0 & GI & _ & H & _ & _); [|lia]. assert (LP : p < nP g') by (apply nth_error_Some; cbn; congruence). destruct (H t p LT LP) as (f & q2 & F & Q2 & L & G & FO). change (g_P g') with (g_P g) in Q2. rewrite Q in Q2. injection Q2 as <-. destruct (FO eq_refl) as (ws & FO1 & W).
  destruct (min_1d g' fa _ _ _ _ _ ret C eq_refl LF FO1 W (proj2 N3)) as (m & M & ST). exists (shifted GPa g' f q), m. split; [|split; [|split; [exact M|exact ST]]].
  - split; [exact L|]. intros i x X. apply shifted_nth in X as (a & v & A & B & ->). destruct (F_column g' true ret0 t f GI LT F i a A) as (e & ha & u & E1 & E2 & E3 & ->). exists e, ha, u, v. repeat (split; [assumption|]). reflexivity.
  - intros i x X. apply gets_cells in G as (_ & G). assert (IL : i < npoints g') by (rewrite <- L; apply nth_error_Some; congruence). destruct (G i ([t; p] ++ [i])) as (x2 & X2 & CX); [now apply across_nth|]. rewrite X in X2. injection X2 as <-. exact CX.
Qed.
Theorem C89_H g g' ret : reach GPa eV kb g -> g_case g = "1d" -> run GPa eV kb (CallH true) g = Some (g', ret) ->
  exists fitax, g_fitax g' = Some fitax /\ forall p q, nth_error (g_P g) p = Some q ->
    exists y m, on_grid g (enthalpy GPa g q) y /\ (forall i x, nth_error y i = Some x -> cell ret ("/P" ++ prefix g ++ "/H")%string [p; i] x) /\
      minimum_of GPa (g_fit g) fitax (g_V g) y m /\ stored ret "/P" "H" [p] m.
Proof.
  intros RE C H. assert (SG : sound g') by (apply reach_sound; exact (reach_call _ _ _ _ _ _ _ RE H)). apply run_inv in H as (S1 & H). apply set_fitax_inv in S1 as (fa & -> & _). set (g' := Gibbs _ _ _ _ _ _ _ _ _ _ _) in *. exists fa. split; [reflexivity|]. intros p q Q.
  destruct SG as (N3 & LE & LV & FV & FA & LF). apply calc_H_spec in H as (H & _ & _); [|lia]. assert (LP : p < nP g') by (apply nth_error_Some; cbn; congruence). destruct (H p LP) as (q2 & Q2 & L & G & FO). change (g_P g') with (g_P g) in Q2. rewrite Q in Q2. injection Q2 as <-. destruct (FO eq_refl) as (ws & FO1 & W).
  destruct (min_1d g' fa _ _ _ _ _ ret C eq_refl LF FO1 W (proj2 N3)) as (m & M & ST). eexists _, m. split; [|split; [|split; [exact M|exact ST]]].
  - split; [exact L|]. intros i x X. apply shifted_nth in X as (a & v & A & B & ->). exists a, v. auto.
  - intros i x X. apply gets_cells in G as (_ & G). assert (IL : i < npoints g') by (rewrite <- L; apply nth_error_Some; congruence). destruct (G i ([p] ++ [i])) as (x2 & X2 & CX); [now apply across_nth|]. rewrite X in X2. injection X2 as <-. exact CX.
Qed.
(** At the optimal volume the pressure -dF/dV is the given pressure, and B = -V dP/dV. *)
Theorem C89_pressure g g' ret (A A' : R -> R) t p q : reach GPa eV kb g -> g_case g = "1d" -> run GPa eV kb (CallG None true) g = Some (g', ret) -> (GPa <> 0)%R ->
  t < length (g_T g) -> nth_error (g_P g) p = Some q ->
  (forall i x, gibbs_energy GPa g t 0 i x -> exists v, nth_error (g_V g) i = Some v /\ x = A v) -> (forall v, derivable_pt_lim A v (A' v)) ->
  (forall c fit, f_1dG (g_fit g) (g_V g) (map (fun v => A v + c * v)%R (g_V g)) = Some fit -> exact_fit fit (fun v => A v + c * v)%R) ->
  exists v b, cell ret "/#opt/T/P/V" [t; p] v /\ cell ret "/#opt/T/P/B" [t; p] b /\ cell ret "/#opt/T/P/G" [t; p] (A v + v * q / GPa)%R /\
    (- A' v * GPa = q)%R /\ exists d, derivable_pt_lim (fun x => - A' x * GPa)%R v d /\ (b = - v * d)%R.
Proof.
  intros RE C H NZ LT Q SA DA EX. assert (SG : sound g) by now apply reach_sound. destruct (C89_G g g' ret RE C H) as (fa & _ & X). destruct (X t p q LT Q) as (y & m & (LY & OY) & _ & (fit & F & LO & EE & EB & _) & (SV & SE & SB & _)).
  assert (EY : y = map (fun v => A v + (q / GPa) * v)%R (g_V g)).
  { assert (LV : length (g_V g) = length (g_axes g)) by (destruct SG as (_ & _ & _ & F2 & _); symmetry; exact (GibbsProofs.f2_len _ _ _ F2)). apply ext_err; [now rewrite map_length, LV|]. intros i x E. destruct (OY i x E) as (e & ha & u & v & E1 & E2 & E3 & E4 & ->). destruct (SA i (e + u + v * 0 / GPa)%R) as (v2 & V2 & EA); [exists e, ha, u, v; auto|].
    rewrite E4 in V2. injection V2 as <-. rewrite nth_error_map, E4. cbn [option_map]. f_equal. rewrite <- EA. field. exact NZ. }
  rewrite EY in F. destruct (EX _ _ F) as (X0 & X1 & X2 & X3). specialize (X3 _ LO). exists (m_V m), (m_B m). split; [exact SV|]. split; [exact SB|]. split; [replace (A (m_V m) + m_V m * q / GPa)%R with (m_E m); [exact SE|]; rewrite EE, X0; field; exact NZ|].
  assert (D1 : forall x, ev fit 1 x = (A' x + q / GPa)%R).
  { intros x. apply (uniqueness_limite (ev fit 0) x); [apply X1|]. assert (DL : derivable_pt_lim (fun v => A v + q / GPa * v)%R x (A' x + q / GPa * 1)%R) by (apply derivable_pt_lim_plus; [apply DA|apply derivable_pt_lim_scal; apply derivable_pt_lim_id]). rewrite Rmult_1_r in DL. intros eps E. destruct (DL eps E) as (dl & HD). exists dl. intros h Hh Hl. rewrite !X0. now apply HD. }
  assert (Z : (A' (m_V m) + q / GPa = 0)%R).
  { rewrite <- D1. apply (uniqueness_limite (fun v => A v + q / GPa * v)%R (m_V m)); [|exact X3]. intros eps E. destruct (X1 (m_V m) eps E) as (dl & HD). exists dl. intros h Hh Hl. rewrite <- !X0. now apply HD. }
  split.
  - replace (A' (m_V m)) with (- (q / GPa))%R by lra. field. exact NZ.
  - exists (- GPa * ev fit 2 (m_V m))%R. split; [|rewrite EB; ring]. assert (DL : derivable_pt_lim (fun x => - GPa * ev fit 1 x)%R (m_V m) (- GPa * ev fit 2 (m_V m))%R) by (apply (derivable_pt_lim_scal (ev fit 1)); apply X2).
    intros eps E. destruct (DL eps E) as (dl & HD). exists dl. intros h Hh Hl. specialize (HD h Hh Hl). rewrite !D1 in HD. replace ((- A' (m_V m + h) * GPa - - A' (m_V m) * GPa) / h)%R with ((- GPa * (A' (m_V m + h) + q / GPa) - - GPa * (A' (m_V m) + q / GPa)) / h)%R by (f_equal; ring). exact HD.
Qed.
(** More pressure, less volume; the change of G is between V2 dP and V1 dP. *)
Lemma two_minima fits V D y1 c f1 f2 v1 v2 : linear_fit fits V D -> length y1 = length V -> fits V y1 = Some f1 -> fits V (map (fun yv => fst yv + c * snd yv)%R (combine y1 V)) = Some f2 -> low f1 = Some v1 -> low f2 = Some v2 ->
  (c * v2 <= ev f2 0 v2 - ev f1 0 v1 <= c * v1)%R.
Proof.
  intros (LI & MI) L F1 F2 L1 L2. assert (E := LI y1 c f1 f2 L F1 F2). destruct (MI _ _ _ F1 L1) as (D1 & M1). destruct (MI _ _ _ F2 L2) as (D2 & M2). specialize (M1 v2 D2). specialize (M2 v1 D1). rewrite !E in *. lra.
Qed.
Theorem C89_monotone g g' ret D t p1 p2 q1 q2 : reach GPa eV kb g -> g_case g = "1d" -> run GPa eV kb (CallG None true) g = Some (g', ret) -> (0 < GPa)%R -> linear_fit (f_1dG (g_fit g)) (g_V g) D ->
  t < length (g_T g) -> nth_error (g_P g) p1 = Some q1 -> nth_error (g_P g) p2 = Some q2 -> (q1 < q2)%R ->
  exists v1 v2 e1 e2, cell ret "/#opt/T/P/V" [t; p1] v1 /\ cell ret "/#opt/T/P/V" [t; p2] v2 /\ cell ret "/#opt/T/P/G" [t; p1] e1 /\ cell ret "/#opt/T/P/G" [t; p2] e2 /\
    (v2 <= v1)%R /\ (v2 * (q2 - q1) / GPa <= e2 - e1 <= v1 * (q2 - q1) / GPa)%R.
Proof.
  intros RE C H POS LF LT Q1 Q2 LQ. assert (SG : sound g) by now apply reach_sound. destruct (C89_G g g' ret RE C H) as (fa & _ & X). destruct (X t p1 q1 LT Q1) as (y1 & m1 & (LY1 & OY1) & _ & (f1 & F1 & LO1 & EE1 & _ & _) & (SV1 & SE1 & _ & _)). destruct (X t p2 q2 LT Q2) as (y2 & m2 & (LY2 & OY2) & _ & (f2 & F2 & LO2 & EE2 & _ & _) & (SV2 & SE2 & _ & _)).
  assert (LV : length (g_V g) = length (g_axes g)) by (destruct SG as (_ & _ & _ & FF & _); symmetry; exact (GibbsProofs.f2_len _ _ _ FF)).
  assert (EY : y2 = map (fun yv => fst yv + (q2 - q1) / GPa * snd yv)%R (combine y1 (g_V g))).
  { apply ext_err; [rewrite map_length, combine_length, LY2; lia|]. intros i x E. destruct (OY2 i x E) as (e & ha & u & v & E1 & E2 & E3 & E4 & ->). assert (IL : i < length y1) by (rewrite LY1, <- LY2; apply nth_error_Some; congruence). destruct (nth_error y1 i) as [x1|] eqn:EX; [|apply nth_error_None in EX; lia].
    destruct (OY1 i x1 EX) as (e' & ha' & u' & v' & E1' & E2' & E3' & E4' & ->). rewrite nth_error_map. assert (CB : nth_error (combine y1 (g_V g)) i = Some ((e' + u' + v' * q1 / GPa)%R, v')) by (clear - EX E4'; revert EX E4'; generalize (g_V g) as W; revert i; induction y1 as [|a y1 IH]; intros [|i] [|w W] A B; try discriminate; cbn in *; [congruence|now apply IH]).
    rewrite CB. cbn [option_map fst snd]. f_equal. rewrite E1 in E1'. injection E1' as <-. rewrite E2 in E2'. injection E2' as <-. rewrite E3 in E3'. injection E3' as <-. rewrite E4 in E4'. injection E4' as <-. field. lra. }
  rewrite EY in F2. assert (TM := two_minima _ _ _ _ _ _ _ _ _ LF (eq_trans LY1 (eq_sym LV)) F1 F2 LO1 LO2). rewrite <- EE1, <- EE2 in TM.
  exists (m_V m1), (m_V m2), (m_E m1), (m_E m2). repeat (split; [assumption|]). split.
  - destruct TM as (T1 & T2). assert (CP : (0 < (q2 - q1) / GPa)%R) by (apply Rdiv_lt_0_compat; lra). apply (Rmult_le_reg_l _ _ _ CP). lra.
  - replace (m_V m2 * (q2 - q1) / GPa)%R with ((q2 - q1) / GPa * m_V m2)%R by (field; lra). replace (m_V m1 * (q2 - q1) / GPa)%R with ((q2 - q1) / GPa * m_V m1)%R by (field; lra). exact TM.
Qed.
(** Two axes: the energies are scaled before the fit, but the stored values are those of a fit of
    the energies themselves. *)
Lemma lmin_le l m x : lmin l = Some m -> In x l -> (m <= x)%R.
Proof.
  destruct l as [|a l]; [discriminate|]. cbn [lmin]. intros H I. injection H as <-. revert a x I. induction l as [|b l IH]; intros a x I; cbn [fold_left]; [destruct I as [->|[]]; lra|]. destruct I as [->|[->|I]].
  - apply Rle_trans with (Rmin x b); [apply IH; now left|apply Rmin_l].
  - apply Rle_trans with (Rmin a x); [apply IH; now left|apply Rmin_r].
  - apply IH. now right.
Qed.
Lemma lmax_ge l m x : lmax l = Some m -> In x l -> (x <= m)%R.
Proof.
  destruct l as [|a l]; [discriminate|]. cbn [lmax]. intros H I. injection H as <-. revert a x I. induction l as [|b l IH]; intros a x I; cbn [fold_left]; [destruct I as [->|[]]; lra|]. destruct I as [->|[->|I]].
  - apply Rle_trans with (Rmax x b); [apply Rmax_l|apply IH; now left].
  - apply Rle_trans with (Rmax a x); [apply Rmax_r|apply IH; now left].
  - apply IH. now right.
Qed.
Theorem C89_two_axes g g' ret D : reach GPa eV kb g -> g_case g = "2d" -> run GPa eV kb (CallG None true) g = Some (g', ret) -> affine_fit (f_2dG (g_fit g)) (g_axes g) D ->
  forall t p q, t < length (g_T g) -> nth_error (g_P g) p = Some q ->
    exists y fit xopt a0 a1 v, on_grid g (gibbs_energy GPa g t q) y /\ f_2dG (g_fit g) (g_axes g) y = Some fit /\ D xopt /\ (forall x, D x -> (ev2 fit xopt <= ev2 fit x)%R) /\
      nth_error xopt 0 = Some a0 /\ nth_error xopt 1 = Some a1 /\ g_vol g xopt = Some v /\
      cell ret "/#opt/T/P/ax0" [t; p] a0 /\ cell ret "/#opt/T/P/ax1" [t; p] a1 /\ cell ret "/#opt/T/P/V" [t; p] v /\ cell ret "/#opt/T/P/G" [t; p] (ev2 fit xopt).
Proof.
  intros RE C H (AF & MI) t p q LT Q. assert (SG : sound g') by (apply reach_sound; exact (reach_call _ _ _ _ _ _ _ RE H)). apply run_inv in H as (S1 & H). apply set_fitax_inv in S1 as (fa & -> & _). set (g' := Gibbs _ _ _ _ _ _ _ _ _ _ _) in *.
  destruct SG as (N3 & LE & LV & FV & FA & LF). apply calc_G_spec in H as (ret0 & GI & _ & H & _ & _); [|lia]. assert (LP : p < nP g') by (apply nth_error_Some; cbn; congruence). destruct (H t p LT LP) as (f & q2 & F & Q2 & L & G & FO). change (g_P g') with (g_P g) in Q2. rewrite Q in Q2. injection Q2 as <-. destruct (FO eq_refl) as (ws & FO1 & W).
  set (y := shifted GPa g' f q) in *. assert (OG : on_grid g (gibbs_energy GPa g t q) y).
  { split; [exact L|]. intros i x X. apply shifted_nth in X as (a & v & A & B & ->). destruct (F_column g' true ret0 t f GI LT F i a A) as (e & ha & u & E1 & E2 & E3 & ->). exists e, ha, u, v. repeat (split; [assumption|]). reflexivity. }
  clearbody y. unfold fit_opt in FO1. change (g_case g') with (g_case g) in FO1. rewrite C in FO1. cbn [String.eqb Ascii.eqb Bool.eqb] in FO1. destruct (negb _); [discriminate FO1|]. destruct (lmin y) as [mn|] eqn:EMN; [|discriminate FO1]. destruct (lmax y) as [mx|] eqn:EMX; [|discriminate FO1]. destruct (Req_EM_T mx mn) as [|NE]; [discriminate FO1|].
  change (f_2dG (g_fit g') (g_axes g')) with (f_2dG (g_fit g) (g_axes g)) in FO1. destruct (f_2dG (g_fit g) (g_axes g) _) as [f1|] eqn:EF; [|discriminate FO1]. destruct (low2 f1) as [xo|] eqn:EL; [|discriminate FO1]. change (g_vol g' xo) with (g_vol g xo) in FO1. destruct (nth_error xo 0) as [x0|] eqn:X0; [|discriminate FO1]. destruct (nth_error xo 1) as [x1|] eqn:X1; [|discriminate FO1]. destruct (g_vol g xo) as [v|] eqn:EV; [|discriminate FO1]. injection FO1 as <-.
  assert (POS : (0 < mx - mn)%R). { destruct y as [|a y]; [discriminate EMN|]. assert (A1 := lmin_le _ _ a EMN (or_introl eq_refl)). assert (A2 := lmax_ge _ _ a EMX (or_introl eq_refl)). lra. }
  destruct (AF y (/ (mx - mn))%R (- mn / (mx - mn))%R f1) as (f2 & F2 & EV2); [now apply Rinv_0_lt_compat| |].
  { rewrite <- EF. f_equal. apply map_ext. intros x. field. lra. }
  destruct (MI _ _ _ EF EL) as (DX & MX). exists y, f2, xo, x0, x1, v. split; [exact OG|]. split; [exact F2|]. split; [exact DX|]. split.
  { intros x DXX. specialize (MX x DXX). rewrite !EV2 in MX. apply (Rmult_le_reg_l (/ (mx - mn))); [now apply Rinv_0_lt_compat|lra]. }
  split; [exact X0|]. split; [exact X1|]. split; [exact EV|]. split; [apply (W (opt_key "/T/P" "ax0")); cbn; auto|]. split; [apply (W (opt_key "/T/P" "ax1")); cbn; auto|]. split; [apply (W (opt_key "/T/P" "V")); cbn; auto|].
  replace (ev2 f2 xo) with (ev2 f1 xo * (mx - mn) + mn)%R by (rewrite EV2; field; lra). apply (W (opt_key "/T/P" "G")). cbn. auto.
Qed.
(** Thermal expansion: the derivative of the fitted quantity over its value at every temperature,
    that is the logarithmic derivative if the fit goes through the points. *)
(** The names of the arrays follow the number of axes. *)
Lemma prefix_name g : 1 <= g_nax g <= 3 -> prefix g = grid_name (g_nax g).
Proof. intros N. unfold prefix. destruct (g_nax g) as [|[|[|[|n]]]]; try lia; reflexivity. Qed.
Lemma run_ret c g g' ret : reach GPa eV kb g -> run GPa eV kb c g = Some (g', ret) -> forall k e, g_ret g k = Some e -> ret k = Some e.
Proof.
  intros RE H k e E. apply run_inv in H as (S1 & H). apply set_fitax_inv in S1 as (fa & -> & _). set (g' := Gibbs _ _ _ _ _ _ _ _ _ _ _) in *. assert (E' : g_ret g' k = Some e) by exact E. destruct c as [b|b|u b].
  - unfold calc_F in H. destruct (loop _ _ _); [|discriminate H]. injection H as <-. unfold update. now rewrite E'.
  - unfold calc_H in H. destruct (loop _ _ _); [|discriminate H]. destruct (if b then _ else _); [|discriminate H]. injection H as <-. unfold update. now rewrite E'.
  - unfold calc_G, bind in H. destruct (match u with Some _ => _ | None => _ end); [|discriminate H]. destruct (loop _ _ _) as [d1|]; [|discriminate H]. destruct (if b then _ else _) as [d2|]; [|discriminate H]. injection H as <-. unfold update. now rewrite E'.
Qed.
Lemma cell_vec ret k l : ret k = Some (vec1 l) -> forall i x, cell ret k [i] x <-> nth_error l i = Some x.
Proof.
  intros E i x. split.
  - intros (s & f & E2 & _ & F). rewrite E in E2. injection E2 as <- <-. exact F.
  - intros N. eexists _, _. split; [exact E|]. split; [|exact N]. cbn [in_range]. rewrite andb_true_r. apply Nat.ltb_lt, nth_error_Some. congruence.
Qed.
(** Every result holds the input: temperatures, pressures, energies, volumes and axes. *)
Theorem C89_inputs T P etot phdos axes nax vol case defaults es g g1 c g2 ret : Forall (fun r => length r = nax) axes -> init T P etot phdos axes nax vol case defaults = Some g -> history GPa eV kb es g = Some g1 -> run GPa eV kb c g1 = Some (g2, ret) ->
  (forall i x, cell ret "/T/T" [i] x <-> nth_error T i = Some x) /\ (forall i x, cell ret "/P/P" [i] x <-> nth_error P i = Some x) /\
  (forall i x, cell ret (grid_name nax ++ "/Etot")%string [i] x <-> nth_error etot i = Some x) /\
  (forall i r, nth_error axes i = Some r -> exists v, vol r = Some v /\ cell ret (grid_name nax ++ "/V")%string [i] v) /\
  (forall i j x, cell ret (grid_name nax ++ grid_name nax)%string [i; j] x <-> exists r, nth_error axes i = Some r /\ nth_error r j = Some x).
Proof.
  intros FA I HI H. assert (RE0 : reach GPa eV kb g) by exact (reach_init _ _ _ _ _ _ _ _ _ _ _ _ _ FA I). apply init_inv in I as (V & cs & VV & N3 & _ & _ & ->).
  assert (K : forall es g, history GPa eV kb es g = Some g1 -> reach GPa eV kb g -> reach GPa eV kb g1 /\ g_T g1 = g_T g /\ g_P g1 = g_P g /\ g_etot g1 = g_etot g /\ g_axes g1 = g_axes g /\ g_nax g1 = g_nax g /\ g_V g1 = g_V g).
  { clear. induction es as [|[w|c] es IH]; intros g H RE; cbn [history] in H.
    - injection H as <-. auto 9.
    - exact (IH _ H (reach_set _ _ _ w g RE)).
    - destruct (run GPa eV kb c g) as [(g2, d)|] eqn:R1; [|discriminate H]. destruct (IH _ H (reach_call _ _ _ _ _ _ _ RE R1)) as (A & B). apply run_inv in R1 as (S1 & _). apply set_fitax_inv in S1 as (fa & -> & _). split; [exact A|exact B]. }
  destruct (K es _ HI RE0) as (RE & ET & EP & EE & EA & EN & EV). cbn in ET, EP, EE, EA, EN, EV. assert (R0 := run_ret c g1 g2 ret RE H). assert (PN : prefix g1 = grid_name nax) by (rewrite <- EN; apply prefix_name; rewrite EN; exact N3).
  assert (G : ret "/T/T" = Some (vec1 T) /\ ret "/P/P" = Some (vec1 P) /\ ret (grid_name nax ++ "/Etot")%string = Some (vec1 etot) /\ ret (grid_name nax ++ "/V")%string = Some (vec1 V) /\ ret (grid_name nax ++ grid_name nax)%string = Some (mat nax axes)).
  { rewrite <- PN. assert (PC : prefix g1 = "/ax0" \/ prefix g1 = "/ax0-ax1" \/ prefix g1 = "/ax0-ax1-ax2") by (unfold prefix; destruct (g_nax g1) as [|[|[|]]]; auto).
    repeat split; apply R0; unfold g_ret; rewrite ET, EP, EE, EA, EN, EV; unfold set; destruct PC as [->|[->| ->]]; reflexivity. }
  destruct G as (G1 & G2 & G3 & G4 & G5). split; [exact (cell_vec _ _ _ G1)|]. split; [exact (cell_vec _ _ _ G2)|]. split; [exact (cell_vec _ _ _ G3)|]. split.
  - intros i r Hr. assert (X : exists v, nth_error V i = Some v /\ vol r = Some v).
    { clear - VV Hr. revert i Hr. induction VV as [|a v axes V E VV IH]; intros [|i] Hr; try discriminate Hr; [injection Hr as <-; exists v; auto|exact (IH i Hr)]. }
    destruct X as (v & X1 & X2). exists v. split; [exact X2|]. now apply (cell_vec _ _ _ G4).
  - intros i j x. split.
    + intros (s & f & E2 & _ & F). rewrite G5 in E2. injection E2 as <- <-. cbn in F. destruct (nth_error axes i) as [r|]; [|discriminate F]. exists r. auto.
    + intros (r & X1 & X2). eexists _, _. split; [exact G5|]. split; [|cbn; now rewrite X1]. cbn [in_range]. rewrite andb_true_r. apply andb_true_iff. split; apply Nat.ltb_lt; [apply nth_error_Some; congruence|]. rewrite Forall_forall in FA. rewrite <- (FA r (nth_error_In _ _ X1)). apply nth_error_Some. congruence.
Qed.
(** calc_F: energies at every grid point and temperature *)
Theorem C89_F b g g' ret i t ha e T u : reach GPa eV kb g -> run GPa eV kb (CallF b) g = Some (g', ret) -> nth_error (g_vib g) i = Some ha -> nth_error (g_etot g) i = Some e -> nth_error (g_T g) t = Some T -> nth_error (fvib ha) t = Some u ->
  cell ret (grid_name (g_nax g) ++ "/T/F")%string [i; t] (e + u)%R /\ cell ret (grid_name (g_nax g) ++ "/T/Fvib")%string [i; t] u /\
  (b = true -> forall s c, nth_error (svib ha) t = Some s -> nth_error (cv ha) t = Some c ->
     cell ret (grid_name (g_nax g) ++ "/T/Svib")%string [i; t] s /\ cell ret (grid_name (g_nax g) ++ "/T/Evib")%string [i; t] (u + T * s)%R /\ cell ret (grid_name (g_nax g) ++ "/T/Cv")%string [i; t] c).
Proof.
  intros RE H HA EE TT U. assert (SG : sound g) by now apply reach_sound. rewrite <- prefix_name by exact (proj1 SG). apply run_inv in H as (S1 & H). apply set_fitax_inv in S1 as (fa & -> & _). set (g' := Gibbs _ _ _ _ _ _ _ _ _ _ _) in *. change (prefix g) with (prefix g').
  apply calc_F_spec in H as (A & _ & _). destruct (A i) as (ha' & e' & X1 & X2 & _ & X4); [unfold npoints; cbn; destruct SG as (_ & <- & _); apply nth_error_Some; congruence|]. cbn in X1, X2. rewrite HA in X1. injection X1 as <-. rewrite EE in X2. injection X2 as <-.
  assert (CA : forall (f : R -> R -> R) a c x y, nth_error a t = Some x -> nth_error c t = Some y -> nth_error (map (fun xy => f (fst xy) (snd xy)) (combine a c)) t = Some (f x y)).
  { clear. induction t as [|t IH]; intros f [|a0 a] [|c0 c] x y A B; try discriminate; cbn in *; [congruence|]. now apply IH. }
  split; [|split].
  - apply (X4 "F" (map (Rplus e) (fvib ha)) t); [|apply (map_nth_error (Rplus e)); exact U]. unfold F_rows. destruct b; cbn; auto.
  - apply (X4 "Fvib" (fvib ha) t); [|exact U]. unfold F_rows. destruct b; cbn; auto.
  - intros -> s c S0 C0. split; [|split].
    + apply (X4 "Svib" (svib ha) t); [|exact S0]. unfold F_rows. cbn. auto 9.
    + apply (X4 "Evib" (add (fvib ha) (mul (g_T g) (svib ha))) t); [unfold F_rows; cbn; auto 9|]. unfold add. apply CA; [exact U|]. unfold mul. apply (CA Rmult); assumption.
    + apply (X4 "Cv" (cv ha) t); [|exact C0]. unfold F_rows. cbn. auto 9.
Qed.
Lemma run_G u b g g' ret : reach GPa eV kb g -> run GPa eV kb (CallG u b) g = Some (g', ret) -> sound g' /\ calc_G GPa eV kb g' u b = Some ret /\ g_T g' = g_T g /\ g_P g' = g_P g /\ g_fit g' = g_fit g /\ g_axes g' = g_axes g /\ g_nax g' = g_nax g /\ g_V g' = g_V g /\ g_etot g' = g_etot g /\ g_vib g' = g_vib g.
Proof.
  intros RE H. split; [apply reach_sound; exact (reach_call _ _ _ _ _ _ _ RE H)|]. apply run_inv in H as (S1 & H). apply set_fitax_inv in S1 as (fa & -> & _). split; [exact H|]. auto 20.
Qed.
Theorem C89_alpha u g g' ret name s0 f0 p : reach GPa eV kb g -> run GPa eV kb (CallG u true) g = Some (g', ret) -> In name ["ax0"; "ax1"; "ax2"; "V"] -> ret ("/#opt/T/P/" ++ name)%string = Some (EArr s0 f0) -> p < length (g_P g) ->
  exists x fit, length x = length (g_T g) /\ f_alpha (g_fit g) (g_T g) x = Some fit /\ forall t T v, nth_error (g_T g) t = Some T -> nth_error x t = Some v ->
    cell ret ("/#opt/T/P/" ++ name)%string [t; p] v /\ exists a, cell ret ("/#opt/T/P/alpha_" ++ name)%string [t; p] a /\ (a = ev fit 1 T / v)%R /\
      ((0 < v)%R -> ev fit 0 T = v -> derivable_pt_lim (ev fit 0) T (ev fit 1 T) -> derivable_pt_lim (fun s => ln (ev fit 0 s)) T a).
Proof.
  intros RE H NM EA LP. apply run_G in H as (SG & H & ET & EP & EF & _); [|exact RE]. apply calc_G_spec in H as (ret0 & _ & _ & _ & H & _); [|destruct SG; lia]. destruct (H eq_refl) as (_ & AL & _). destruct (AL name NM) as [(EN & _)|AL1]; [change (opt_key "/T/P" name) with ("/#opt/T/P/" ++ name)%string in EN; congruence|].
  destruct (AL1 p) as (x & fit & G1 & F & G2); [unfold nP; rewrite EP; exact LP|]. rewrite EF, ET in F. rewrite ET in G2. assert (LX := proj1 (gets_cells _ _ _ _ G1)). rewrite down_len in LX. unfold nT in LX. rewrite ET in LX. exists x, fit. split; [exact LX|]. split; [exact F|]. intros t T v TT XX.
  assert (LT : t < nT g') by (unfold nT; rewrite ET; apply nth_error_Some; congruence). split.
  - destruct (proj2 (gets_cells _ _ _ _ G1) t [t; p]) as (v2 & V2 & CV); [now apply down_nth|]. rewrite XX in V2. injection V2 as <-. exact CV.
  - destruct (proj2 (gets_cells _ _ _ _ G2) t [t; p]) as (a & A & CA); [now apply down_nth|]. exists a. split; [exact CA|].
    assert (CB : nth_error (combine (g_T g) x) t = Some (T, v)) by (clear - TT XX; revert TT XX; generalize (g_T g) as W; revert t; induction x as [|a x IH]; intros [|i] [|w W] A B; try discriminate; cbn in *; [congruence|now apply IH]).
    rewrite nth_error_map, CB in A. cbn [option_map fst snd] in A. injection A as <-. split; [reflexivity|]. intros PV IP DV. replace (ev fit 1 T / v)%R with (/ v * ev fit 1 T)%R by (unfold Rdiv; ring). apply (derivable_pt_lim_comp (ev fit 0) ln); [exact DV|]. rewrite IP. apply derivable_pt_lim_ln. exact PV.
Qed.
(** The heat capacity is T dS/dT of the entropy S = -dG/dT, in units of kB (per atom or cell). *)
Theorem C89_Cp u g g' ret p : reach GPa eV kb g -> run GPa eV kb (CallG u true) g = Some (g', ret) -> p < length (g_P g) ->
  exists x fit, length x = length (g_T g) /\ f_C (g_fit g) (g_T g) (map (fun G => G * eV / kb)%R x) = Some fit /\ forall t T v, nth_error (g_T g) t = Some T -> nth_error x t = Some v ->
    cell ret "/#opt/T/P/G" [t; p] v /\ exists c, cell ret "/#opt/T/P/Cp" [t; p] c /\
      ((forall s, derivable_pt_lim (ev fit 1) s (ev fit 2 s)) -> exists dS, derivable_pt_lim (fun s => - ev fit 1 s)%R T dS /\ (c = T * dS)%R).
Proof.
  intros RE H LP. apply run_G in H as (SG & H & ET & EP & EF & _); [|exact RE]. apply calc_G_spec in H as (ret0 & _ & _ & _ & H & _); [|destruct SG; lia]. destruct (H eq_refl) as (_ & _ & CP).
  destruct (CP p) as (x & fit & G1 & F & G2); [unfold nP; rewrite EP; exact LP|]. rewrite EF, ET in F. rewrite ET in G2. assert (LX := proj1 (gets_cells _ _ _ _ G1)). rewrite down_len in LX. unfold nT in LX. rewrite ET in LX. exists x, fit. split; [exact LX|]. split; [exact F|]. intros t T v TT XX.
  assert (LT : t < nT g') by (unfold nT; rewrite ET; apply nth_error_Some; congruence). split.
  - destruct (proj2 (gets_cells _ _ _ _ G1) t [t; p]) as (v2 & V2 & CV); [now apply down_nth|]. rewrite XX in V2. injection V2 as <-. exact CV.
  - destruct (proj2 (gets_cells _ _ _ _ G2) t [t; p]) as (a & A & CA); [now apply down_nth|]. exists a. split; [exact CA|]. rewrite nth_error_map, TT in A. cbn [option_map] in A. injection A as <-. intros DV. exists (- ev fit 2 T)%R. split; [|ring]. apply derivable_pt_lim_opp. apply DV.
Qed.
(** Free energies given by the caller are used and returned as they are; other entries are kept. *)
Theorem C89_given u b g g' ret : reach GPa eV kb g -> run GPa eV kb (CallG (Some u) b) g = Some (g', ret) ->
  ret (prefix g ++ "/T/F")%string = u (prefix g ++ "/T/F")%string /\
  (forall k, ~ In k (new_keys g b) -> ~ In k (ret_keys g) -> ret k = u k) /\
  forall t p q, t < length (g_T g) -> nth_error (g_P g) p = Some q -> exists f, length f = length (g_axes g) /\ forall i a, nth_error f i = Some a -> cell u (prefix g ++ "/T/F")%string [i; t] a /\
    exists v, nth_error (g_V g) i = Some v /\ cell ret ("/T/P" ++ prefix g ++ "/G")%string [t; p; i] (a + v * q / GPa)%R.
Proof.
  intros RE H. apply run_G in H as (SG & H & ET & EP & EF & EA & EN & EV & _); [|exact RE]. assert (PR : prefix g' = prefix g) by (unfold prefix; now rewrite EN). apply calc_G_spec in H as (ret0 & GI & HF & H & _ & HO & _); [|destruct SG; lia]. cbn [given] in GI. subst ret0. unfold F_key in HF. rewrite PR in HF. split; [exact HF|]. split.
  - intros k N1 N2. assert (NK : new_keys g' b = new_keys g b) by (unfold new_keys, G_key, H_key; now rewrite PR). rewrite HO by now rewrite NK. apply update_none. apply g_ret_none. unfold ret_keys in *. now rewrite PR.
  - intros t p q LT Q. destruct (H t p) as (f & q2 & F & Q2 & L & G & _); [unfold nT; now rewrite ET|unfold nP; rewrite EP; apply nth_error_Some; congruence|]. rewrite EP, Q in Q2. injection Q2 as <-. unfold npoints in *. rewrite EA in *. unfold F_key, G_key in *. rewrite PR in *. destruct (gets_cells _ _ _ _ F) as (LF & CF). rewrite down_len in LF. exists f. split; [exact LF|].
    intros i a A. assert (IL : i < length (g_axes g)) by (rewrite <- LF; apply nth_error_Some; congruence). split.
    + destruct (CF i [i; t]) as (a2 & A2 & CA); [now apply down_nth|]. rewrite A in A2. injection A2 as <-. exact CA.
    + destruct (proj2 (gets_cells _ _ _ _ G) i ([t; p] ++ [i])) as (x & X & CX); [now apply across_nth|]. apply shifted_nth in X as (a2 & v & A2 & V & ->). rewrite A in A2. injection A2 as <-. rewrite EV in V. exists v. auto.
Qed.
(** ** No unset cells *)
Definition fullk (d : dict) (k : string) : Prop := forall s f idx, d k = Some (EArr s f) -> in_range s idx = true -> f idx <> None.
Lemma fullk_cells d k s f : d k = Some (EArr s f) -> (forall idx, in_range s idx = true -> exists x, cell d k idx x) -> fullk d k.
Proof. intros E H s2 f2 idx E2 IR. rewrite E in E2. injection E2 as <- <-. destruct (H idx IR) as (x & s3 & f3 & E3 & _ & X). rewrite E in E3. injection E3 as <- <-. congruence. Qed.
Lemma fullk_same d1 d2 k : d1 k = d2 k -> fullk d2 k -> fullk d1 k.
Proof. intros E H s f idx E2. apply H. congruence. Qed.
Lemma g_ret_full g k : sound g -> fullk (g_ret g) k.
Proof.
  intros (_ & _ & _ & _ & FA & _) s f idx E IR. unfold g_ret in E.
  assert (V1 : forall l, Some (vec1 l) = Some (EArr s f) -> f idx <> None) by (intros l EV; injection EV as <- <-; destruct idx as [|j [|]]; cbn in IR; try discriminate IR; [|now rewrite andb_false_r in IR]; rewrite andb_true_r in IR; apply Nat.ltb_lt in IR; now apply nth_error_Some).
  unfold set in E. destruct (String.eqb k _); [exact (V1 _ E)|]. destruct (String.eqb k _); [exact (V1 _ E)|]. destruct (String.eqb k _).
  - injection E as <- <-. destruct idx as [|a [|b [|]]]; cbn in IR; rewrite ?andb_false_r in IR; try discriminate IR. rewrite andb_true_r in IR. apply andb_true_iff in IR as (I1 & I2). apply Nat.ltb_lt in I1, I2. destruct (nth_error (g_axes g) a) as [r|] eqn:ER; [|apply nth_error_None in ER; lia]. rewrite Forall_forall in FA. specialize (FA r (nth_error_In _ _ ER)). apply nth_error_Some. lia.
  - destruct (String.eqb k _); [exact (V1 _ E)|]. destruct (String.eqb k _); [exact (V1 _ E)|discriminate E].
Qed.
Lemma range2 a b idx : in_range [a; b] idx = true -> exists i j, idx = [i; j] /\ i < a /\ j < b.
Proof. intros H. destruct idx as [|i [|j [|]]]; cbn in H; rewrite ?andb_false_r in H; try discriminate H. rewrite andb_true_r in H. apply andb_true_iff in H as (A & B). apply Nat.ltb_lt in A, B. eauto. Qed.
Lemma range3 a b c idx : in_range [a; b; c] idx = true -> exists i j k, idx = [i; j; k] /\ i < a /\ j < b /\ k < c.
Proof. intros H. destruct idx as [|i [|j [|k [|]]]]; cbn in H; rewrite ?andb_false_r in H; try discriminate H. rewrite andb_true_r in H. apply andb_true_iff in H as (A & H). apply andb_true_iff in H as (B & C). apply Nat.ltb_lt in A, B, C. eauto 9. Qed.
Lemma range1 a idx : in_range [a] idx = true -> exists i, idx = [i] /\ i < a.
Proof. intros H. destruct idx as [|i [|]]; cbn in H; rewrite ?andb_false_r in H; try discriminate H. rewrite andb_true_r in H. apply Nat.ltb_lt in H. eauto. Qed.
Lemma calc_F_full g b ret : sound g -> calc_F g b = Some ret -> full ret.
Proof.
  intros SG H. apply calc_F_spec in H as (A & B & C). intros k. destruct (in_dec string_dec k (map (T_key g) (F_names b))) as [I|I]; [|apply (fullk_same ret (g_ret g) k (B k I)); now apply g_ret_full].
  apply in_map_iff in I as (name & <- & I). destruct (C name I) as (f & E). apply (fullk_cells ret _ _ _ E). intros idx IR. apply range2 in IR as (i & t & -> & LI & LT). destruct (A i LI) as (ha & e & _ & _ & FL & W).
  assert (IN : exists vs, In (name, vs) (F_rows g b ha e)) by (clear - I; unfold F_rows; destruct b; cbn in I |- *; repeat (destruct I as [<-|I]; [eexists; eauto 7|]); destruct I). destruct IN as (vs & IN). rewrite Forall_forall in FL. specialize (FL _ IN). cbn in FL. destruct (nth_error vs t) as [x|] eqn:EX; [|apply nth_error_None in EX; lia]. exists x. exact (W name vs t x IN EX).
Qed.
(** fit_opt stores all arrays which stay *)
Lemma fit_opt_covers g gg prfx sym idx ws name : 1 <= g_nax g <= 3 -> In name ["ax0"; "ax1"; "ax2"; "V"; sym; "B"] -> fit_opt GPa g gg prfx sym idx = Some ws -> not_calc g prfx (fun _ => None) (opt_key prfx name) = None -> exists v, In (opt_key prfx name, idx, v) ws.
Proof.
  intros N3 NM H NC. unfold fit_opt in H. unfold not_calc in NC. destruct (String.eqb (g_case g) "1d") eqn:C1.
  - destruct (f_1dG _ _ _) as [fit|]; [|discriminate H]. destruct (low fit) as [vopt|]; [|discriminate H]. destruct (g_fitax g) as [fa|]; [|discriminate H]. destruct (opt_map _ _) as [axs|] eqn:E; [|discriminate H]. injection H as <-.
    assert (AXS : forall i, i < g_nax g -> exists v, In (opt_key prfx (ax i), idx, v) axs).
    { intros i L. destruct (opt_map_seq _ _ _ E) as (_ & O). destruct (O i L) as (y & Y1 & Y2). destruct (nth_error fa i) as [f|]; [|discriminate Y2]. injection Y2 as <-. exists (ev f 0 vopt). exact (nth_error_In _ _ Y1). }
    assert (INAX : forall i, name = ax i -> i < g_nax g -> exists v, In (opt_key prfx name, idx, v) ((opt_key prfx "V", idx, vopt) :: (opt_key prfx sym, idx, ev fit 0 vopt) :: axs ++ [(opt_key prfx "B", idx, (vopt * ev fit 2 vopt * GPa)%R)])) by (intros i -> L; destruct (AXS i L) as (v & I); exists v; right; right; apply in_or_app; now left).
    cbn [In] in NM. destruct NM as [<-|[<-|[<-|[<-|[<-|[<-|[]]]]]]].
    + apply (INAX 0); [reflexivity|lia].
    + destruct (g_nax g) as [|[|n]] eqn:EN; [lia| |apply (INAX 1); [reflexivity|lia]]. rewrite set_other in NC by (intros X; apply opt_key_inj in X; discriminate X). rewrite set_same in NC. discriminate NC.
    + destruct (g_nax g) as [|[|[|n]]] eqn:EN; [lia| | |apply (INAX 2); [reflexivity|lia]]; rewrite set_same in NC; discriminate NC.
    + eexists. now left.
    + eexists. right. now left.
    + eexists. right. right. apply in_or_app. right. now left.
  - destruct (String.eqb (g_case g) "2d"); [|discriminate H]. destruct (Nat.eqb_spec (g_nax g) 2) as [E2|]; [|discriminate H]. cbn [negb] in H. destruct (lmin gg) as [mn|]; [|discriminate H]. destruct (lmax gg) as [mx|]; [|discriminate H]. destruct (Req_EM_T mx mn); [discriminate H|]. destruct (f_2dG _ _ _) as [fit|]; [|discriminate H]. destruct (low2 fit) as [xo|]; [|discriminate H].
    destruct (nth_error xo 0) as [x0|]; [|discriminate H]. destruct (nth_error xo 1) as [x1|]; [|discriminate H]. destruct (g_vol g xo) as [u|]; [|discriminate H]. injection H as <-. rewrite E2 in NC.
    cbn [In] in NM. destruct NM as [<-|[<-|[<-|[<-|[<-|[<-|[]]]]]]]; try (eexists; cbn [In]; eauto 6; fail).
    + rewrite set_other in NC by (intros X; apply opt_key_inj in X; discriminate X). rewrite set_same in NC. discriminate NC.
    + rewrite set_same in NC. discriminate NC.
Qed.
Lemma calc_H_full g b ret : sound g -> calc_H GPa g b = Some ret -> full ret.
Proof.
  intros SG H. assert (N3 := proj1 SG). apply calc_H_spec in H as (A & B & C & D & E); [|lia]. intros k. change (fullk ret k).
  destruct (string_dec k (H_key g)) as [->|N1].
  { destruct D as (f & D). apply (fullk_cells ret _ _ _ D). intros idx IR. apply range2 in IR as (p & i & -> & LP & LI). destruct (A p LP) as (q & Q & L & G & _). destruct (proj2 (gets_cells _ _ _ _ G) i ([p] ++ [i])) as (x & _ & CX); [now apply across_nth|]. exists x. exact CX. }
  destruct (in_dec string_dec k (opt_keys "/P" "H")) as [I|N2].
  { destruct (E k I) as [(_ & EN)|(NC & E1 & E2)]; [intros s f idx X; congruence|]. destruct b; [|specialize (E2 eq_refl); intros s f idx X; congruence]. destruct (E1 eq_refl) as (f & EF). apply (fullk_cells ret _ _ _ EF). intros idx IR. apply range1 in IR as (p & -> & LP). destruct (A p LP) as (q & Q & L & G & FO). destruct (FO eq_refl) as (ws & FO1 & W).
    unfold opt_keys in I. apply in_map_iff in I as (name & <- & I). destruct (fit_opt_covers g _ _ _ _ _ name N3 I FO1 NC) as (v & V). exists v. exact (W _ _ _ V). }
  destruct (in_dec string_dec k (ret_keys g)) as [I|N4]; [apply (fullk_same ret (g_ret g) k (C k I)); now apply g_ret_full|]. intros s f idx X. rewrite B in X; [discriminate X|]. cbn [In]. rewrite in_app_iff. intuition.
Qed.
Theorem C89_full c g g' ret : reach GPa eV kb g -> run GPa eV kb c g = Some (g', ret) -> match c with CallG (Some u) _ => full u | _ => True end -> full ret.
Proof.
  intros RE H. assert (SG : sound g') by (apply reach_sound; exact (reach_call _ _ _ _ _ _ _ RE H)). apply run_inv in H as (_ & H). destruct c as [b|b|u b].
  - intros _. exact (calc_F_full g' b ret SG H).
  - intros _. exact (calc_H_full g' b ret SG H).
  - intros U. assert (N3 := proj1 SG). apply calc_G_spec in H as (ret0 & GI & _ & A & B & C & D & E); [|lia]. assert (F0 : full ret0) by (destruct u as [u|]; [cbn in GI; subst ret0; exact U|exact (calc_F_full g' b ret0 SG GI)]). intros k. change (fullk ret k).
    destruct (string_dec k (G_key g')) as [->|N1].
    { destruct D as (f & D). apply (fullk_cells ret _ _ _ D). intros idx IR. apply range3 in IR as (t & p & i & -> & LT & LP & LI). destruct (A t p LT LP) as (f1 & q & _ & Q & L & G & _). destruct (proj2 (gets_cells _ _ _ _ G) i ([t; p] ++ [i])) as (x & _ & CX); [now apply across_nth|]. exists x. exact CX. }
    destruct (in_dec string_dec k (new_keys g' b)) as [I|N2].
    + destruct I as [I|I]; [congruence|]. destruct b; [|destruct I]. destruct (E eq_refl) as ((h & EH & HK) & (fc & EC) & EA & EO). destruct (B eq_refl) as (B1 & B2 & B3). assert (LIFT : forall kk, In kk (H_key g' :: opt_keys "/P" "H") -> fullk ret kk) by (intros kk J; apply (fullk_same ret h kk (HK kk J)); exact (calc_H_full g' true h SG EH kk)).
      destruct I as [<-|[<-|I]]; [apply LIFT; now left| |].
      * apply (fullk_cells ret _ _ _ EC). intros idx IR. apply range2 in IR as (t & p & -> & LT & LP). destruct (B3 p LP) as (x & fit & _ & _ & G). destruct (proj2 (gets_cells _ _ _ _ G) t [t; p]) as (y & _ & CY); [now apply down_nth|]. now exists y.
      * apply in_app_or in I as [I|I]; [|apply in_app_or in I as [I|I]; [apply LIFT; now right|]].
        -- destruct (EO k I) as [(_ & EN)|(NC & f & EF)]; [intros s f idx X; congruence|]. apply (fullk_cells ret _ _ _ EF). intros idx IR. apply range2 in IR as (t & p & -> & LT & LP). destruct (A t p LT LP) as (f1 & q & _ & Q & L & G & FO). destruct (FO eq_refl) as (ws & FO1 & W).
           unfold opt_keys in I. apply in_map_iff in I as (name & <- & I). destruct (fit_opt_covers g' _ _ _ _ _ name N3 I FO1 NC) as (v & V). exists v. exact (W _ _ _ V).
        -- apply in_map_iff in I as (name & <- & I). destruct (EA name I) as [EN|(f & EF)]; [intros s f idx X; congruence|]. apply (fullk_cells ret _ _ _ EF). intros idx IR. apply range2 in IR as (t & p & -> & LT & LP). destruct (B2 name I) as [(_ & EN)|B4]; [congruence|]. destruct (B4 p LP) as (x & fit & _ & _ & G). destruct (proj2 (gets_cells _ _ _ _ G) t [t; p]) as (y & _ & CY); [now apply down_nth|]. now exists y.
    + intros s f idx X IR. rewrite C in X by exact N2. unfold update in X. destruct (g_ret g' k) as [e|] eqn:EG; [injection X as ->; exact (g_ret_full g' k SG s f idx EG IR)|exact (F0 k s f idx X IR)].
Qed.
(** Which fits are used: those set last, but the axes are fitted once, with the function set at the
    time of the first calculation. *)
Lemma run_fitted c g l : g_fitax g = Some l -> run GPa eV kb c g = option_map (fun d => (g, d)) (match c with CallF b => calc_F g b | CallH b => calc_H GPa g b | CallG r b => calc_G GPa eV kb g r b end).
Proof. intros E. unfold run, set_fitax. rewrite E. destruct c; cbn [option_map]; now destruct (_ : option dict). Qed.
Lemma last_set w es f : last_fits (ESet w :: es) f = last_fits es (set_fit w f).
Proof. now destruct w. Qed.
Lemma last_call c es f : last_fits (ECall c :: es) f = last_fits es f.
Proof. reflexivity. Qed.
Lemma last_nil f : last_fits [] f = f.
Proof. now destruct f. Qed.
Lemma axis_set w es f : axis_fit (ESet w :: es) f = axis_fit es (set_fit w f).
Proof. now destruct w. Qed.
Lemma history_fitted es : forall g l g1, g_fitax g = Some l -> history GPa eV kb es g = Some g1 -> g1 = with_fit g (last_fits es (g_fit g)).
Proof.
  induction es as [|[w|c] es IH]; intros g l g1 E H; cbn in H; rewrite ?last_set, ?last_call, ?last_nil.
  - injection H as <-. now destruct g.
  - exact (IH (set_fitfunc w g) l _ E H).
  - rewrite (run_fitted c g l E) in H. destruct (match c with CallF b => calc_F g b | CallH b => calc_H GPa g b | CallG r b => calc_G GPa eV kb g r b end) as [d|]; [|discriminate H]. exact (IH g l _ E H).
Qed.
Lemma snd_some {A B} (g : A) (o : option B) : option_map snd (option_map (fun d => (g, d)) o) = o.
Proof. now destruct o. Qed.
Lemma same_result c T P e vb axes nax vol V cs l a b x y cc d : option_map snd (run GPa eV kb c (Gibbs T P e vb axes nax vol V cs (Some l) (FitFuncs a b x cc d))) = option_map snd (run GPa eV kb c (Gibbs T P e vb axes nax vol V cs (Some l) (FitFuncs a b y cc d))).
Proof. rewrite !(run_fitted c _ l) by reflexivity. rewrite !snd_some. destruct c; reflexivity. Qed.
Theorem C89_history T P etot phdos axes nax vol case defaults es g g1 c : init T P etot phdos axes nax vol case defaults = Some g -> history GPa eV kb es g = Some g1 ->
  let F := last_fits es defaults in
  option_map snd (run GPa eV kb c g1) = option_map snd (run GPa eV kb c (with_fit g (FitFuncs (f_1dG F) (f_2dG F) (axis_fit es defaults) (f_alpha F) (f_C F)))).
Proof.
  intros I H. apply init_inv in I as (V & cs & _ & _ & _ & _ & ->). cbn zeta. revert defaults H. induction es as [|[w|c1] es IH]; intros f H; cbn [history] in *; rewrite ?last_set, ?last_call, ?last_nil, ?axis_set.
  - injection H as <-. unfold with_fit; cbn. now destruct f.
  - specialize (IH (set_fit w f) H). exact IH.
  - destruct (run GPa eV kb c1 _) as [(g2, d)|] eqn:R1; [|discriminate H]. apply run_inv in R1 as (S1 & _). unfold set_fitax in S1. cbn [g_fitax g_axes g_fit g_V g_nax] in S1. destruct (opt_map _ _) as [l|] eqn:EL; [|discriminate S1]. injection S1 as <-.
    apply (history_fitted es _ l) in H; [|reflexivity]. subst g1. unfold with_fit. cbn [g_T g_P g_etot g_vib g_axes g_nax g_vol g_V g_case g_fitax g_fit]. change (axis_fit (ECall c1 :: es) f) with (f_1dax f). destruct (last_fits es f) as [a b x cc dd]. cbn [f_1dG f_2dG f_alpha f_C]. rewrite (same_result c _ _ _ _ _ _ _ _ _ l a b x (f_1dax f) cc dd). rewrite (run_fitted c _ l) by reflexivity. unfold run, set_fitax. cbn [g_T g_P g_etot g_vib g_axes g_nax g_vol g_V g_case g_fitax g_fit f_1dax]. rewrite EL. destruct c; cbn [option_map]; now destruct (_ : option dict).
Qed.
(** What calc_all=True refuses: three axes unless case='1d', unknown cases, '2d' with other than
    two axes, and in two dimensions data which are all the same. *)
Lemma loop_fail {I} (body : I -> dict -> option dict) x l d : body x d = None -> loop body (x :: l) d = None.
Proof. intros H. cbn. now rewrite H. Qed.
Lemma calc_H_none g : g_P g <> [] -> (forall gg prfx s i, fit_opt GPa g gg prfx s i = None) -> calc_H GPa g true = None.
Proof.
  intros NE FO. unfold calc_H. destruct (loop (h_body GPa g) _ _) as [d|]; [|reflexivity]. unfold nP. destruct (g_P g) as [|p P] eqn:EP; [congruence|]. cbn [length seq]. rewrite loop_fail; [reflexivity|]. unfold h_opt. destruct (gets _ _ _); [|reflexivity]. unfold fit_opt_store. now rewrite FO.
Qed.
Lemma calc_G_none g u : calc_H GPa g true = None -> calc_G GPa eV kb g u true = None.
Proof. intros H. unfold calc_G, bind. destruct (match u with Some d => Some d | None => calc_F g true end) as [d|]; [|reflexivity]. destruct (loop _ _ _) as [d1|]; [|reflexivity]. now rewrite H. Qed.
Lemma const_min_max l (c mn mx : R) : Forall (fun x => x = c) l -> lmin l = Some mn -> lmax l = Some mx -> mx = mn.
Proof.
  intros F A B. destruct l as [|x l]; [discriminate A|]. cbn in A, B. inversion F as [|? ? -> F2]; subst. injection A as <-. injection B as <-. clear F. induction F2 as [|y l -> F2 IH]; [reflexivity|]. cbn. rewrite Rmax_left, Rmin_left by apply Rle_refl. exact IH.
Qed.
Theorem C89_refuses g : g_nax g <= 3 -> g_P g <> [] -> (g_case g <> "1d"%string /\ (g_case g <> "2d"%string \/ g_nax g <> 2) -> run GPa eV kb (CallH true) g = None /\ forall u, run GPa eV kb (CallG u true) g = None) /\
  (g_case g = "2d"%string -> forall c, Forall (fun r => fst r + snd r * nth 0 (g_P g) 0 / GPa = c)%R (combine (g_etot g) (g_V g)) -> run GPa eV kb (CallH true) g = None /\ forall u, run GPa eV kb (CallG u true) g = None).
Proof.
  intros N3 NE. assert (LIFT : (forall l, calc_H GPa (Gibbs (g_T g) (g_P g) (g_etot g) (g_vib g) (g_axes g) (g_nax g) (g_vol g) (g_V g) (g_case g) (Some l) (g_fit g)) true = None) -> run GPa eV kb (CallH true) g = None /\ forall u, run GPa eV kb (CallG u true) g = None).
  { intros N. unfold run. destruct (set_fitax g) as [g'|] eqn:S1; [|auto]. apply set_fitax_inv in S1 as (l & -> & _). rewrite N. split; [reflexivity|]. intros u. now rewrite (calc_G_none _ u (N l)). }
  split.
  - intros (N1 & N2). apply LIFT. intros l. apply calc_H_none; [exact NE|]. intros gg prfx s i. unfold fit_opt. cbn [g_case g_nax]. rewrite (proj2 (String.eqb_neq _ _) N1). destruct (String.eqb_spec (g_case g) "2d") as [E|]; [|reflexivity]. destruct N2 as [N2|N2]; [contradiction|]. now rewrite (proj2 (Nat.eqb_neq _ _) N2).
  - intros C2 c AL. apply LIFT. intros l. set (g' := Gibbs _ _ _ _ _ _ _ _ _ _ _). destruct (calc_H GPa g' true) as [ret|] eqn:EH; [|reflexivity]. exfalso. apply calc_H_spec in EH as (A & _); [|exact N3]. destruct (A 0) as (q & Q & _ & _ & FO); [unfold nP; cbn [g_P g']; destruct (g_P g); [congruence|cbn; lia]|]. destruct (FO eq_refl) as (ws & FO1 & _).
    assert (Q0 : q = nth 0 (g_P g) 0%R) by (symmetry; apply nth_error_nth; exact Q). assert (AG : Forall (fun x => x = c) (shifted GPa g' (g_etot g') q)).
    { unfold shifted, add. cbn [g_V g_etot g']. rewrite Q0. clear - AL. revert AL. generalize (g_V g) as V. induction (g_etot g) as [|a e IH]; intros [|v V] AL; cbn in *; try constructor; [now inversion AL|apply IH; now inversion AL]. }
    unfold fit_opt in FO1. cbn [g_case g' g_nax] in FO1. rewrite C2 in FO1. cbn [String.eqb Ascii.eqb Bool.eqb] in FO1. destruct (negb (g_nax g =? 2)); [discriminate FO1|]. destruct (lmin _) as [mn|] eqn:E1; [|discriminate FO1]. destruct (lmax _) as [mx|] eqn:E2; [|discriminate FO1]. destruct (Req_EM_T mx mn) as [|NQ]; [discriminate FO1|]. apply NQ. exact (const_min_max _ c mn mx AG E1 E2).
Qed.
End C89.
(** ** Examples *)
(** the parabola x^2 + ... through two points *)
Definition parab (V y : list R) : option fit1 :=
  match V, y with
  | [a; b], [u; v] => let s := ((v - u) / (b - a))%R in
      Some (Fit1 (fun d x => match d with 0 => u + s * (x - a) + (x - a) * (x - b) | 1 => s + 2 * x - a - b | 2 => 2 | _ => 0 end)%R (Some ((a + b - s) / 2)%R))
  | _, _ => None
  end.
Definition bowl (axes : list (list R)) (y : list R) : option fit2 :=
  match y with u :: v :: _ => Some (Fit2 (fun x => u + Rabs (v - u) * ((nth 0 x 0 - 1) * (nth 0 x 0 - 1) + (nth 1 x 0 - 2) * (nth 1 x 0 - 2)))%R (Some [1; 2]%R)) | _ => None end.
Definition ex_fits := FitFuncs parab bowl parab parab parab.
Definition ex_vib := Vib [0; -1]%R [0; 1]%R [0; 2]%R.
Definition ex_case case etot := init [100; 300]%R [0; 2]%R etot [ex_vib; ex_vib] [[1]; [3]]%R 1 (fun r => nth_error r 0) case ex_fits.
Definition ex_g := Gibbs [100; 300]%R [0; 2]%R [1; 1]%R [ex_vib; ex_vib] [[1]; [3]]%R 1 (fun r => nth_error r 0) [1; 3]%R "1d" None ex_fits.
Example ex_reach : reach 160 1 1 ex_g.
Proof. apply (reach_init _ _ _ [100; 300]%R [0; 2]%R [1; 1]%R [ex_vib; ex_vib] [[1]; [3]]%R 1 (fun r => nth_error r 0) None ex_fits); [repeat constructor|reflexivity]. Qed.
Definition is_some {A} (o : option A) : bool := match o with Some _ => true | None => false end.
Lemma is_some_ex {A B} (o : option (A * B)) : is_some o = true -> exists a b, o = Some (a, b).
Proof. destruct o as [(a, b)|]; [eauto|discriminate]. Qed.
Example ex_runs : exists g' ret, run 160 1 1 (CallG None true) ex_g = Some (g', ret).
Proof. apply is_some_ex. vm_compute. reflexivity. Qed.
Lemma parab_exact a b c : (a <> b)%R -> forall k fit, parab [a; b] (map (fun v => (v - 2) * (v - 2) + k + c * v)%R [a; b]) = Some fit -> exact_fit fit (fun v => (v - 2) * (v - 2) + k + c * v)%R.
Proof.
  intros N k fit H. injection H as <-. assert (Z : (b - a <> 0)%R) by lra. split; [|split; [|split]].
  - intros x. cbn [ev]. field. exact Z.
  - intros x. cbn [ev]. set (u := (_ + _ + c * a)%R). set (s := (_ / _)%R).
    replace (s + 2 * x - a - b)%R with (0 + (0 * (x - a) + s * (1 - 0)) + ((1 - 0) * (x - b) + (x - a) * (1 - 0)))%R by ring.
    apply (derivable_pt_lim_plus (fun x => u + s * (x - a))%R (fun x => (x - a) * (x - b))%R); [apply (derivable_pt_lim_plus (fun _ => u) (fun x => s * (x - a))%R); [apply derivable_pt_lim_const|apply (derivable_pt_lim_mult (fun _ => s) (fun x => x - a)%R); [apply derivable_pt_lim_const|]]|apply (derivable_pt_lim_mult (fun x => x - a)%R (fun x => x - b)%R)];
      apply (derivable_pt_lim_minus id (fun _ => _)); solve [apply derivable_pt_lim_id|apply derivable_pt_lim_const].
  - intros x. cbn [ev]. set (s := (_ / _)%R). replace (fun x => s + 2 * x - a - b)%R with (fun x => (s - a - b) + 2 * x)%R by (apply FunctionalExtensionality.functional_extensionality; intros; ring). assert (DD : derivable_pt_lim (fun x => (s - a - b) + 2 * x)%R x (0 + 2 * 1)%R) by (apply (derivable_pt_lim_plus (fun _ => _) (fun x => 2 * x)%R); [apply derivable_pt_lim_const|apply (derivable_pt_lim_scal id); apply derivable_pt_lim_id]). replace (0 + 2 * 1)%R with 2%R in DD by ring. exact DD.
  - intros v E. injection E as <-. set (v := (_ / 2)%R). replace 0%R with (((1 - 0) * (v - 2) + (v - 2) * (1 - 0)) + 0 + c * 1)%R by (unfold v; field; exact Z).
    apply (derivable_pt_lim_plus (fun v => (v - 2) * (v - 2) + k)%R (fun v => c * v)%R); [apply (derivable_pt_lim_plus (fun v => (v - 2) * (v - 2))%R (fun _ => k)); [apply (derivable_pt_lim_mult (fun v => v - 2)%R (fun v => v - 2)%R); apply (derivable_pt_lim_minus id (fun _ => _)); solve [apply derivable_pt_lim_id|apply derivable_pt_lim_const]|apply derivable_pt_lim_const]|apply (derivable_pt_lim_scal id); apply derivable_pt_lim_id].
Qed.
(** The pressure in the example, at 300 K and 2 GPa *)
Example ex_pressure : exists g' ret v b, run 160 1 1 (CallG None true) ex_g = Some (g', ret) /\ cell ret "/#opt/T/P/V" [1; 1] v /\ cell ret "/#opt/T/P/B" [1; 1] b /\ (- (2 * (v - 2)) * 160 = 2)%R.
Proof.
  destruct ex_runs as (g' & ret & H). destruct (C89_pressure 160 1 1 ex_g g' ret (fun v => (v - 2) * (v - 2) + -1)%R (fun v => 2 * (v - 2))%R 1 1 2 ex_reach eq_refl H) as (v & b & V & B & _ & E & _).
  - lra.
  - cbn; lia.
  - reflexivity.
  - intros i x (e & ha & f & v & E1 & E2 & E3 & E4 & ->). exists v. split; [exact E4|]. destruct i as [|[|i]]; cbn in E1, E2, E4; [| |destruct i; discriminate E1]; injection E1 as <-; injection E2 as <-; injection E4 as <-; cbn in E3; injection E3 as <-; lra.
  - intros v. replace (2 * (v - 2))%R with (((1 - 0) * (v - 2) + (v - 2) * (1 - 0)) + 0)%R by ring. apply (derivable_pt_lim_plus (fun v => (v - 2) * (v - 2))%R (fun _ => -1)%R); [apply (derivable_pt_lim_mult (fun v => v - 2)%R (fun v => v - 2)%R); apply (derivable_pt_lim_minus id (fun _ => _)); solve [apply derivable_pt_lim_id|apply derivable_pt_lim_const]|apply derivable_pt_lim_const].
  - intros c fit F. apply (parab_exact 1 3 c) with (k := (-1)%R); [lra|exact F].
  - exists g', ret, v, b. auto.
Qed.
Example ex_linear : linear_fit (f_1dG (g_fit ex_g)) (g_V ex_g) (fun _ => True).
Proof.
  split.
  - intros y c f1 f2 L F1 F2 x. cbn in L. destruct y as [|u [|v [|]]]; try discriminate L. cbn in F1, F2. injection F1 as <-. injection F2 as <-. cbn [ev]. field.
  - intros y f v F LO. split; [exact I|]. intros x _. cbn in F. destruct y as [|u [|w [|]]]; try discriminate F. injection F as <-. injection LO as <-. cbn [ev]. set (s := ((w - u) / (3 - 1))%R). assert (0 <= (x - (1 + 3 - s) / 2) * (x - (1 + 3 - s) / 2))%R by apply Rle_0_sqr. nra.
Qed.
Example ex_bowl axes : affine_fit bowl axes (fun x => length x = 2).
Proof.
  split.
  - intros y a b f1 P F. destruct y as [|u [|v y]]; try discriminate F. cbn in F. injection F as <-. eexists. split; [reflexivity|]. intros x. cbn [ev2]. replace (a * v + b - (a * u + b))%R with (a * (v - u))%R by ring. rewrite Rabs_mult, (Rabs_right a) by lra. ring.
  - intros y f v F LO. destruct y as [|u [|w y]]; try discriminate F. injection F as <-. injection LO as <-. split; [reflexivity|]. intros x LX. cbn [ev2 nth]. assert (A := Rabs_pos (w - u)). set (p := nth 0 x 0%R). set (q := nth 1 x 0%R). assert (B : (0 <= (p - 1) * (p - 1))%R) by apply Rle_0_sqr. assert (C : (0 <= (q - 2) * (q - 2))%R) by apply Rle_0_sqr. assert (D := Rmult_le_pos _ _ A B). assert (E := Rmult_le_pos _ _ A C). lra.
Qed.
Definition ex_g2 := Gibbs [100; 300]%R [0]%R [1; 3]%R [ex_vib; ex_vib] [[1; 2]; [3; 4]]%R 2 (fun r => nth_error r 0) [1; 3]%R "2d" None ex_fits.
Example ex_reach2 : reach 160 1 1 ex_g2.
Proof. apply (reach_init _ _ _ [100; 300]%R [0]%R [1; 3]%R [ex_vib; ex_vib] [[1; 2]; [3; 4]]%R 2 (fun r => nth_error r 0) None ex_fits); [repeat constructor|reflexivity]. Qed.
Example ex_runs2 : exists g' ret, run 160 1 1 (CallG None true) ex_g2 = Some (g', ret).
Proof.
  apply is_some_ex. assert (NE : forall x y : R, (x < y)%R -> Rmax x y = Rmin x y -> False) by (intros x y L E; rewrite Rmax_right, Rmin_left in E by lra; lra). cbv -[Req_EM_T Rplus Rmult Rinv Ropp Rminus Rdiv Rmin Rmax Rabs IZR].
  repeat match goal with |- context[Req_EM_T ?a ?b] => destruct (Req_EM_T a b) as [E|]; [exfalso; apply NE in E; [exact E|lra]|] end. reflexivity.
Qed.
(** A new fit function for the axes is not used once something was calculated. *)
Definition flat (c : R) (V y : list R) : option fit1 := Some (Fit1 (fun _ _ => c) (Some c)).
Theorem C89_stale_axis_refuted : exists g g1 f r1 r2, reach 160 1 1 g /\ history 160 1 1 [ECall (CallH true); ESet (W1dax f)] g = Some g1 /\
  option_map snd (run 160 1 1 (CallH true) g1) = Some r1 /\ option_map snd (run 160 1 1 (CallH true) (set_fitfunc (W1dax f) g)) = Some r2 /\
  cell r1 "/#opt/P/ax0" [0] 5 /\ cell r2 "/#opt/P/ax0" [0] 7.
Proof.
  set (g0 := with_fit ex_g (set_fit (W1dax (flat 5)) ex_fits)). assert (RE : reach 160 1 1 g0) by (apply (reach_set 160 1 1 (W1dax (flat 5)) ex_g); exact ex_reach).
  assert (E0 : exists a d, run 160 1 1 (CallH true) g0 = Some (a, d)) by (apply is_some_ex; vm_compute; reflexivity). destruct E0 as (a & d & E0).
  assert (EA : a = Gibbs (g_T g0) (g_P g0) (g_etot g0) (g_vib g0) (g_axes g0) (g_nax g0) (g_vol g0) (g_V g0) (g_case g0) (Some [Fit1 (fun _ _ => 5%R) (Some 5%R)]) (g_fit g0)) by (apply run_inv in E0 as (E0 & _); injection E0 as <-; reflexivity).
  set (g1 := set_fitfunc (W1dax (flat 7)) a). set (g2 := set_fitfunc (W1dax (flat 7)) g0).
  assert (R1 : reach 160 1 1 g1) by (apply reach_set; exact (reach_call _ _ _ _ _ _ _ RE E0)). assert (R2 : reach 160 1 1 g2) by now apply reach_set.
  assert (E1 : exists b r, run 160 1 1 (CallH true) g1 = Some (b, r)) by (apply is_some_ex; unfold g1; rewrite EA; vm_compute; reflexivity). assert (E2 : exists b r, run 160 1 1 (CallH true) g2 = Some (b, r)) by (apply is_some_ex; vm_compute; reflexivity).
  destruct E1 as (b1 & r1 & E1). destruct E2 as (b2 & r2 & E2). exists g0, g1, (flat 7), r1, r2. split; [exact RE|]. split; [cbn [history]; rewrite E0; reflexivity|]. split; [now rewrite E1|]. split; [change (set_fitfunc (W1dax (flat 7)) g0) with g2; now rewrite E2|]. split.
  - destruct (C89_H 160 1 1 g1 b1 r1 R1) as (fa & FA & X); [unfold g1; rewrite EA; reflexivity|exact E1|]. destruct (X 0 0%R) as (y & m & _ & _ & (fit & _ & _ & _ & _ & AX) & (_ & _ & _ & ST)); [unfold g1; rewrite EA; reflexivity|]. apply run_inv in E1 as (S1 & _). unfold g1 in S1. rewrite EA in S1. cbn in S1. injection S1 as <-. cbn in FA. injection FA as <-. apply (ST 0). rewrite AX. reflexivity.
  - destruct (C89_H 160 1 1 g2 b2 r2 R2 eq_refl E2) as (fa & FA & X). destruct (X 0 0%R) as (y & m & _ & _ & (fit & _ & _ & _ & _ & AX) & (_ & _ & _ & ST)); [reflexivity|]. apply run_inv in E2 as (S1 & _). cbn in S1. injection S1 as <-. cbn in FA. injection FA as <-. apply (ST 0). rewrite AX. reflexivity.
Qed.
(** free energies of the caller *)
Definition ex_user : dict := set "/ax0/T/F" (mat 2 [[5; 6]; [7; 8]]%R) (set "other" ENone (fun _ => None)).
Example ex_given : exists g' ret, run 160 1 1 (CallG (Some ex_user) true) ex_g = Some (g', ret) /\ ret "other" = Some ENone /\ cell ret "/ax0/T/F" [1; 0] 7 /\ full ret.
Proof.
  assert (E : exists g' ret, run 160 1 1 (CallG (Some ex_user) true) ex_g = Some (g', ret)) by (apply is_some_ex; vm_compute; reflexivity). destruct E as (g' & ret & E). exists g', ret. split; [exact E|]. destruct (C89_given 160 1 1 _ _ _ _ _ ex_reach E) as (A & B & _). split; [|split].
  - rewrite B; [reflexivity| |]; cbn; intuition discriminate.
  - cbn in A. eexists _, _. split; [exact A|]. split; reflexivity.
  - apply (C89_full 160 1 1 _ _ _ _ ex_reach E). intros k s f idx K IR. unfold ex_user, set in K. destruct (String.eqb k _); [|destruct (String.eqb k _); discriminate K]. injection K as <- <-. destruct idx as [|i [|j [|]]]; cbn in IR; rewrite ?andb_false_r in IR; try discriminate IR. destruct i as [|[|i]]; [| |discriminate IR]; destruct j as [|[|j]]; try discriminate IR; cbn; discriminate.
Qed.
(** refused *)
Example ex_refused : exists g, init [100]%R [0]%R [1; 3]%R [ex_vib; ex_vib] [[1; 2; 3]; [3; 4; 5]]%R 3 (fun r => nth_error r 0) None ex_fits = Some g /\ g_case g = "3d" /\ run 160 1 1 (CallH true) g = None /\ forall u, run 160 1 1 (CallG u true) g = None.
Proof. eexists. split; [reflexivity|]. split; [reflexivity|]. refine (proj1 (C89_refuses 160 1 1 _ _ _) _); [cbn; lia|discriminate|]. split; [discriminate|]. left. discriminate. Qed.

Print Assumptions C89_G.
Print Assumptions C89_H.
Print Assumptions C89_pressure.
Print Assumptions C89_monotone.
Print Assumptions C89_two_axes.
Print Assumptions C89_alpha.
Print Assumptions C89_Cp.
Print Assumptions C89_given.
Print Assumptions C89_full.
Print Assumptions C89_history.
Print Assumptions C89_refuses.
Print Assumptions C89_stale_axis_refuted.
Print Assumptions C89_inputs.
Print Assumptions C89_F.
