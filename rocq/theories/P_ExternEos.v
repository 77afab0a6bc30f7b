(** C94: fits by external programs *)
From Coq Require Import List Reals Lra Lia Bool Arith Ascii String.
From Verif Require Import Fit1D Fit1DSpec P_Fit1D ExternEos ExternEosSpec.
Import ListNotations.
Local Open Scope list_scope.
Local Open Scope R_scope.
Local Notation length := List.length.

Section WITH.
Variable brentq : (R -> R) -> R -> R -> option R.
Variable newton : (R -> R) -> R -> option R.
Variable splrep : list R -> list R -> option (nat -> R -> R).
Variable fitter : list R -> list R -> option (curve * curve).
Variable fac : R.
Notation drawn := (drawn_through splrep).
Notation fit_ := (fit_ splrep fitter fac).
Notation get_min_ := (get_min_ brentq newton splrep).
Notation acts := (acts brentq newton splrep fitter fac).
Notation act := (act brentq newton splrep fitter fac).

Lemma thru_iff c f : thru splrep c = Some f <-> drawn c f.
Proof.
  unfold thru. rewrite C90_spline. split.
  - intros (g & -> & G & _ & S & H). unfold drawn_through. cbn [fx fy at_]. split; [reflexivity|]. split; [reflexivity|]. split; [exact G|]. split; [|exact S].
    intros x y I. apply In_nth_error in I as (i & I). apply (H eq_refl i); [now rewrite nth_error_map, I|now rewrite nth_error_map, I].
  - intros (A & B & C & D & E). exists (at_ f). split; [destruct f; cbn in *; now subst|]. rewrite A, B in C. split; [exact C|]. split; [now rewrite !map_length|]. split; [exact E|]. intros _ i u v U V. rewrite nth_error_map in U, V. destruct (nth_error c i) as [(x, y)|] eqn:N; [|discriminate U]. injection U as <-. injection V as <-. apply D. exact (nth_error_In _ _ N).
Qed.
Lemma drawn_unique c f g : drawn c f -> drawn c g -> f = g.
Proof. intros A B. apply thru_iff in A, B. congruence. Qed.

(** the curve of calc_bv *)
Definition bulk (m : string) (ce cp : curve) (fe fp : fit) : curve :=
  if String.eqb m "pv" then map (fun v => (v, - v * at_ fp 1 v)) (map fst cp) else map (fun v => (v, v * at_ fe 2 v * fac)) (map fst ce).
Lemma bulk_iff m ce cp fe fp cb : bulk_modulus fac m ce cp fe fp cb <-> (m = "pv" \/ m = "ev")%string /\ cb = bulk m ce cp fe fp.
Proof.
  assert (PT : forall (g : R -> R) (l : list R) (c : curve), map fst c = l /\ (forall v b, In (v, b) c -> b = g v) <-> c = map (fun v => (v, g v)) l).
  { intros g l c. split.
    - intros (E & H). subst l. induction c as [|(v, b) c IH]; [reflexivity|]. cbn. f_equal; [now rewrite (H v b ltac:(now left))|]. apply IH. intros; apply H; now right.
    - intros ->. split; [rewrite map_map; apply map_id|]. intros v b I. apply in_map_iff in I as (x & X & _). congruence. }
  unfold bulk_modulus, bulk. split.
  - intros [(-> & A & B)|(-> & A & B)]; (split; [tauto|]); cbn; apply PT; (split; [exact A|]); intros v b I; rewrite (B _ _ I); ring.
  - intros ([-> | ->] & E); cbn in E; apply PT in E as (A & B); [left|right]; (split; [reflexivity|]); (split; [exact A|]); intros v b I; rewrite (B _ _ I); ring.
Qed.

Lemma set_there (spl : eos -> option fit) put arr s f : spl s = Some f -> try_set splrep spl put arr s = (s, Some f).
Proof. intros H. unfold try_set. now rewrite H. Qed.

(** ** the first fit *)
Theorem C94_first e v m s s' : init e v m = Some s ->
  (fit_ s = (s', Some tt) <->
   exists ce cp cb fe fp fb, fitter e v = Some (ce, cp) /\ drawn ce fe /\ drawn cp fp /\ bulk_modulus fac m ce cp fe fp cb /\ drawn cb fb /\
     s' = Eos e v m (Some ce) (Some cp) (Some cb) (Some fe) (Some fp) (Some fb)).
Proof.
  unfold init. destruct (_ =? _)%nat; [|discriminate]. destruct (existsb _ _); [|discriminate]. intros H. injection H as <-.
  assert (B2 : forall ce cp cb fe fp, bulk_modulus fac m ce cp fe fp cb <-> (m = "pv" \/ m = "ev")%string /\ cb = bulk m ce cp fe fp) by (intros; apply bulk_iff).
  unfold ExternEos.fit_. cbn [energy volume]. destruct (fitter e v) as [(ce, cp)|]; [|split; [discriminate|intros (? & ? & ? & ? & ? & ? & X & _); discriminate X]].
  unfold bind at 1, modify at 1. cbn beta iota. unfold calc_bv, bind, put_fitted, try_spl_pv, try_spl_ev, try_spl_bv, try_set, get, ret, modify. cbn -[thru String.eqb].
  destruct (String.eqb m "pv") eqn:MP; [apply String.eqb_eq in MP|].
  - split.
    + destruct (thru splrep cp) as [fp|] eqn:TP; [|discriminate]. cbn -[thru]. destruct (thru splrep ce) as [fe|] eqn:TE; [|discriminate]. cbn -[thru]. destruct (thru splrep (map _ _)) as [fb|] eqn:TB; [|discriminate]. cbn. intros H. injection H as <-. apply thru_iff in TP, TE, TB.
      exists ce, cp. eexists. exists fe, fp, fb. split; [reflexivity|]. split; [exact TE|]. split; [exact TP|]. split; [apply B2; split; [now left|reflexivity]|]. unfold bulk. subst m. cbn -[thru]. split; [exact TB|reflexivity].
    + intros (ce' & cp' & cb & fe & fp & fb & X & A & B & C & D & ->). injection X as <- <-. apply B2 in C as (_ & ->). unfold bulk in *. subst m. cbn [String.eqb] in *. apply thru_iff in A, B, D. cbn -[thru] in D |- *. rewrite B. cbn -[thru]. rewrite A. cbn -[thru]. rewrite D. reflexivity.
  - destruct (String.eqb m "ev") eqn:ME; [apply String.eqb_eq in ME|].
    + split.
      * destruct (thru splrep ce) as [fe|] eqn:TE; [|discriminate]. cbn -[thru]. destruct (thru splrep cp) as [fp|] eqn:TP; [|discriminate]. cbn -[thru]. destruct (thru splrep (map _ _)) as [fb|] eqn:TB; [|discriminate]. cbn. intros H. injection H as <-. apply thru_iff in TP, TE, TB.
        exists ce, cp. eexists. exists fe, fp, fb. split; [reflexivity|]. split; [exact TE|]. split; [exact TP|]. split; [apply B2; split; [now right|reflexivity]|]. unfold bulk. subst m. cbn -[thru]. split; [exact TB|reflexivity].
      * intros (ce' & cp' & cb & fe & fp & fb & X & A & B & C & D & ->). injection X as <- <-. apply B2 in C as (_ & ->). unfold bulk in *. subst m. cbn [String.eqb] in *. apply thru_iff in A, B, D. cbn -[thru] in D |- *. rewrite A. cbn -[thru]. rewrite B. cbn -[thru]. rewrite D. reflexivity.
    + split; [discriminate|]. intros (ce' & cp' & cb & fe & fp & fb & X & A & B & C & D & ->). apply B2 in C as ([-> | ->] & _); discriminate.
Qed.

(** an object all splines of which are there *)
Definition has (s : eos) fe fp fb := spl_ev s = Some fe /\ spl_pv s = Some fp /\ spl_bv s = Some fb.
Lemma at_min_has s fe fp fb : has s fe fp fb -> at_min brentq newton splrep s =
  (s, match (if String.eqb (bv_method s) "pv" then get_root brentq newton fp None None else if String.eqb (bv_method s) "ev" then get_min brentq newton fe None None else None) with
      | Some v0 => Some (v0, at_ fe 0 v0, at_ fp 0 v0, at_ fb 0 v0) | None => None end).
Proof.
  intros (A & B & C). unfold at_min, bind, try_spl_pv, try_spl_ev, try_spl_bv. rewrite (set_there spl_pv _ _ _ _ B), (set_there spl_ev _ _ _ _ A), (set_there spl_bv _ _ _ _ C).
  destruct (String.eqb (bv_method s) "pv"); [unfold get; destruct (get_root _ _ _ _ _); reflexivity|]. destruct (String.eqb (bv_method s) "ev"); [unfold get; destruct (get_min _ _ _ _ _); reflexivity|reflexivity].
Qed.

(** ** properties of the minimum *)
Theorem C94_minimum tol s fe fp fb a b : bracketing tol brentq -> has s fe fp fb ->
  (bv_method s = "ev"%string -> range fe a b -> a <= b -> smooth fe a b -> increasing_on (at_ fe 1) a b -> at_ fe 1 a <= 0 <= at_ fe 1 b ->
     exists v0, get_min_ "new" s = (s, Some (Dict [("v0", v0); ("e0", at_ fe 0 v0); ("p0", at_ fp 0 v0); ("b0", at_ fb 0 v0)]%string)) /\
       exists z, Rabs (v0 - z) <= tol /\ minimum_on (at_ fe 0) a b z) /\
  (bv_method s = "pv"%string -> range fp a b -> a <= b -> (forall x, on a b x -> continuity_pt (at_ fp 0) x) -> at_ fp 0 b <= 0 <= at_ fp 0 a ->
     exists v0, get_min_ "new" s = (s, Some (Dict [("v0", v0); ("e0", at_ fe 0 v0); ("p0", at_ fp 0 v0); ("b0", at_ fb 0 v0)]%string)) /\
       exists z, Rabs (v0 - z) <= tol /\ on a b z /\ at_ fp 0 z = 0).
Proof.
  intros BR HA. unfold ExternEos.get_min_, bind. rewrite (at_min_has _ _ _ _ HA). split.
  - intros M RG L SM IN ZE. rewrite M. cbn [String.eqb Ascii.eqb eqb].
    destruct (C90_min brentq newton tol BR fe None a b RG L SM IN) as (P & Q). destruct (get_min brentq newton fe None None) as [v0|].
    + exists v0. split; [reflexivity|]. destruct (P v0 eq_refl) as (z & T & Z). now exists z.
    + destruct (proj1 Q eq_refl); lra.
  - intros M (t & T1 & T2) L CO ZE. rewrite M. cbn [String.eqb Ascii.eqb eqb].
    destruct BR as (B1 & B2 & B3). destruct (B2 (at_ fp 0) a b L CO) as (v0 & V0); [destruct (Rle_lt_or_eq_dec _ _ (proj1 ZE)) as [H|H]; [|rewrite H; lra]; assert (0 <= (- at_ fp 0%nat b) * at_ fp 0%nat a) by (apply Rmult_le_pos; lra); lra|].
    exists v0. assert (E : get_root brentq newton fp None None = Some v0) by (unfold get_root, findroot_; rewrite T1, <- T2; exact V0). rewrite E. split; [reflexivity|]. destruct (B3 _ _ _ _ L CO V0) as (z & Z1 & Z2 & Z3). now exists z.
Qed.

(** ** splines are drawn once *)
Definition keeps {A} (m : meth A) : Prop := forall s f,
  (spl_ev s = Some f -> spl_ev (fst (m s)) = Some f) /\ (spl_pv s = Some f -> spl_pv (fst (m s)) = Some f) /\ (spl_bv s = Some f -> spl_bv (fst (m s)) = Some f).
Lemma keeps_bind {A B} (m : meth A) (k : A -> meth B) : keeps m -> (forall a, keeps (k a)) -> keeps (bind m k).
Proof.
  intros M K s f. unfold bind. specialize (M s f). destruct (m s) as (s1, [a|]); cbn [fst] in *; [|exact M]. specialize (K a s1 f). intuition.
Qed.
Lemma keeps_try_ev : keeps (try_spl_ev splrep).
Proof. intros s f. unfold try_spl_ev, try_set. destruct (spl_ev s) eqn:E; [cbn; rewrite ?E; tauto|]. destruct (ev s); [|cbn; rewrite ?E; tauto]. destruct (thru splrep c); cbn; rewrite ?E; intuition discriminate. Qed.
Lemma keeps_try_pv : keeps (try_spl_pv splrep).
Proof. intros s f. unfold try_spl_pv, try_set. destruct (spl_pv s) eqn:E; [cbn; rewrite ?E; tauto|]. destruct (pv s); [|cbn; rewrite ?E; tauto]. destruct (thru splrep c); cbn; rewrite ?E; intuition discriminate. Qed.
Lemma keeps_try_bv : keeps (try_spl_bv splrep).
Proof. intros s f. unfold try_spl_bv, try_set. destruct (spl_bv s) eqn:E; [cbn; rewrite ?E; tauto|]. destruct (bv s); [|cbn; rewrite ?E; tauto]. destruct (thru splrep c); cbn; rewrite ?E; intuition discriminate. Qed.
Lemma keeps_ret {A} (a : A) : keeps (ret a). Proof. intros s f; cbn; tauto. Qed.
Lemma keeps_raise {A} : keeps (@raise A). Proof. intros s f; cbn; tauto. Qed.
Lemma keeps_get {A} (g : eos -> option A) : keeps (get g). Proof. intros s f; cbn; tauto. Qed.
Lemma keeps_calc : keeps (calc_bv splrep fac).
Proof.
  intros s f. unfold calc_bv. destruct (String.eqb _ "pv").
  - refine (keeps_bind _ _ keeps_try_pv _ s f). intros a. apply keeps_bind; [apply keeps_get|]. intros; apply keeps_ret.
  - destruct (String.eqb _ "ev"); [|cbn; tauto]. refine (keeps_bind _ _ keeps_try_ev _ s f). intros a. apply keeps_bind; [apply keeps_get|]. intros; apply keeps_ret.
Qed.
Lemma keeps_fit : keeps fit_.
Proof.
  intros s f. unfold ExternEos.fit_. destruct (fitter _ _) as [(e, p)|]; [|cbn; tauto].
  refine (keeps_bind _ _ _ _ s f); [intros s1 g; cbn; tauto|]. intros _. apply keeps_bind; [exact keeps_calc|]. intros b. apply keeps_bind; [intros s1 g; cbn; tauto|]. intros _. apply keeps_bind; [exact keeps_try_ev|]. intros _. apply keeps_bind; [exact keeps_try_pv|]. intros _. apply keeps_bind; [exact keeps_try_bv|]. intros _. apply keeps_ret.
Qed.
Lemma keeps_at_min : keeps (at_min brentq newton splrep).
Proof.
  intros s f. unfold at_min. refine (keeps_bind _ _ keeps_try_pv _ s f). intros p. apply keeps_bind; [exact keeps_try_ev|]. intros e. apply keeps_bind; [exact keeps_try_bv|]. intros b. apply keeps_bind; [|intros; apply keeps_ret]. destruct (String.eqb _ "pv"); [apply keeps_get|]. destruct (String.eqb _ "ev"); [apply keeps_get|apply keeps_raise].
Qed.
Lemma keeps_get_min b : keeps (get_min_ b).
Proof. apply keeps_bind; [exact keeps_at_min|]. intros (((v0, e0), p0), b0). destruct (String.eqb b "old"); [apply keeps_ret|]. destruct (String.eqb b "new"); [apply keeps_ret|apply keeps_raise]. Qed.
Lemma has_act a s fe fp fb : has s fe fp fb -> has (act a s) fe fp fb.
Proof.
  intros (A & B & C). destruct a; cbn [ExternEos.act]; [| |now repeat split|now repeat split].
  - destruct (keeps_fit s fe) as (X & _). destruct (keeps_fit s fp) as (_ & Y & _). destruct (keeps_fit s fb) as (_ & _ & Z). repeat split; auto.
  - destruct (keeps_get_min behave s fe) as (X & _). destruct (keeps_get_min behave s fp) as (_ & Y & _). destruct (keeps_get_min behave s fb) as (_ & _ & Z). repeat split; auto.
Qed.
Theorem C94_once h s fe fp fb : has s fe fp fb -> has (acts h s) fe fp fb.
Proof. unfold ExternEos.acts. revert s. induction h as [|a h IH]; intros s H; [exact H|]. cbn. apply IH. now apply has_act. Qed.

(** whatever is done afterwards, the splines of the first fit give the minimum: new data have no
    effect on it, a new method has an effect on the choice of v0 only *)
Theorem C94_refit_refuted e v m s s1 h b : init e v m = Some s -> fit_ s = (s1, Some tt) ->
  snd (get_min_ b (acts h s1)) = snd (get_min_ b (set_bv_method (bv_method (acts h s1)) s1)).
Proof.
  intros I F. apply (C94_first _ _ _ _ _ I) in F as (ce & cp & cb & fe & fp & fb & _ & _ & _ & _ & _ & ->).
  assert (H : has (acts h (Eos e v m (Some ce) (Some cp) (Some cb) (Some fe) (Some fp) (Some fb))) fe fp fb) by (apply C94_once; now repeat split).
  set (s2 := acts h _) in *. set (s3 := set_bv_method _ _). assert (H3 : has s3 fe fp fb) by now repeat split. assert (M : bv_method s3 = bv_method s2) by reflexivity.
  unfold ExternEos.get_min_, bind. rewrite (at_min_has _ _ _ _ H), (at_min_has _ _ _ _ H3), M.
  destruct (if String.eqb (bv_method s2) "pv" then _ else _); [|reflexivity]. destruct (String.eqb b "old"); [reflexivity|]. destruct (String.eqb b "new"); reflexivity.
Qed.
(** a second fit with other data shows other curves beside the old splines; the new B(V) comes from
    the old splines at the new volumes *)
Theorem C94_curves_refuted e v m s s1 e2 v2 ce2 cp2 : init e v m = Some s -> fit_ s = (s1, Some tt) -> fitter e2 v2 = Some (ce2, cp2) ->
  exists s2 ce cp fe fp fb cb2, fit_ (set_data e2 v2 s1) = (s2, Some tt) /\ fitter e v = Some (ce, cp) /\
    ev s2 = Some ce2 /\ pv s2 = Some cp2 /\ bv s2 = Some cb2 /\ has s2 fe fp fb /\
    drawn ce fe /\ drawn cp fp /\ bulk_modulus fac m ce2 cp2 fe fp cb2 /\ (ce2 <> ce -> ~ drawn ce2 fe) /\ (cp2 <> cp -> ~ drawn cp2 fp).
Proof.
  intros I F X. apply (C94_first _ _ _ _ _ I) in F as (ce & cp & cb & fe & fp & fb & Y & DE & DP & BM & DB & ->). apply bulk_iff in BM as (M & ->).
  assert (CU : forall c d : curve, map fst c = map fst d -> map snd c = map snd d -> c = d).
  { induction c as [|(a1, a2) c IH]; intros [|(b1, b2) d] A B; try discriminate; [reflexivity|]. cbn in A, B. injection A as -> A. injection B as -> B. f_equal. now apply IH. }
  exists (Eos e2 v2 m (Some ce2) (Some cp2) (Some (bulk m ce2 cp2 fe fp)) (Some fe) (Some fp) (Some fb)), ce, cp, fe, fp, fb, (bulk m ce2 cp2 fe fp). split.
  - unfold ExternEos.fit_, set_data. cbn [energy volume bv_method ev pv bv spl_ev spl_pv spl_bv]. rewrite X. unfold bind at 1, modify at 1. cbn beta iota. unfold calc_bv, bind, put_fitted, try_spl_pv, try_spl_ev, try_spl_bv, try_set, get, ret, modify, bulk. destruct M as [-> | ->]; reflexivity.
  - split; [exact Y|]. do 3 (split; [reflexivity|]). split; [now repeat split|]. split; [exact DE|]. split; [exact DP|]. split; [now apply bulk_iff|].
    split; intros N (A & B & _); apply N; destruct DE as (E1 & E2 & _), DP as (P1 & P2 & _); apply CU; congruence.
Qed.

(** ** the order of the array *)
Theorem C94_array_refuted s s' v0 e0 p0 b0 : get_min_ "new" s = (s', Some (Dict [("v0", v0); ("e0", e0); ("p0", p0); ("b0", b0)]%string)) ->
  get_min_ "old" s = (s', Some (Array [v0; e0; p0; b0])) /\ (get_min_ "old" s = (s', Some (Array [v0; e0; b0; p0])) <-> p0 = b0).
Proof.
  unfold ExternEos.get_min_, bind. destruct (at_min _ _ _ s) as (s1, [(((v, e), p), b)|]); [|discriminate]. cbn. intros H. injection H as <- <- <- <- <-. split; [reflexivity|]. split; intros H; [injection H; auto|now subst].
Qed.
Theorem C94_behave s b : (b <> "old")%string -> (b <> "new")%string -> snd (get_min_ b s) = None.
Proof.
  intros O N. unfold ExternEos.get_min_, bind. destruct (at_min _ _ _ s) as (s1, [(((v, e), p), q)|]); [|reflexivity]. apply String.eqb_neq in O, N. now rewrite O, N.
Qed.
End WITH.

(** ** which volumes are accepted: one rising pair is enough *)
Theorem C94_accepted e v m : (exists s, init e v m = Some s) <-> length e = length v /\ exists i a b, nth_error v i = Some a /\ nth_error v (S i) = Some b /\ a < b.
Proof.
  unfold init. destruct (length e =? length v)%nat eqn:L; [apply Nat.eqb_eq in L|apply Nat.eqb_neq in L; split; [intros (s & H); discriminate H|tauto]].
  assert (E : existsb (fun d => if Rlt_dec 0 d then true else false) (diff Rminus v) = true <-> exists i a b, nth_error v i = Some a /\ nth_error v (S i) = Some b /\ a < b).
  { rewrite existsb_exists. split.
    - intros (d & I & D). destruct (Rlt_dec 0 d) as [P|]; [|discriminate D]. unfold diff in I. apply in_map_iff in I as ((a, b) & E & J). cbn in E. apply In_nth_error in J as (i & J). exists i, a, b.
      assert (K : forall (l k : list R) i a b, nth_error (combine l k) i = Some (a, b) -> nth_error l i = Some a /\ nth_error k i = Some b).
      { induction l as [|x l IH]; intros [|y k] [|j] p q H; try discriminate; cbn in *; [injection H as <- <-; auto|now apply IH]. }
      apply K in J as (J1 & J2). split; [exact J1|]. split; [destruct v; [destruct i; discriminate J1|exact J2]|lra].
    - intros (i & a & b & A & B & D). exists (b - a). split; [|destruct (Rlt_dec 0 (b - a)); [reflexivity|lra]]. apply (nth_error_In _ i). now apply diff_nth. }
  destruct (existsb _ _); split; intros H.
  - split; [exact L|]. now apply E.
  - eexists. reflexivity.
  - destruct H as (s & H); discriminate H.
  - destruct H as (_ & H). apply E in H. discriminate H.
Qed.
(** volumes out of order are accepted *)
Theorem C94_unsorted_refuted : exists v, ~ pairs v Rle /\ forall e m, length e = length v -> exists s, init e v m = Some s.
Proof.
  exists [3; 1; 2]. split.
  - intros H. specialize (H 0%nat 1%nat 3 1 ltac:(lia) eq_refl eq_refl). lra.
  - intros e m L. apply C94_accepted. split; [exact L|]. exists 1%nat, 1, 2. split; [reflexivity|]. split; [reflexivity|lra].
Qed.

(** ** Elk: units, and the number of atoms *)
Theorem C94_elk Ang Bohr eV Ha eosx law press natoms etype npoints energy volume e p :
  0 < Ang -> 0 < Bohr -> 0 < eV -> 0 < Ha -> natoms <> 0 -> normalises eosx law press ->
  elk_fit Ang Bohr eV Ha eosx natoms etype npoints energy volume = Some (e, p) ->
  let data := combine (map (fun v => v * Ang ^ 3 / Bohr ^ 3) volume) (map (fun x => x * eV / Ha) energy) in
  (forall v x, In (v, x) e -> x * eV / Ha = law data etype (v * Ang ^ 3 / Bohr ^ 3)) /\
  (forall v x, In (v, x) p -> x = press data etype (v * Ang ^ 3 / Bohr ^ 3)).
Proof.
  intros A B E H N NO F data. unfold elk_fit in F. destruct (elk_in _ _ _ _ _ _ _ _ _) as [i|] eqn:EI; [|discriminate F]. destruct (eosx i) as [(fe, fp)|] eqn:EX; [|discriminate F]. injection F as <- <-.
  assert (I : i_natoms i = natoms /\ i_etype i = etype /\ i_data i = data).
  { unfold elk_in in EI. rewrite (map_ext (fun x => x * (Ang ^ 3 / Bohr ^ 3)) (fun v => v * Ang ^ 3 / Bohr ^ 3)) in EI by (intros; unfold Rdiv; ring). rewrite (map_ext (fun x => x * (eV / Ha)) (fun x => x * eV / Ha)) in EI by (intros; unfold Rdiv; ring). unfold data. destruct (map _ volume) as [|v0 vs]; [discriminate EI|]. injection EI as <-. now repeat split. }
  destruct I as (I1 & I2 & I3). destruct (NO i fe fp ltac:(now rewrite I1) EX) as (P & Q). rewrite I1, I2, I3 in P, Q. assert (A3 : 0 < Ang ^ 3) by now apply pow_lt. assert (B3 : 0 < Bohr ^ 3) by now apply pow_lt. split; intros v x J; apply in_map_iff in J as ((v', x') & X & J); cbn in X; injection X as <- <-.
  - replace (x' * natoms * (Ha / eV) * eV / Ha) with (x' * natoms) by (field; lra). rewrite (P _ _ J). f_equal. cbn. field. lra.
  - rewrite (Q _ _ J). f_equal. cbn. field. lra.
Qed.
Theorem C94_elk_points npoints e v m s : elk_init npoints e v m = Some s <-> init e v m = Some s /\ (length v <= npoints)%nat.
Proof.
  unfold elk_init. destruct (init e v m); [|split; [discriminate|intros (H & _); discriminate H]]. destruct (length v <=? npoints)%nat eqn:L; [apply Nat.leb_le in L; tauto|apply Nat.leb_gt in L; split; [discriminate|lia]].
Qed.

(** ** the path of the program is lost *)
Lemma basename_sfx acc p x : basename_ acc (p ++ "/" ++ x) = basename_ "" x.
Proof. revert acc. induction p as [|c p IH]; intros acc; [reflexivity|]. cbn [append basename_]. destruct (Ascii.eqb c "/"); apply IH. Qed.
Theorem C94_path_refuted path app dir : command (path ++ "/" ++ app) dir = command app dir.
Proof. unfold command, workdir, basename. now rewrite basename_sfx. Qed.

(** ** Examples *)
(** E = (V-1)^2 and P = -2(V-1) at V = 0, 1, 3, with splines that know *)
Definition pare (n : nat) (v : R) : R := match n with O => (v - 1) * (v - 1) | 1%nat => 2 * (v - 1) | 2%nat => 2 | _ => 0 end.
Definition parp (n : nat) (v : R) : R := match n with O => - (2 * (v - 1)) | 1%nat => - 2 | _ => 0 end.
Definition parb (n : nat) (v : R) : R := match n with O => 2 * v | 1%nat => 2 | _ => 0 end.
Definition know (x y : list R) : option (nat -> R -> R) :=
  match y with a :: _ => if Req_EM_T a 1 then Some pare else if Req_EM_T a 2 then Some parp else if Req_EM_T a 0 then Some parb else None | [] => None end.
Definition ex_ev : curve := [(0, 1); (1, 0); (3, 4)].
Definition ex_pv : curve := [(0, 2); (1, 0); (3, -4)].
Definition ex_bv : curve := [(0, 0); (1, 2); (3, 6)].
Definition ex_fitter (e v : list R) : option (curve * curve) := Some (ex_ev, ex_pv).
Lemma sorted3 (P : R -> R -> Prop) a b c : P a b -> P a c -> P b c -> forall i j x y, (i < j)%nat -> nth_error [a; b; c] i = Some x -> nth_error [a; b; c] j = Some y -> P x y.
Proof. intros AB AC BC [|[|[|i]]] [|[|[|j]]] x y L X Y; try lia; cbn in X, Y; try discriminate X; try discriminate Y; try (destruct j; discriminate Y); injection X as <-; injection Y as <-; assumption. Qed.
Lemma hit x : x = 0 -> Rabs x < / 10 ^ 10.
Proof. intros ->. rewrite Rabs_R0. apply Rinv_0_lt_compat. apply pow_lt. lra. Qed.
Lemma drawn3 y0 y1 y2 f : know [0; 1; 3] [y0; y1; y2] = Some f -> f 0%nat 0 = y0 -> f 0%nat 1 = y1 -> f 0%nat 3 = y2 -> drawn_through know [(0, y0); (1, y1); (3, y2)] (Fit [0; 1; 3] [y0; y1; y2] f).
Proof.
  intros K A B C. unfold drawn_through. cbn [fx fy at_ map fst snd]. split; [reflexivity|]. split; [reflexivity|]. split; [exact K|]. split.
  - intros x y [H|[H|[H|[]]]]; injection H as <- <-; apply hit; rewrite ?A, ?B, ?C; ring.
  - apply (sorted3 Rle); lra.
Qed.
Lemma ex_drawn : drawn_through know ex_ev (Fit [0; 1; 3] [1; 0; 4] pare) /\ drawn_through know ex_pv (Fit [0; 1; 3] [2; 0; -4] parp) /\ drawn_through know ex_bv (Fit [0; 1; 3] [0; 2; 6] parb).
Proof.
  split; [|split]; apply drawn3; cbn; try lra; repeat (destruct (Req_EM_T _ _); [|try lra]); try lra; reflexivity.
Qed.
Example ex_fit : exists s s', init [1; 2] [1; 2] "ev" = Some s /\ fit_ know ex_fitter 1 s = (s', Some tt) /\ has s' (Fit [0; 1; 3] [1; 0; 4] pare) (Fit [0; 1; 3] [2; 0; -4] parp) (Fit [0; 1; 3] [0; 2; 6] parb).
Proof.
  destruct (proj2 (C94_accepted [1; 2] [1; 2] "ev")) as (s & S); [split; [reflexivity|]; exists 0%nat, 1, 2; split; [reflexivity|]; split; [reflexivity|lra]|].
  exists s. eexists. split; [exact S|]. destruct ex_drawn as (A & B & C). split.
  - apply (C94_first bisect no_newton know ex_fitter 1 _ _ _ _ _ S). exists ex_ev, ex_pv, ex_bv. do 3 eexists. split; [reflexivity|]. split; [exact A|]. split; [exact B|]. split; [|split; [exact C|reflexivity]].
    right. split; [reflexivity|]. split; [reflexivity|]. cbn. intros v b [H|[H|[H|[]]]]; injection H as <- <-; lra.
  - now repeat split.
Qed.
(** the minimum at V = 1, with E = 0 and P = 0 and B = 2 *)
Example ex_minimum : forall s, bv_method s = "ev"%string -> has s (Fit [0; 1; 3] [1; 0; 4] pare) (Fit [0; 1; 3] [2; 0; -4] parp) (Fit [0; 1; 3] [0; 2; 6] parb) ->
  exists v0, get_min_ bisect no_newton know "new" s = (s, Some (Dict [("v0", v0); ("e0", pare 0 v0); ("p0", parp 0 v0); ("b0", parb 0 v0)]%string)) /\ v0 = 1.
Proof.
  intros s M H. destruct (C94_minimum bisect no_newton know 0 s _ _ _ 0 3 ex_bisect H) as (P & _). destruct P as (v0 & V & z & T & Z); [exact M|exists [1; 3]; split; reflexivity|lra| | |cbn; lra|].
  - intros x X. destruct (para_smooth 1 1 [0; 1; 3] [1; 0; 4] 0 3 x X) as (D & C). cbn in D, C |- *. split.
    + apply (derivable_pt_lim_ext (fun x0 => 1 * ((x0 - 1) * (x0 - 1)))); [intros; unfold pare; cbn; ring|]. replace (2 * (x - 1)) with (1 * (2 * (x - 1))) by ring. exact D.
    + apply (deriv_cont _ x (2 * (1 - 0))). apply (derivable_pt_lim_scal (fun x => x - 1)). apply (derivable_pt_lim_minus id (fun _ => 1)); solve [apply derivable_pt_lim_id|apply derivable_pt_lim_const].
  - intros x y _ _ L. cbn. lra.
  - exists v0. split; [exact V|]. assert (v0 = z) by (unfold Rabs in T; destruct (Rcase_abs _) in T; lra). subst z. destruct Z as (Z1 & Z2). specialize (Z2 1 ltac:(unfold on; lra)). cbn in Z2. assert (Q : (v0 - 1) * (v0 - 1) = 0) by (assert (0 <= (v0 - 1) * (v0 - 1)) by apply Rle_0_sqr; lra). apply Rmult_integral in Q. lra.
Qed.
(** a program whose curve is a line *)
Definition line_x (i : elk_input) : option (curve * curve) := Some ([(i_from i / i_natoms i, 2 * i_from i / i_natoms i)], [(i_from i / i_natoms i, 0)]).
Example ex_normalises : normalises line_x (fun _ _ v => 2 * v) (fun _ _ _ => 0).
Proof. intros i e p N H. injection H as <- <-. split; intros v x [J|[]]; injection J as <- <-; [field; exact N|reflexivity]. Qed.
Example ex_path : command "/opt/elk/eos.x" None = "cd eos.x && eos.x"%string.
Proof. reflexivity. Qed.

Print Assumptions C94_first.
Print Assumptions C94_minimum.
Print Assumptions C94_once.
Print Assumptions C94_refit_refuted.
Print Assumptions C94_curves_refuted.
Print Assumptions C94_array_refuted.
Print Assumptions C94_behave.
Print Assumptions C94_accepted.
Print Assumptions C94_unsorted_refuted.
Print Assumptions C94_elk.
Print Assumptions C94_elk_points.
Print Assumptions C94_path_refuted.
