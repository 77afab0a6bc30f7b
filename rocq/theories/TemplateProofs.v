From Coq Require Import Ascii List Arith Bool Lia Permutation.
From Verif Require Import Comb CombProofs Template TemplateSpec.
Import ListNotations.

Lemma prefix_iff k s : is_prefix k s = true <-> starts_with k s.
Proof. apply is_prefix_spec. Qed.

Lemma contains_iff k s : contains k s = true <-> occurs_in k s.
Proof.
  induction s as [|c s IH]; cbn [contains]; rewrite orb_true_iff, prefix_iff.
  - split.
    + intros [[r H]|H]; [|discriminate]. exists 0, [], r. auto.
    + intros [i [a [b [H _]]]]. left. destruct a; [|discriminate]. exists b. exact H.
  - rewrite IH. split.
    + intros [[r H]|[i [a [b [H1 H2]]]]].
      * exists 0, [], r. auto.
      * exists (S i), (c :: a), b. simpl. rewrite H1. auto.
    + intros [i [a [b [H1 H2]]]]. destruct a as [|x a]; simpl in *.
      * left. exists b. exact H1.
      * right. injection H1 as -> H1. exists (length a), a, b. auto.
Qed.

Lemma skipn_app_exact {A} (k r : list A) : skipn (length k) (k ++ r) = r.
Proof. induction k; simpl; auto. Qed.

(** fuel does not matter *)
Lemma replace_aux_fuel k v s f :
  k <> [] -> length s <= f -> replace_aux f k v s = replace_aux (length s) k v s.
Proof.
  intros Hk. remember (length s) as n eqn:Hn. revert s f Hn.
  induction n as [n IH] using lt_wf_ind. intros s f Hn Hf.
  destruct s as [|c s]; [destruct f, n; simpl in *; try lia; reflexivity|].
  simpl in Hn. destruct n as [|n]; [lia|]. destruct f as [|f]; [lia|].
  cbn [replace_aux].
  destruct (is_prefix k (c :: s)) eqn:E.
  - f_equal. apply prefix_iff in E. destruct E as [r E]. rewrite E, skipn_app_exact.
    assert (length (c :: s) = length k + length r) by (rewrite E; apply app_length).
    destruct k as [|a k]; [congruence|]. simpl in H.
    rewrite (IH (length r)) by (reflexivity || lia).
    symmetry. apply IH; lia.
  - f_equal. rewrite (IH (length s)) by (reflexivity || lia). symmetry. apply IH; lia.
Qed.

Lemma replace_nil k v : k <> [] -> replace k v [] = [].
Proof. destruct k; [congruence|reflexivity]. Qed.

Lemma replace_key k v r : k <> [] -> replace k v (k ++ r) = v ++ replace k v r.
Proof.
  intros Hk. destruct k as [|a k]; [congruence|]. unfold replace.
  set (key := a :: k) in *.
  change (length (key ++ r)) with (S (length (k ++ r))).
  cbn [replace_aux app key]. fold key. change (a :: k ++ r) with (key ++ r).
  rewrite is_prefix_app, skipn_app_exact. f_equal.
  apply replace_aux_fuel; [assumption|]. rewrite app_length. lia.
Qed.

Lemma replace_char k v c s :
  k <> [] -> ~ starts_with k (c :: s) -> replace k v (c :: s) = c :: replace k v s.
Proof.
  intros Hk H. destruct k as [|a k]; [congruence|]. unfold replace.
  cbn [length replace_aux].
  destruct (is_prefix (a :: k) (c :: s)) eqn:E; [|reflexivity].
  apply prefix_iff in E. contradiction.
Qed.

(** [u] in which no occurrence of [k] starts is passed over *)
Lemma replace_skip k v u T :
  k <> [] -> (forall x y, u = x ++ y -> y <> [] -> ~ starts_with k (y ++ T)) ->
  replace k v (u ++ T) = u ++ replace k v T.
Proof.
  intros Hk. induction u as [|c u IH]; intros H; [reflexivity|].
  simpl. rewrite replace_char; [|assumption|].
  - f_equal. apply IH. intros x y E Hy. apply (H (c :: x) y); [simpl; congruence|assumption].
  - apply (H [] (c :: u)); [reflexivity|discriminate].
Qed.

Lemma starts_with_app_split k y T :
  starts_with k (y ++ T) -> starts_with k y \/ starts_with y k.
Proof.
  revert y; induction k as [|a k IH]; intros y [r E].
  - left. exists y. reflexivity.
  - destruct y as [|b y].
    + right. exists (a :: k). reflexivity.
    + simpl in E. injection E as -> E. destruct (IH y) as [[z Hz]|[z Hz]].
      * exists r. exact E.
      * left. exists z. simpl. congruence.
      * right. exists z. simpl. congruence.
Qed.

(** the conditions are inherited by suffixes of the text and by parts of the dict *)
Lemma occurs_suffix k a s i : occurs_at k s i -> occurs_at k (a ++ s) (length a + i).
Proof.
  intros [x [y [-> Hl]]]. exists (a ++ x), y. rewrite <- !app_assoc, app_length. auto.
Qed.

Lemma disjoint_suffix dct a s : keys_disjoint dct (a ++ s) -> keys_disjoint dct s.
Proof.
  intros H k1 v1 k2 v2 i j I1 I2 Hne H1 H2.
  pose proof (H k1 v1 k2 v2 _ _ I1 I2 Hne (occurs_suffix _ a _ _ H1) (occurs_suffix _ a _ _ H2)).
  lia.
Qed.

Lemma separated_suffix dct a s : keys_separated dct (a ++ s) -> keys_separated dct s.
Proof.
  intros H k1 v1 k2 v2 q p I1 I2 Hne E Hq Hp [i Hi].
  eapply (H k1 v1 k2 v2 q p); eauto. eexists. apply occurs_suffix. exact Hi.
Qed.

Lemma disjoint_incl d d' s : incl d' d -> keys_disjoint d s -> keys_disjoint d' s.
Proof. intros Hi H k1 v1 k2 v2 i j I1 I2. apply (H k1 v1 k2 v2 i j); auto. Qed.
Lemma separated_incl d d' s : incl d' d -> keys_separated d s -> keys_separated d' s.
Proof. intros Hi H k1 v1 k2 v2 q p I1 I2. apply (H k1 v1 k2 v2 q p); auto. Qed.
Lemma clean_incl d d' : incl d' d -> values_clean d -> values_clean d'.
Proof. intros Hi H k1 v1 k2 v2 x y I1 I2. apply (H k1 v1 k2 v2 x y); auto. Qed.

Lemma dict_fun (d : list (pstr * pstr)) k v v' : NoDup (map fst d) -> In (k, v) d -> In (k, v') d -> v = v'.
Proof.
  induction d as [|[a b] d IH]; simpl; [tauto|]. intros Hn H1 H2. inversion Hn; subst.
  destruct H1 as [H1|H1], H2 as [H2|H2]; try congruence; auto.
  - injection H1 as -> ->. exfalso. apply H3. apply (in_map fst) in H2. exact H2.
  - injection H2 as -> ->. exfalso. apply H3. apply (in_map fst) in H1. exact H1.
Qed.

(** at one position at most one key starts *)
Lemma one_key d s k1 v1 k2 v2 :
  dict_ok d -> keys_disjoint d s -> In (k1, v1) d -> In (k2, v2) d ->
  starts_with k1 s -> starts_with k2 s -> k1 = k2 /\ v1 = v2.
Proof.
  intros [Hn Hk] Hd I1 I2 [r1 H1] [r2 H2].
  destruct (list_eq_dec ascii_dec k1 k2) as [->|Hne].
  - split; [reflexivity|]. eapply dict_fun; eauto.
  - exfalso. rewrite Forall_forall in Hk.
    pose proof (Hk _ I1) as N1. pose proof (Hk _ I2) as N2. simpl in N1, N2.
    assert (occurs_at k1 s 0) by (exists [], r1; auto).
    assert (occurs_at k2 s 0) by (exists [], r2; auto).
    destruct (Hd k1 v1 k2 v2 0 0 I1 I2 Hne H H0) as [L|L];
      [destruct k1|destruct k2]; simpl in L; try lia; congruence.
Qed.

Lemma substituted_fun d s o1 o2 :
  dict_ok d -> keys_disjoint d s -> substituted d s o1 -> substituted d s o2 -> o1 = o2.
Proof.
  intros Hok Hd H1. revert o2 Hd.
  induction H1 as [|k v s out Hin Hk H1 IH|c s out Hno H1 IH]; intros o2 Hd H2.
  - remember [] as e eqn:Ee. destruct H2 as [|k v s out Hin Hk H2|]; [reflexivity| |discriminate].
    destruct k; [congruence|discriminate].
  - remember (k ++ s) as t eqn:Et. destruct H2 as [|k' v' s' out' Hin' Hk' H2|c s' out' Hno' H2].
    + destruct k; [congruence|discriminate].
    + rewrite Et in Hd.
      assert (k' = k /\ v' = v) as [-> ->].
      { eapply one_key; eauto; [exists s'; congruence|exists s; reflexivity]. }
      apply app_inv_head in Et. subst s'. f_equal. apply IH; [|assumption].
      eapply disjoint_suffix; eassumption.
    + exfalso. eapply Hno'; [exact Hin|]. exists s. congruence.
  - remember (c :: s) as t eqn:Et. destruct H2 as [|k' v' s' out' Hin' Hk' H2|c' s' out' Hno' H2].
    + discriminate.
    + exfalso. eapply Hno; [exact Hin'|]. exists s'. congruence.
    + injection Et as -> ->. f_equal. apply IH; [|assumption].
      apply (disjoint_suffix d [c] s). assumption.
Qed.

Lemma substituted_incl d d' s o :
  (forall x, In x d <-> In x d') -> substituted d s o -> substituted d' s o.
Proof.
  intros H. induction 1; [constructor|constructor; auto; now apply H|].
  constructor; auto. intros k v Hin. apply (H0 k v). now apply H.
Qed.

Lemma no_partial d k v s :
  (forall k' v', In (k', v') d -> k' <> k) -> k <> [] ->
  forall out, substituted d s out ->
  forall q p, k = q ++ p -> q <> [] ->
    keys_separated ((k, v) :: d) (q ++ s) -> starts_with p out -> starts_with p s.
Proof.
  intros Hfresh Hk out H.
  induction H as [|k' v' s out Hin Hk' H IH|c s out Hno H IH]; intros q p E Hq Hs Hp.
  - exact Hp.
  - destruct p as [|a p]; [exists (k' ++ s); reflexivity|].
    exfalso. eapply (Hs k v k' v' q (a :: p)); simpl; auto; try discriminate.
    + intros ->. eapply Hfresh; eauto.
    + exists 0, [], s. simpl. rewrite <- app_assoc. auto.
  - destruct p as [|a p]; [exists (c :: s); reflexivity|].
    destruct Hp as [r Hr]. simpl in Hr. injection Hr as -> Hr.
    destruct (IH (q ++ [a]) p) as [r' Hr'].
    + rewrite <- app_assoc. exact E.
    + destruct q; discriminate.
    + rewrite <- app_assoc. exact Hs.
    + exists r. exact Hr.
    + exists r'. simpl. congruence.
Qed.

(** key lemma: replacing one more key in a substituted text *)
Lemma replace_substituted d k v :
  (forall k' v', In (k', v') d -> k' <> k) -> k <> [] ->
  values_clean ((k, v) :: d) ->
  forall s out, substituted d s out ->
  keys_disjoint ((k, v) :: d) s -> keys_separated ((k, v) :: d) s ->
  substituted ((k, v) :: d) s (replace k v out).
Proof.
  intros Hfresh Hk Hc s.
  remember (length s) as n eqn:Hn. revert s Hn.
  induction n as [n IH] using lt_wf_ind. intros s Hn out H Hd Hs.
  destruct H as [|k' v' s out Hin Hk' H|c s out Hno H].
  - rewrite replace_nil by assumption. constructor.
  - rewrite replace_skip; [|assumption|].
    + constructor; [now right|assumption|].
      assert (length s < n).
      { rewrite Hn, app_length. destruct k'; [congruence|]. simpl. lia. }
      eapply IH; eauto; [eapply disjoint_suffix; eassumption|eapply separated_suffix; eassumption].
    + intros x y E Hy Hst.
      destruct (Hc k v k' v' x y) as [C1 C2]; simpl; auto.
      { intros ->. eapply Hfresh; eauto. }
      destruct (starts_with_app_split _ _ _ Hst); contradiction.
  - destruct (is_prefix k (c :: s)) eqn:E.
    + (* the new key starts here: it is copied unchanged by the old rules *)
      apply prefix_iff in E. destruct E as [r E].
      assert (Hcopy : forall u out', substituted d (u ++ r) out' ->
                forall w, k = w ++ u -> keys_disjoint ((k, v) :: d) (w ++ u ++ r) ->
                exists o, out' = u ++ o /\ substituted d r o).
      { induction u as [|a u IHu]; intros out' H' w Ew Hd'.
        - exists out'. auto.
        - simpl in H'. remember (a :: u ++ r) as t eqn:Et.
          destruct H' as [|k' v' s' o' Hin' Hk' H'|c' s' o' Hno' H']; [discriminate| |].
          + exfalso. assert (Hne : k <> k') by (intros ->; eapply Hfresh; eauto).
            assert (O1 : occurs_at k (w ++ (a :: u) ++ r) 0).
            { exists [], r. simpl. rewrite Ew, <- app_assoc. auto. }
            assert (O2 : occurs_at k' (w ++ (a :: u) ++ r) (length w)).
            { exists w, s'. simpl. rewrite <- Et. auto. }
            destruct (Hd' k v k' v' 0 (length w)) as [L|L]; simpl; auto.
            * rewrite Ew, app_length in L. simpl in L. lia.
            * destruct k'; [congruence|simpl in L; lia].
          + injection Et as -> ->.
            destruct (IHu o' H' (w ++ [a])) as [o [-> Ho]].
            * rewrite <- app_assoc. exact Ew.
            * rewrite <- app_assoc. exact Hd'.
            * exists o. auto. }
      destruct (Hcopy k (c :: out)) with (w := @nil ascii) as [o [Eo Ho]].
      { rewrite <- E. constructor; assumption. }
      { reflexivity. }
      { simpl. rewrite <- E. assumption. }
      rewrite Eo, E, replace_key by assumption.
      constructor; [now left|assumption|].
      assert (length r < n).
      { rewrite Hn, E, app_length. destruct k; [congruence|]. simpl. lia. }
      rewrite E in Hd, Hs.
      eapply IH; eauto; [eapply disjoint_suffix; eassumption|eapply separated_suffix; eassumption].
    + assert (Hnk : ~ starts_with k (c :: s)) by (rewrite <- prefix_iff; congruence).
      rewrite replace_char; [|assumption|].
      * constructor.
        -- intros k0 v0 [E0|H0]; [injection E0 as <- <-; assumption|eauto].
        -- simpl in Hn. assert (length s < n) by lia.
           eapply IH; eauto;
             [eapply (disjoint_suffix _ [c] s); assumption
             |eapply (separated_suffix _ [c] s); assumption].
      * intros [r Hr]. apply Hnk. destruct k as [|a k]; [congruence|].
        simpl in Hr. injection Hr as -> Hr.
        destruct (no_partial d (a :: k) v s Hfresh Hk out H [a] k) as [r' Hr'].
        -- reflexivity.
        -- discriminate.
        -- simpl. exact Hs.
        -- exists r. exact Hr.
        -- exists r'. simpl. congruence.
Qed.

Lemma substituted_absent d k v s out :
  ~ occurs_in k s -> substituted d s out -> substituted ((k, v) :: d) s out.
Proof.
  intros Hno H. induction H as [|k' v' s out Hin Hk' H IH|c s out Hn H IH].
  - constructor.
  - constructor; [now right|assumption|]. apply IH. intros [i Hi]. apply Hno.
    eexists. apply occurs_suffix. exact Hi.
  - constructor.
    + intros k0 v0 [E0|H0]; [|eauto]. injection E0 as <- <-. intros [r Hr]. apply Hno.
      exists 0, [], r. rewrite Hr. auto.
    + apply IH. intros [i Hi]. apply Hno. eexists. apply (occurs_suffix _ [c]). exact Hi.
Qed.

Lemma substituted_none s : substituted [] s s.
Proof. induction s; constructor; auto. Qed.

Definition texts (dct : list (pstr * rval)) : list (pstr * pstr) :=
  map (fun kv => (fst kv, frepr (snd kv))) dct.

Definition no_raise (conv : bool) (txt : pstr) (dct : list (pstr * rval)) : Prop :=
  conv = true \/ forall k r, In (k, ROther r) dct -> ~ occurs_in k txt.

Lemma template_loop_substituted conv txt todo done new :
  dict_ok (texts todo ++ done) ->
  keys_disjoint (texts todo ++ done) txt ->
  keys_separated (texts todo ++ done) txt ->
  values_clean (texts todo ++ done) ->
  no_raise conv txt todo ->
  substituted done txt new ->
  exists out, template_loop conv txt todo new = Some out /\
              substituted (texts todo ++ done) txt out.
Proof.
  revert done new. induction todo as [|[k rv] todo IH]; intros done new Hok Hd Hs Hc Hr H.
  - exists new. auto.
  - simpl in *. set (v := frepr rv) in *.
    assert (Hperm : forall x, In x (texts todo ++ (k, v) :: done) <->
                              In x ((k, v) :: texts todo ++ done)).
    { intros x. simpl. rewrite !in_app_iff. simpl. tauto. }
    assert (Hi1 : incl (texts todo ++ (k, v) :: done) ((k, v) :: texts todo ++ done)).
    { intros x Hx. now apply Hperm. }
    assert (Hi2 : incl ((k, v) :: done) ((k, v) :: texts todo ++ done)).
    { intros x [Hx|Hx]; [left; exact Hx|right]. apply in_or_app. now right. }
    assert (Hok' : dict_ok (texts todo ++ (k, v) :: done)).
    { destruct Hok as [N F]. split.
      - rewrite map_app in *. simpl in *. rewrite map_app in N.
        eapply Permutation_NoDup; [|exact N]. apply Permutation_middle.
      - apply Forall_forall. intros x Hx. rewrite Forall_forall in F. apply F. now apply Hperm. }
    assert (Hstep : forall new', substituted ((k, v) :: done) txt new' ->
       exists out, template_loop conv txt todo new' = Some out /\
                   substituted ((k, v) :: texts todo ++ done) txt out).
    { intros new' Hn'. destruct (IH ((k, v) :: done) new') as [out [E Ho]]; auto.
      - eapply disjoint_incl; eassumption.
      - eapply separated_incl; eassumption.
      - eapply clean_incl; eassumption.
      - destruct Hr as [Hr|Hr]; [now left|right]. intros k0 r0 H0. apply (Hr k0 r0). now right.
      - exists out. split; [exact E|]. eapply substituted_incl; [|exact Ho]. exact Hperm. }
    assert (Hfresh : forall k' v', In (k', v') done -> k' <> k).
    { intros k' v' Hin ->. destruct Hok as [N _]. simpl in N. inversion N; subst.
      apply H2. rewrite map_app. apply in_or_app. right. apply (in_map fst) in Hin. exact Hin. }
    assert (Hk : k <> []) by (destruct Hok as [_ F]; now inversion F).
    destruct (contains k txt) eqn:E.
    + assert (Hrep : substituted ((k, v) :: done) txt (replace k v new)).
      { apply replace_substituted; auto.
        - eapply clean_incl; eassumption.
        - eapply disjoint_incl; eassumption.
        - eapply separated_incl; eassumption. }
      destruct rv as [s0|r0]; [apply Hstep; exact Hrep|].
      destruct conv; [apply Hstep; exact Hrep|].
      exfalso. destruct Hr as [?|Hr]; [discriminate|].
      apply (Hr k r0); [now left|]. now apply contains_iff.
    + apply Hstep. apply substituted_absent; [|assumption].
      rewrite <- contains_iff. congruence.
Qed.

Lemma template_replace_correct conv txt dct :
  dict_ok (texts dct) -> keys_disjoint (texts dct) txt -> keys_separated (texts dct) txt ->
  values_clean (texts dct) -> no_raise conv txt dct ->
  exists out, template_replace conv txt dct = Some out /\ substituted (texts dct) txt out.
Proof.
  intros H1 H2 H3 H4 H5.
  destruct (template_loop_substituted conv txt dct [] txt) as [out [E Ho]];
    rewrite ?app_nil_r in *; auto.
  - apply substituted_none.
  - exists out. auto.
Qed.

Lemma texts_perm d d' : Permutation d d' -> Permutation (texts d) (texts d').
Proof. apply Permutation_map. Qed.

Lemma template_replace_order conv txt dct dct' :
  dict_ok (texts dct) -> keys_disjoint (texts dct) txt -> keys_separated (texts dct) txt ->
  values_clean (texts dct) -> no_raise conv txt dct -> Permutation dct dct' ->
  template_replace conv txt dct' = template_replace conv txt dct.
Proof.
  intros H1 H2 H3 H4 H5 HP.
  assert (Hin : forall x, In x (texts dct) <-> In x (texts dct')).
  { intros x. split; apply Permutation_in; [|apply Permutation_sym]; now apply texts_perm. }
  assert (Hi : incl (texts dct') (texts dct)) by (intros x Hx; now apply Hin).
  destruct (template_replace_correct conv txt dct) as [o [E Ho]]; auto.
  destruct (template_replace_correct conv txt dct') as [o' [E' Ho']]; auto.
  - destruct H1 as [N F]. split.
    + eapply Permutation_NoDup; [|exact N]. now apply Permutation_map, texts_perm.
    + apply Forall_forall. intros x Hx. rewrite Forall_forall in F. auto.
  - eapply disjoint_incl; eassumption.
  - eapply separated_incl; eassumption.
  - eapply clean_incl; eassumption.
  - destruct H5 as [H5|H5]; [now left|right]. intros k r Hkr. apply (H5 k r).
    eapply Permutation_in; [apply Permutation_sym; exact HP|exact Hkr].
  - rewrite E, E'. f_equal. eapply substituted_fun; try eassumption.
    eapply substituted_incl; [|exact Ho']. intros x. symmetry. apply Hin.
Qed.

(** raising *)
Lemma template_loop_raises conv txt d new :
  template_loop conv txt d new = None <->
  conv = false /\ exists k r, In (k, ROther r) d /\ occurs_in k txt.
Proof.
  revert new. induction d as [|[k rv] d IH]; intros new; simpl.
  - split; [discriminate|]. intros [_ [k [r [[] _]]]].
  - destruct (contains k txt) eqn:E.
    + destruct rv as [s|r]; [|destruct conv].
      * rewrite IH. split; intros [H1 [k0 [r0 [H2 H3]]]]; (split; [assumption|]).
        -- exists k0, r0. auto.
        -- destruct H2 as [H2|H2]; [discriminate|]. exists k0, r0. auto.
      * rewrite IH. split; intros [H1 _]; discriminate.
      * split; [|reflexivity]. intros _. split; [reflexivity|].
        exists k, r. split; [now left|]. now apply contains_iff.
    + rewrite IH. split; intros [H1 [k0 [r0 [H2 H3]]]]; (split; [assumption|]).
      * exists k0, r0. auto.
      * destruct H2 as [H2|H2]; [|exists k0, r0; auto].
        injection H2 as -> ->. apply contains_iff in H3. congruence.
Qed.

Lemma template_replace_raises conv txt d :
  template_replace conv txt d = None <->
  conv = false /\ exists k r, In (k, ROther r) d /\ occurs_in k txt.
Proof. apply template_loop_raises. Qed.

(** nothing to replace *)
Lemma template_replace_absent conv txt d :
  (forall k v, In (k, v) d -> ~ occurs_in k txt) -> template_replace conv txt d = Some txt.
Proof.
  unfold template_replace. generalize txt at 3 4 as new.
  induction d as [|[k v] d IH]; intros new H; [reflexivity|]. simpl.
  destruct (contains k txt) eqn:E.
  - exfalso. apply contains_iff in E. eapply H; [left; reflexivity|exact E].
  - apply IH. intros k0 v0 H0. apply (H k0 v0). now right.
Qed.

(** files *)
Lemma fupd_eq fs n c : fupd fs n c n = Some c.
Proof. unfold fupd. destruct (list_eq_dec ascii_dec n n); congruence. Qed.
Lemma fupd_neq fs n c m : m <> n -> fupd fs n c m = fs m.
Proof. unfold fupd. destruct (list_eq_dec ascii_dec m n); congruence. Qed.

Lemma app_ne {A} (a b : list A) : b <> [] -> a ++ b <> a.
Proof. intros Hb E. apply Hb. apply (app_inv_head a). now rewrite app_nil_r. Qed.

Lemma file_template_replace_ok conv fs fn dct bak fs' :
  file_template_replace conv fs fn dct bak = inr fs' ->
  exists old new, fs fn = Some old /\ template_replace conv old dct = Some new /\
    fs' fn = Some new /\ (bak <> [] -> fs' (fn ++ bak) = Some old) /\
    (forall n, n <> fn -> n <> fn ++ bak -> fs' n = fs n).
Proof.
  unfold file_template_replace. destruct (fs fn) as [old|]; [|discriminate].
  destruct (template_replace conv old dct) as [new|] eqn:E; [|discriminate].
  intros H. injection H as <-. exists old, new. repeat split; auto.
  - apply fupd_eq.
  - intros Hb. rewrite fupd_neq by now apply app_ne. destruct bak; [congruence|]. apply fupd_eq.
  - intros n H1 H2. rewrite fupd_neq by assumption. destruct bak; [reflexivity|].
    now rewrite fupd_neq.
Qed.

Lemma file_template_replace_fail conv fs fn dct bak fs' :
  file_template_replace conv fs fn dct bak = inl fs' -> fs' = fs.
Proof.
  unfold file_template_replace. destruct (fs fn) as [old|]; [|congruence].
  destruct (template_replace conv old dct); congruence.
Qed.

Lemma template_replace_unique conv txt (dct : list (pstr * rval)) :
  let rules := map (fun kv => (fst kv, frepr (snd kv))) dct in
  dict_ok rules -> keys_disjoint rules txt -> keys_separated rules txt -> values_clean rules ->
  (conv = true \/ forall k r, In (k, ROther r) dct -> ~ occurs_in k txt) ->
  exists out, template_replace conv txt dct = Some out /\ substituted rules txt out
    /\ forall out', substituted rules txt out' -> out' = out.
Proof.
  intros rules H1 H2 H3 H4 H5.
  destruct (template_replace_correct conv txt dct H1 H2 H3 H4 H5) as [out [E Ho]].
  exists out. split; [exact E|]. split; [exact Ho|]. intros out' Ho'.
  eapply substituted_fun; eassumption.
Qed.

(** ** the conditions are decidable *)
Definition occs (k txt : pstr) : list nat :=
  filter (fun i => is_prefix k (skipn i txt)) (seq 0 (S (length txt))).

Lemma occs_complete k txt i : occurs_at k txt i -> In i (occs k txt).
Proof.
  intros [a [b [-> <-]]]. apply filter_In. split.
  - apply in_seq. rewrite !app_length. lia.
  - rewrite skipn_app_exact. apply is_prefix_app.
Qed.

Definition pairs_ok (dct : list (pstr * pstr)) (f : pstr -> pstr -> pstr -> bool) : bool :=
  forallb (fun kv1 => forallb (fun kv2 =>
     if list_eq_dec ascii_dec (fst kv1) (fst kv2) then true
     else f (fst kv1) (fst kv2) (snd kv2)) dct) dct.

Lemma pairs_ok_spec dct f k1 v1 k2 v2 :
  pairs_ok dct f = true -> In (k1, v1) dct -> In (k2, v2) dct -> k1 <> k2 -> f k1 k2 v2 = true.
Proof.
  unfold pairs_ok. intros H I1 I2 Hne. rewrite forallb_forall in H. specialize (H _ I1).
  rewrite forallb_forall in H. specialize (H _ I2). simpl in H.
  destruct (list_eq_dec ascii_dec k1 k2); congruence.
Qed.

Definition check_disjoint dct txt : bool := pairs_ok dct (fun k1 k2 _ =>
  forallb (fun i => forallb (fun j => (i + length k1 <=? j) || (j + length k2 <=? i))
                            (occs k2 txt)) (occs k1 txt)).

Lemma check_disjoint_sound dct txt : check_disjoint dct txt = true -> keys_disjoint dct txt.
Proof.
  intros H k1 v1 k2 v2 i j I1 I2 Hne O1 O2.
  pose proof (pairs_ok_spec _ _ _ _ _ _ H I1 I2 Hne) as E. simpl in E.
  rewrite forallb_forall in E. specialize (E _ (occs_complete _ _ _ O1)).
  rewrite forallb_forall in E. specialize (E _ (occs_complete _ _ _ O2)).
  apply orb_true_iff in E. rewrite !Nat.leb_le in E. exact E.
Qed.

Definition check_separated dct txt : bool := pairs_ok dct (fun k1 k2 _ =>
  forallb (fun n => negb (contains (firstn n k1 ++ k2) txt)) (seq 1 (length k1 - 1))).

Lemma check_separated_sound dct txt : check_separated dct txt = true -> keys_separated dct txt.
Proof.
  intros H k1 v1 k2 v2 q p I1 I2 Hne E Hq Hp.
  pose proof (pairs_ok_spec _ _ _ _ _ _ H I1 I2 Hne) as C. simpl in C.
  rewrite forallb_forall in C. specialize (C (length q)).
  rewrite <- contains_iff. rewrite E, firstn_app, Nat.sub_diag, firstn_all, app_nil_r in C.
  intros Hc. rewrite Hc in C. enough (Hs : In (length q) (seq 1 (length (q ++ p) - 1))).
  { specialize (C Hs). discriminate. } apply in_seq. rewrite app_length.
  destruct q; [congruence|]. destruct p; [congruence|]. simpl. lia.
Qed.

Definition check_clean dct : bool := pairs_ok dct (fun k1 _ v2 =>
  forallb (fun n => negb (is_prefix k1 (skipn n v2)) && negb (is_prefix (skipn n v2) k1))
          (seq 0 (length v2))).

Lemma check_clean_sound dct : check_clean dct = true -> values_clean dct.
Proof.
  intros H k1 v1 k2 v2 x y I1 I2 Hne E Hy.
  pose proof (pairs_ok_spec _ _ _ _ _ _ H I1 I2 Hne) as C. simpl in C.
  rewrite forallb_forall in C. specialize (C (length x)).
  rewrite E, skipn_app_exact in C. rewrite <- !prefix_iff.
  assert (Hs : In (length x) (seq 0 (length (x ++ y)))).
  { apply in_seq. rewrite app_length. destruct y; [congruence|]. simpl. lia. }
  specialize (C Hs). apply andb_true_iff in C. rewrite !negb_true_iff in C.
  destruct C. split; congruence.
Qed.

Definition check_dict (dct : list (pstr * pstr)) : bool :=
  forallb (fun kv => match fst kv with [] => false | _ => true end) dct &&
  (fix nd (l : list pstr) := match l with
     | [] => true
     | x :: r => negb (existsb (fun y => if list_eq_dec ascii_dec x y then true else false) r) && nd r
     end) (map fst dct).

Lemma check_dict_sound dct : check_dict dct = true -> dict_ok dct.
Proof.
  unfold check_dict. rewrite andb_true_iff. intros [H1 H2]. split.
  - clear H1. induction (map fst dct) as [|x r IH]; constructor.
    + apply andb_true_iff in H2. destruct H2 as [H2 _]. apply negb_true_iff in H2.
      intros Hin. rewrite <- not_true_iff_false in H2. apply H2. apply existsb_exists.
      exists x. split; [assumption|]. destruct (list_eq_dec ascii_dec x x); congruence.
    + apply IH. apply andb_true_iff in H2. apply H2.
  - apply Forall_forall. rewrite forallb_forall in H1. intros kv Hkv. specialize (H1 _ Hkv).
    destruct (fst kv); congruence.
Qed.

