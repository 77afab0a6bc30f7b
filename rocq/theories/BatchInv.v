(** Proofs about histories of write_input: numbering, revisions, appended rows. *)
From Coq Require Import Ascii String ZArith Lia.
From stdpp Require Import base gmap strings pretty list.
From Verif Require Import Comb Template TemplateSpec Sql SqlSpec SqlProofs Fs FsProofs Batch BatchSpec BatchProofs.
Local Open Scope string_scope.
Local Open Scope list_scope.

(** ** max *)
Lemma max_int_none l : max_int l = Some None -> forall z, VInt z ∉ l.
Proof.
  induction l as [|v l IH]; simpl; intros H z Hz; [now apply elem_of_nil in Hz|].
  destruct (max_int l) as [[m|]|]; destruct v; try discriminate.
  apply elem_of_cons in Hz as [Hz|Hz]; [discriminate|]. now apply (IH eq_refl z).
Qed.
Lemma max_int_some l : forall m, max_int l = Some (Some m) -> VInt m ∈ l /\ forall z, VInt z ∈ l -> (z <= m)%Z.
Proof.
  induction l as [|v l IH]; simpl; intros m H; [discriminate|].
  destruct (max_int l) as [[m'|]|] eqn:E; destruct v; try discriminate.
  - injection H as ->. destruct (IH _ eq_refl) as [I1 I2]. split; [now right|].
    intros z Hz. apply elem_of_cons in Hz as [Hz|Hz]; [discriminate|auto].
  - injection H as <-. destruct (IH _ eq_refl) as [I1 I2]. split.
    + destruct (Z.max_spec m' z) as [[? ->]|[? ->]]; [left|now right].
    + intros z' Hz. apply elem_of_cons in Hz as [Hz|Hz]; [injection Hz as ->; lia|]. specialize (I2 _ Hz). lia.
  - injection H as <-. split; [left|]. intros z' Hz. apply elem_of_cons in Hz as [Hz|Hz]; [injection Hz as ->; lia|].
    exfalso. eapply max_int_none; eauto.
Qed.
Lemma column_in t c v : v ∈ column t c <-> exists i, cell_at t i c = Some v.
Proof.
  unfold column, cell_at. rewrite elem_of_list_fmap. split.
  - intros (r & -> & Hr). apply elem_of_list_lookup in Hr. destruct Hr as [i Hi]. exists i. now rewrite Hi.
  - intros (i & Hi). apply fmap_Some in Hi. destruct Hi as (r & Hr & ->). exists r. split; [reflexivity|].
    eapply elem_of_list_lookup_2; eauto.
Qed.
Lemma cell_at_lt t i c v : cell_at t i c = Some v -> i < nrows t.
Proof. unfold cell_at, nrows. intros H. apply fmap_Some in H. destruct H as (r & Hr & _). eapply lookup_lt_Some; eauto. Qed.

Section Inv.
Variable aff : string -> val -> val.
Variable root : path.
Variable db_name : string.
Hypothesis aff_int : forall z, aff "INTEGER" (VInt z) = VInt z.
Notation db := (dbfn root db_name).

Record good (t : table) : Prop := Good {
  g_idx : ctype (t_cols t) "idx" = "INTEGER";
  g_rev : ctype (t_cols t) "revision" = "INTEGER";
  g_num : numbered t;
  g_revs : revisions t;
  g_ok : tab_ok t }.
Definition goods (tb : tables) : Prop := forall n t, tb !! n = Some t -> good t.

Lemma ctype_has t k ty : ctype (t_cols t) k = ty -> ty <> "" -> has_column t k = true.
Proof.
  unfold ctype, has_column. intros H Hne. induction (t_cols t) as [|[n y] l IH]; simpl in *; [subst; contradiction|].
  destruct (String.eqb n k); [reflexivity|auto].
Qed.

(** ** rows of records *)
Lemma add_hostname_get h r k :
  dict_get (add_hostname h r) k = if String.eqb k "hostname" then Some (auto_entry "hostname" (VText h)) else dict_get r k.
Proof.
  unfold add_hostname. destruct (String.eqb_spec k "hostname") as [->|Hne]; [apply dict_get_set_eq|].
  apply dict_get_set_ne. congruence.
Qed.
Lemma add_hostname_nodup h r : NoDup (map fst r) -> NoDup (map fst (add_hostname h r)).
Proof. apply dict_set_nodup. Qed.

Lemma rec_cell cols (r : record) k : NoDup (map fst r) ->
  cell (ins_row aff cols (sqlvals r)) k = match dict_get r k with Some e => aff (ctype cols k) (e_sqlval e) | None => VNull end.
Proof.
  intros Hn. destruct (dict_get r k) as [e|] eqn:E.
  - apply ins_row_cell; [now rewrite sqlvals_keys|]. now apply sqlvals_in.
  - apply ins_row_null. rewrite sqlvals_keys. now apply dict_get_none.
Qed.

Lemma ins_row_lookup cols rec : forall k v, ins_row aff cols rec !! k = Some v -> k ∈ map fst rec.
Proof.
  unfold ins_row.
  assert (G : forall rec (r : gmap string val) k v,
    fold_left (fun r kv => set_cell r (fst kv) (aff (ctype cols (fst kv)) (snd kv))) rec r !! k = Some v ->
    k ∈ map fst rec \/ is_Some (r !! k)).
  { clear. induction rec as [|[k0 v0] rec IH]; simpl; intros r k v H; [eauto|].
    apply IH in H. destruct H as [H|H]; [left; now right|].
    destruct (decide (k = k0)) as [->|Hne]; [left; left|]. right.
    unfold set_cell in H. destruct (aff _ _); simpl in H;
      rewrite ?lookup_delete_ne, ?lookup_insert_ne in H by congruence; exact H. }
  intros k v H. apply G in H. destruct H as [H|[v' H]]; [assumption|]. now rewrite lookup_empty in H.
Qed.

(** rows of a table grown by records *)
Lemma cell_at_app cols rows rows' i k :
  cell_at (Tab cols (rows ++ rows')) i k =
  if decide (i < length rows) then cell_at (Tab cols rows) i k else cell_at (Tab cols rows') (i - length rows) k.
Proof.
  unfold cell_at. simpl. destruct (decide (i < length rows)) as [H|H].
  - now rewrite lookup_app_l.
  - now rewrite lookup_app_r by lia.
Qed.
Lemma cell_at_cols cols cols' rows i k : cell_at (Tab cols rows) i k = cell_at (Tab cols' rows) i k.
Proof. reflexivity. Qed.

Section OneCall.
Variable c : call.

Definition the_recs (h : string) (rv z : Z) (params : list (list pset)) : list record :=
  map (add_hostname h) (recs_from c rv z 0 params).

Lemma new_cell cols h rv z params j i k :
  cell_at (Tab cols (map (fun r => ins_row aff cols (sqlvals r)) (take j (the_recs h rv z params)))) i k =
  if decide (i < j) then
    (fun ps => match dict_get (add_hostname h (calc_record c rv (z + Z.of_nat i + 1) ps)) k with
               | Some e => aff (ctype cols k) (e_sqlval e) | None => VNull end) <$> (params !! i)
  else None.
Proof.
  unfold cell_at, the_recs. simpl. rewrite list_lookup_fmap.
  destruct (decide (i < j)) as [H|H].
  - rewrite lookup_take by assumption. rewrite list_lookup_fmap, recs_from_lookup.
    destruct (params !! i) as [ps|]; simpl; [|reflexivity]. f_equal. apply rec_cell.
    apply add_hostname_nodup, calc_record_nodup.
  - now rewrite lookup_take_ge by lia.
Qed.
Lemma the_recs_length h rv z params : length (the_recs h rv z params) = length params.
Proof. unfold the_recs. rewrite map_length. apply recs_from_length. Qed.

Lemma cell_bound cols rows i k : length rows <= i -> cell_at (Tab cols rows) i k = None.
Proof. intros H. unfold cell_at. simpl. now rewrite lookup_ge_None_2. Qed.

(** growing a good table *)
Lemma revisions_le t : revisions t -> forall j i z z', i <= j ->
  cell_at t i "revision" = Some (VInt z) -> cell_at t j "revision" = Some (VInt z') -> (z <= z')%Z.
Proof.
  intros (R1 & _ & R3) j. induction j as [|j IH]; intros i z z' Hij Hi Hj.
  - assert (i = 0) by lia. subst. rewrite Hi in Hj. injection Hj as ->. lia.
  - destruct (decide (i = S j)) as [->|Hne]; [rewrite Hi in Hj; injection Hj as ->; lia|].
    destruct (R1 j) as [z1 Hz1]; [apply cell_at_lt in Hj; lia|].
    specialize (IH i z z1 ltac:(lia) Hi Hz1). destruct (R3 _ _ _ Hz1 Hj); lia.
Qed.

Lemma grow_good t ext h rv z params j :
  good t -> (params = [] \/
    (Z.of_nat (nrows t) = z + 1)%Z /\
    (nrows t = 0 /\ rv = 0%Z \/ exists r, cell_at t (nrows t - 1) "revision" = Some (VInt r) /\ 0 < nrows t /\ rv = (r + 1)%Z)) ->
  j <= length params ->
  fits (t_cols t ++ ext) (take j (the_recs h rv z params)) ->
  good (Tab (t_cols t ++ ext) (t_rows t ++ map (fun r => ins_row aff (t_cols t ++ ext) (sqlvals r))
                                 (take j (the_recs h rv z params)))).
Proof.
  intros [Gi Gr Gn Gv Gk] Hp Hj Hfit.
  assert (Ti : ctype (t_cols t ++ ext) "idx" = "INTEGER") by (apply ctype_app; [assumption|discriminate]).
  assert (Tr : ctype (t_cols t ++ ext) "revision" = "INTEGER") by (apply ctype_app; [assumption|discriminate]).
  set (cols := t_cols t ++ ext) in *.
  set (rows' := map _ _).
  assert (Hlen : length rows' = j).
  { unfold rows'. rewrite map_length, take_length, the_recs_length. lia. }
  assert (Hold : forall i k, i < nrows t -> cell_at (Tab cols (t_rows t ++ rows')) i k = cell_at t i k).
  { intros i k Hi. rewrite cell_at_app. rewrite decide_True by exact Hi. destruct t. reflexivity. }
  assert (Hnew : forall i k, nrows t <= i -> cell_at (Tab cols (t_rows t ++ rows')) i k =
    if decide (i - nrows t < j) then
      (fun ps => match dict_get (add_hostname h (calc_record c rv (z + Z.of_nat (i - nrows t) + 1) ps)) k with
               | Some e => aff (ctype cols k) (e_sqlval e) | None => VNull end) <$> (params !! (i - nrows t)) else None).
  { intros i k Hi. rewrite cell_at_app. rewrite decide_False by (unfold nrows in Hi; lia). apply new_cell. }
  assert (Hnr : nrows (Tab cols (t_rows t ++ rows')) = nrows t + j).
  { unfold nrows. simpl. now rewrite app_length, Hlen. }
  assert (Hni : forall i, nrows t <= i < nrows t + j -> cell_at (Tab cols (t_rows t ++ rows')) i "idx" = Some (VInt (Z.of_nat i))).
  { intros i Hi. rewrite Hnew by lia. rewrite decide_True by lia.
    destruct (lookup_lt_is_Some_2 params (i - nrows t)) as [ps Hps]; [lia|]. rewrite Hps. simpl.
    rewrite add_hostname_get. simpl. rewrite calc_record_idx. simpl. rewrite Ti, aff_int. do 2 f_equal.
    destruct Hp as [->|[Hz _]]; [simpl in *; lia|]. lia. }
  assert (Hnv : forall i, nrows t <= i < nrows t + j -> cell_at (Tab cols (t_rows t ++ rows')) i "revision" = Some (VInt rv)).
  { intros i Hi. rewrite Hnew by lia. rewrite decide_True by lia.
    destruct (lookup_lt_is_Some_2 params (i - nrows t)) as [ps Hps]; [lia|]. rewrite Hps. simpl.
    rewrite add_hostname_get. simpl. rewrite calc_record_rev. simpl. now rewrite Tr, aff_int. }
  constructor; simpl.
  - assumption.
  - assumption.
  - intros i Hi. rewrite Hnr in Hi. destruct (decide (i < nrows t)) as [H|H]; [rewrite Hold by assumption; auto|].
    apply Hni. lia.
  - destruct Gv as (V1 & V2 & V3). split; [|split].
    + intros i Hi. rewrite Hnr in Hi. destruct (decide (i < nrows t)) as [H|H]; [rewrite Hold by assumption; auto|].
      exists rv. apply Hnv. lia.
    + intros H0. rewrite Hnr in H0. destruct (decide (0 < nrows t)) as [H|H]; [rewrite Hold by assumption; auto|].
      rewrite Hnv by lia. do 2 f_equal. destruct Hp as [->|[_ Hp]]; [simpl in *; lia|].
      destruct Hp as [[_ ->]|(r & _ & Hr & _)]; [reflexivity|lia].
    + intros i z0 z1 H0 H1. pose proof (cell_at_lt _ _ _ _ H1) as Hlt. rewrite Hnr in Hlt.
      destruct (decide (S i < nrows t)) as [H|H].
      * rewrite Hold in H0, H1 by lia. eauto.
      * rewrite Hnv in H1 by lia. injection H1 as <-.
        destruct (decide (S i = nrows t)) as [He|He].
        -- rewrite Hold in H0 by lia. destruct Hp as [->|[_ Hp]]; [simpl in *; lia|].
           destruct Hp as [[Hp _]|(r & Hr & _ & ->)]; [lia|].
           replace i with (nrows t - 1) in H0 by lia. rewrite Hr in H0. injection H0 as ->. auto.
        -- rewrite Hnv in H0 by lia. injection H0 as <-. auto.
  - intros i r k v Hr Hk. simpl in Hr. unfold colnames. simpl.
    apply lookup_app_Some in Hr. destruct Hr as [Hr|[_ Hr]].
    + specialize (Gk _ _ _ _ Hr Hk). unfold cols. rewrite map_app. apply elem_of_app. left. exact Gk.
    + unfold rows' in Hr. rewrite list_lookup_fmap in Hr. apply fmap_Some in Hr. destruct Hr as (rec & Hrec & ->).
      apply ins_row_lookup in Hk. rewrite sqlvals_keys in Hk.
      unfold fits in Hfit. rewrite Forall_forall in Hfit. apply (Hfit rec); [|assumption]. eapply elem_of_list_lookup_2; eauto.
Qed.

(** the header of a new table *)
Lemma find_first {A} (f : A -> bool) l x : List.find f l = Some x -> In x l /\ f x = true.
Proof. apply List.find_some. Qed.
Lemma header_type (hd : list (string * string)) t k ty :
  create_table hd = Some t -> fix_sqltype ty = ty -> (k, ty) ∈ hd -> (forall ty', (k, ty') ∈ hd -> ty' = ty) ->
  ctype (t_cols t) k = ty.
Proof.
  intros H Hfix Hin Hall.
  assert (Ht : t_cols t = map (fun x => (fst x, fix_sqltype (snd x))) hd).
  { unfold create_table in H. destruct hd as [|x hd']; [discriminate|]. destruct (ci_nodup _); [|discriminate].
    injection H as <-. reflexivity. }
  rewrite Ht. clear H Ht t. unfold ctype.
  induction hd as [|[n y] l IH]; [now apply elem_of_nil in Hin|]. simpl.
  destruct (String.eqb_spec n k) as [->|Hne].
  - simpl. rewrite (Hall y) by left. assumption.
  - apply IH; [|intros ty' H; apply Hall; now right]. apply elem_of_cons in Hin as [Hin|Hin]; [injection Hin as -> _; contradiction|assumption].
Qed.

Lemma raw_header_in (recs : list record) k ty :
  (k, ty) ∈ raw_header recs <-> exists r e, r ∈ recs /\ (k, e) ∈ r /\ ty = upper (e_type e).
Proof.
  unfold raw_header. rewrite elem_of_list_In, in_flat_map. split.
  - intros (r & Hr & H). apply in_map_iff in H. destruct H as ([k' e] & E & H). simpl in E. injection E as -> <-.
    apply elem_of_list_In in Hr, H. exists r, e. auto.
  - intros (r & e & Hr & He & ->). exists r. apply elem_of_list_In in Hr, He. split; [assumption|].
    apply in_map_iff. exists (k, e). auto.
Qed.

Lemma dict_get_nodup {A} (d : list (string * A)) k v : NoDup (map fst d) -> (k, v) ∈ d -> dict_get d k = Some v.
Proof.
  induction d as [|[k' v'] d IH]; simpl; intros Hn H; [now apply elem_of_nil in H|].
  apply NoDup_cons in Hn. destruct Hn as [Hk Hn].
  apply elem_of_cons in H as [H|H]; [injection H as -> ->; now rewrite String.eqb_refl|].
  destruct (String.eqb_spec k' k) as [->|]; [|auto]. exfalso. apply Hk.
  change k with (fst (k, v)). now apply elem_of_list_fmap_1.
Qed.

Lemma recs_header h rv z params k e :
  k <> "hostname" -> params <> [] -> (forall idx, last_entry (extra_params (c_study c) rv idx) k = Some (e idx)) ->
  (forall idx, upper (e_type (e idx)) = "INTEGER") ->
  (k, "INTEGER") ∈ raw_header (the_recs h rv z params) /\
  (forall ty, (k, ty) ∈ raw_header (the_recs h rv z params) -> ty = "INTEGER").
Proof.
  intros Hk Hp He Hty.
  assert (G : forall r, r ∈ the_recs h rv z params -> NoDup (map fst r) /\ exists idx, dict_get r k = Some (e idx)).
  { intros r Hr. unfold the_recs in Hr. apply elem_of_list_fmap in Hr. destruct Hr as (r0 & -> & Hr).
    apply elem_of_list_lookup in Hr. destruct Hr as [i Hi]. rewrite recs_from_lookup in Hi.
    apply fmap_Some in Hi. destruct Hi as (ps & _ & ->). split; [apply add_hostname_nodup, calc_record_nodup|].
    eexists. rewrite add_hostname_get. destruct (String.eqb_spec k "hostname"); [contradiction|].
    rewrite calc_record_get, He. reflexivity. }
  split.
  - destruct (the_recs h rv z params) as [|r rs] eqn:E.
    { apply (f_equal length) in E. rewrite the_recs_length in E. destruct params; [contradiction|discriminate]. }
    destruct (G r) as (_ & idx & Hd); [left|]. apply raw_header_in. exists r, (e idx).
    split; [left|]. split; [now apply dict_get_in|]. symmetry. apply Hty.
  - intros ty H. apply raw_header_in in H. destruct H as (r & e' & Hr & He' & ->).
    destruct (G r Hr) as (Hn & idx & Hd). apply (dict_get_nodup _ _ _ Hn) in He'. rewrite He' in Hd. injection Hd as ->. apply Hty.
Qed.

Definition recs_ok (rv : Z) (mi : option Z) (h : string) (recs : list record) : Prop :=
  recs = [] \/ exists z, mi = Some z /\ recs = the_recs h rv z (c_params c).

Lemma db_state_good tb0 new rv mi h recs tb j :
  call_ok db_name c -> goods tb0 -> (new = true -> tb0 = ∅) -> numbers c new tb0 rv mi -> recs_ok rv mi h recs ->
  db_state aff c tb0 new recs tb j -> goods tb.
Proof.
  intros Hok Hg Hnew Hnum Hrecs Hs. destruct Hs as [|ext t j -> Hn Hc -> Hj Hfit|t ext j -> Ht Hj Hfit].
  - assumption.
  - specialize (Hnew eq_refl). subst tb0. destruct Hnum as [-> ->].
    intros n t' Ht'. unfold grow in Ht'. apply lookup_insert_Some in Ht'. destruct Ht' as [[_ <-]|[_ Ht']]; [|now rewrite lookup_empty in Ht'].
    destruct Hrecs as [->|(z & Hz & ->)].
    { exfalso. simpl in Hc. destruct (ok_ord _ _ Hok []) as [_ Ho]. destruct (c_ord c []) as [|x l]; [discriminate|].
      assert (x ∈ []) as Hx; [apply Ho; left|]. now apply elem_of_nil in Hx. }
    injection Hz as <-.
    assert (Hd : c_params c = [] \/ c_params c <> []) by (destruct (c_params c); [now left|now right]). destruct Hd as [Hp|Hp].
    { exfalso. unfold the_recs in Hc. rewrite Hp in Hc. simpl in Hc.
      destruct (ok_ord _ _ Hok []) as [_ Ho]. destruct (c_ord c []) as [|x l]; [discriminate|].
      assert (x ∈ []) as Hx; [apply Ho; left|]. now apply elem_of_nil in Hx. }
    destruct (ok_ord _ _ Hok (raw_header (the_recs h 0 (-1) (c_params c)))) as [_ Ho].
    assert (Ti : ctype (t_cols t) "idx" = "INTEGER").
    { destruct (recs_header h 0 (-1) (c_params c) "idx" (fun idx => auto_entry "idx" (VInt idx))) as [A B]; try done.
      eapply header_type; [exact Hc|reflexivity|now apply Ho|]. intros ty Hty. apply B. now apply Ho. }
    assert (Tr : ctype (t_cols t) "revision" = "INTEGER").
    { destruct (recs_header h 0 (-1) (c_params c) "revision" (fun idx => auto_entry "revision" (VInt 0))) as [A B]; try done.
      eapply header_type; [exact Hc|reflexivity|now apply Ho|]. intros ty Hty. apply B. now apply Ho. }
    pose proof (grow_good (Tab (t_cols t) []) [] h 0 (-1) (c_params c) j) as G. cbn [t_cols t_rows] in G. rewrite app_nil_r in G.
    cbn [t_cols t_rows]. apply G.
    + constructor; simpl; auto.
      * intros i Hi. unfold nrows in Hi. simpl in Hi. lia.
      * split; [intros i Hi; unfold nrows in Hi; simpl in Hi; lia|]. split; [intros Hi; unfold nrows in Hi; simpl in Hi; lia|].
        intros i z z' Hi. discriminate.
      * intros i r k v Hr. discriminate.
    + right. unfold nrows. simpl. split; [lia|auto].
    + now rewrite the_recs_length in Hj.
    + exact Hfit.
  - destruct Hnum as (t0 & Ht0 & Hmi & Hci & Hrv). rewrite Ht in Ht0. injection Ht0 as <-.
    pose proof (Hg _ _ Ht) as Gt.
    intros n t' Ht'. unfold grow in Ht'. apply lookup_insert_Some in Ht'. destruct Ht' as [[_ <-]|[_ Ht']]; [|eauto].
    cbn [t_cols t_rows].
    assert (Hrecs' : exists z p, recs = the_recs h rv z p /\ (p = [] \/ mi = Some z)).
    { destruct Hrecs as [->|(z & -> & ->)]; [exists 0%Z, []; auto|eauto]. }
    destruct Hrecs' as (z & p & -> & Hp). apply grow_good; [assumption| |now rewrite the_recs_length in Hj|assumption].
    destruct Hp as [-> | ->]; [auto|]. right.
    pose proof Gt as [Gi Gr Gn Gv _]. rewrite (ctype_has _ _ _ Gr) in Hrv by discriminate.
    destruct Hrv as (r & Hr & ->).
    apply max_int_some in Hmi. destruct Hmi as [M1 M2]. apply column_in in M1. destruct M1 as [i Hi].
    pose proof (cell_at_lt _ _ _ _ Hi) as Hlt. rewrite Gn in Hi by assumption. injection Hi as Hi.
    assert (Hz : (Z.of_nat (nrows t - 1) <= z)%Z).
    { apply M2. apply column_in. exists (nrows t - 1). apply Gn. lia. }
    split; [lia|]. right. destruct Gv as (V1 & V2 & V3). destruct (V1 (nrows t - 1)) as [rl Hrl]; [lia|].
    exists rl. split; [assumption|]. split; [lia|].
    apply max_int_some in Hr. destruct Hr as [R1 R2]. apply column_in in R1. destruct R1 as [i' Hi'].
    pose proof (cell_at_lt _ _ _ _ Hi') as Hlt'.
    assert (r <= rl)%Z by (eapply (revisions_le t); [split; eauto| |exact Hi'|exact Hrl]; lia).
    assert (rl <= r)%Z by (apply R2, column_in; eauto). f_equal. lia.
Qed.

Lemma recs_conv rv mi h recs0 :
  (recs0 = [] /\ (c_machines c = [] \/ c_params c = [])) \/
     (c_machines c <> [] /\ exists z, mi = Some z /\ recs0 = recs_from c rv z 0 (c_params c)) ->
  recs_ok rv mi h (map (add_hostname h) recs0).
Proof. intros [[-> _]|(_ & z & -> & ->)]; [now left|right; exists z; auto]. Qed.

Definition goodf (f : gmap path entry) : Prop := forall tb, f !! db = Some (EDb tb) -> goods tb.
Lemma goods_empty : goods ∅.
Proof. intros n t H. now rewrite lookup_empty in H. Qed.

Lemma write_input_good f s :
  call_ok db_name c -> goodf f -> s ∈ stops (write_input aff root db_name c) (St f None) ->
  goodf (fs s) /\ goodf (fs (commit db s)).
Proof.
  intros Hok Hf H. apply write_input_stops in H; [|assumption|reflexivity].
  destruct H as [[Hx [_ H]]|(new & tb0 & rv & mi & recs0 & h & Hnew & Hnum & Hrecs & (tb & j & Hd & Hs) & Ht)].
  - assert (G : goodf (fs s)).
    { intros tb Htb. simpl in H. destruct H as [H|[[_ H]|[_ H]]]; rewrite Htb in H; [|discriminate|].
      - symmetry in H. auto.
      - injection H as ->. apply goods_empty. }
    split; [assumption|]. unfold commit. rewrite Hx. assumption.
  - assert (G0 : goods tb0). { destruct Hnew as [(_ & -> & _)|(_ & _ & H)]; [apply goods_empty|auto]. }
    assert (Hn : new = true -> tb0 = ∅). { destruct Hnew as [(_ & -> & _)|(-> & _)]; [auto|discriminate]. }
    pose proof (recs_conv _ _ h _ Hrecs) as Hr.
    assert (G : goodf (fs s)).
    { intros tb' Htb. rewrite Hd in Htb. injection Htb as <-. eapply db_state_good; eauto. }
    split; [assumption|]. unfold commit. destruct (txn s) as [tb'|] eqn:E; [|assumption].
    intros tb2 Htb2. simpl in Htb2. rewrite lookup_insert in Htb2. injection Htb2 as <-.
    destruct (Ht _ eq_refl) as [j' Hj']. eapply db_state_good; eauto.
Qed.
End OneCall.

Lemma reach_good f : reach aff root db_name f -> goodf f.
Proof.
  induction 1 as [f H|f c s Hf IH Hok Hs|f c s Hf IH Hok Hs|f f' Hf IH H].
  - intros tb Htb. congruence.
  - eapply write_input_good; eauto.
  - eapply write_input_good; eauto.
  - intros tb Htb. destruct H as [H|H]; [apply IH; congruence|congruence].
Qed.

(** ** A successful call *)
Lemma write_input_exec c s s' u :
  call_ok db_name c -> txn s = None ->
  exec (write_input aff root db_name c) s = (s', Some u) ->
  txn s' = None /\
  exists new tb0 rv mi recs0 h,
    ((new = true /\ tb0 = ∅ /\ (fs s !! db = None \/ c_w c = true)) \/
     (new = false /\ c_w c = false /\ fs s !! db = Some (EDb tb0))) /\
    numbers c new tb0 rv mi /\
    ((recs0 = [] /\ (c_machines c = [] \/ c_params c = [])) \/
     (c_machines c <> [] /\ hostname_val c = Some h /\ exists z, mi = Some z /\ recs0 = recs_from c rv z 0 (c_params c))) /\
    let recs := map (add_hostname h) recs0 in
    exists tb t, fs s' !! db = Some (EDb tb) /\ tb !! c_table c = Some t /\
      db_state aff c tb0 new recs tb (length recs) /\ fits (t_cols t) recs.
Proof.
  intros [Hord Hdirs Hexcl] Hx H. rewrite (proj1 (write_input_split aff root db_name c s)) in H.
  rewrite exec_bind in H. destruct (exec (prepare root db_name c) s) as [s1 [new|]] eqn:E1; [|discriminate].
  pose proof (prepare_exec _ _ _ _ _ _ E1) as (X1 & tb0 & F1 & Hnew). rewrite Hx in X1.
  unfold main in H. rewrite exec_bind in H.
  destruct (exec (numbering root db_name c new) s1) as [s2 [[rv mi]|]] eqn:E2; [|discriminate].
  apply (numbering_exec _ _ _ _ _ _ _ _ tb0) in E2; [|destruct Hnew as [(-> & _)|(_ & -> & _)]; auto|assumption|assumption].
  destruct E2 as [-> Hnum].
  rewrite exec_bind in H. destruct (exec (all_machines root c rv mi) s1) as [s3 [recs0|]] eqn:E3; [|discriminate].
  assert (K : fs s3 !! db = fs s1 !! db /\ txn s3 = txn s1).
  { eapply keepdb_all_machines; eauto. eapply exec_stop; eauto. }
  destruct K as [F3 X3]. rewrite F1 in F3. rewrite X1 in X3.
  pose proof (all_machines_result _ _ _ _ _ _ _ E3) as Hrecs.
  assert (Hgo : forall h, exec (db_phase aff root db_name c new rv (map (add_hostname h) recs0)) s3 = (s', Some u) ->
     txn s' = None /\ exists tb t, fs s' !! db = Some (EDb tb) /\ tb !! c_table c = Some t /\
      db_state aff c tb0 new (map (add_hostname h) recs0) tb (length (map (add_hostname h) recs0)) /\ fits (t_cols t) (map (add_hostname h) recs0)).
  { intros h Hh. apply (db_phase_exec _ _ _ _ _ _ _ _ _ _ tb0 Hexcl X3 F3) in Hh.
    - destruct Hh as (A1 & tb & t & A2 & A3 & A4 & A5 & _). eauto 8.
    - intros ->. destruct Hnum as (t & Ht & _). rewrite Ht. eauto. }
  destruct recs0 as [|r0 recs0'] eqn:Er.
  - destruct (Hgo _ H) as [A B]. split; [assumption|].
    exists new, tb0, rv, mi, [], (default "" (hostname_val c)).
    split; [assumption|]. split; [assumption|]. split; [|exact B].
    destruct Hrecs as [Hrecs|(Hm & z & Hz & Hr)]; [auto|]. left. split; [reflexivity|]. right.
    destruct (c_params c); [reflexivity|discriminate].
  - rewrite <- Er in *. destruct (hostname_val c) as [h|] eqn:Eh.
    + subst recs0. destruct (Hgo h H) as [A B]. split; [assumption|].
      exists new, tb0, rv, mi, (r0 :: recs0'), h. split; [assumption|]. split; [assumption|]. split; [|exact B].
      destruct Hrecs as [[Hr _]|(Hm & Hz)]; [discriminate|]. right. auto.
    + subst recs0. discriminate.
Qed.

(** what the database holds afterwards *)
Definition rows_of (tb : tables) (n : string) : list (gmap string val) :=
  match tb !! n with Some t => t_rows t | None => [] end.
Definition cols_of (tb : tables) (n : string) : list (string * string) :=
  match tb !! n with Some t => t_cols t | None => [] end.

Lemma db_state_full c tb0 new recs tb j t :
  db_state aff c tb0 new recs tb j -> tb !! c_table c = Some t ->
  (new = true -> tb0 !! c_table c = None) ->
  (exists ext, t_cols t = cols_of tb0 (c_table c) ++ ext) /\
  t_rows t = rows_of tb0 (c_table c) ++ map (fun r => ins_row aff (t_cols t) (sqlvals r)) (take j recs) /\
  (forall n, n <> c_table c -> tb !! n = tb0 !! n).
Proof.
  intros Hs Ht Hnew. unfold rows_of, cols_of.
  destruct Hs as [|ext t' j -> Hn Hc -> Hj Hfit|t' ext j -> Ht' Hj Hfit].
  - rewrite Ht. simpl. rewrite app_nil_r. split; [exists []; now rewrite app_nil_r|]. auto.
  - unfold grow in Ht. rewrite lookup_insert in Ht. injection Ht as <-. rewrite Hn. simpl.
    split; [eauto|]. split; [reflexivity|]. intros n Hne. unfold grow. rewrite lookup_insert_ne by congruence. reflexivity.
  - unfold grow in Ht. rewrite lookup_insert in Ht. injection Ht as <-. rewrite Ht'. simpl.
    split; [eauto|]. split; [reflexivity|]. intros n Hne. unfold grow. rewrite lookup_insert_ne by congruence. reflexivity.
Qed.

(** every table of a database state *)
Lemma db_state_prefix c tb0 recs tb j n t :
  db_state aff c tb0 false recs tb j -> tb0 !! n = Some t ->
  exists t', tb !! n = Some t' /\ (exists ext, t_cols t' = t_cols t ++ ext) /\ exists new, t_rows t' = t_rows t ++ new /\ length new <= length recs.
Proof.
  intros Hs Hn.
  destruct Hs as [|? ? ? H|t' ext j _ Ht' Hj Hfit]; [|discriminate|].
  - exists t. split; [assumption|]. split; [exists []; now rewrite app_nil_r|]. exists []. rewrite app_nil_r. split; [reflexivity|simpl; lia].
  - unfold grow. destruct (decide (n = c_table c)) as [->|Hne].
    + rewrite Hn in Ht'. injection Ht' as <-. rewrite lookup_insert. eexists. split; [reflexivity|]. simpl.
      split; [eauto|]. eexists. split; [reflexivity|]. rewrite map_length, take_length. lia.
    + rewrite lookup_insert_ne by congruence. exists t. split; [assumption|]. split; [exists []; now rewrite app_nil_r|].
      exists []. rewrite app_nil_r. split; [reflexivity|simpl; lia].
Qed.
End Inv.
