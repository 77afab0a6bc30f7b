From Coq Require Import List Bool Ascii String Lia Arith.
From Verif Require Import H5 H5Spec.
Import ListNotations.
Local Open Scope list_scope.
Local Notation length := List.length.

(** ** Path names *)

Fixpoint no_slash (s : string) : Prop :=
  match s with EmptyString => True | String c s' => c <> slash /\ no_slash s' end.
Definition comp_ok (w : string) : Prop := w <> EmptyString /\ no_slash w.

Lemma no_slash_app a b : no_slash a -> no_slash b -> no_slash (a ++ b)%string.
Proof. induction a as [|c a IH]; cbn; [auto|]. intros [H1 H2] H. split; auto. Qed.

Lemma cons_comp_ok w l : no_slash w -> Forall comp_ok l -> Forall comp_ok (cons_comp w l).
Proof.
  intros H F. destruct w; [exact F|]. constructor; [|exact F]. split; [discriminate | exact H].
Qed.

Lemma comps_from_ok s : forall w, no_slash w -> Forall comp_ok (comps_from w s).
Proof.
  induction s as [|c s IH]; intros w H; cbn.
  - apply cons_comp_ok; [exact H | constructor].
  - destruct (Ascii.eqb_spec c slash).
    + apply cons_comp_ok; [exact H|]. apply IH. exact I.
    + apply IH. apply no_slash_app; [exact H|]. cbn. auto.
Qed.

Lemma comps_ok s : Forall comp_ok (comps s).
Proof. apply comps_from_ok. exact I. Qed.

Lemma app_str_assoc a b c : ((a ++ b) ++ c = a ++ (b ++ c))%string.
Proof. induction a; cbn; congruence. Qed.
Lemma app_str_nil a : (a ++ "" = a)%string.
Proof. induction a; cbn; congruence. Qed.

Lemma comps_word x : forall w s, no_slash x -> comps_from w (x ++ s) = comps_from (w ++ x) s.
Proof.
  induction x as [|c x IH]; intros w s H; cbn.
  - rewrite app_str_nil. reflexivity.
  - destruct H as [H1 H2]. destruct (Ascii.eqb_spec c slash); [contradiction|].
    rewrite IH by exact H2. rewrite app_str_assoc. reflexivity.
Qed.

Lemma comps_join p : Forall comp_ok p -> comps (join p) = p.
Proof.
  unfold comps. induction p as [|n p IH]; intro F; [reflexivity|].
  inversion F as [|? ? [N1 N2] F']; subst. destruct p as [|m p].
  - cbn [join]. rewrite <- (app_str_nil n) at 1. rewrite comps_word by exact N2. cbn.
    destruct n; [congruence | reflexivity].
  - change (join (n :: m :: p)) with (n ++ String slash (join (m :: p)))%string.
    rewrite comps_word by exact N2. cbn [comps_from]. rewrite Ascii.eqb_refl.
    rewrite IH by exact F'. change ("" ++ n)%string with n. destruct n; [congruence | reflexivity].
Qed.

Lemma comps_slash s : comps (String slash s) = comps s.
Proof. unfold comps. cbn [comps_from]. rewrite Ascii.eqb_refl. reflexivity. Qed.

Lemma comps_name k : comps (name k) = comps k.
Proof. unfold name. change "/"%char with slash. rewrite comps_slash. apply comps_join. apply comps_ok. Qed.

Lemma with_slash_join p : Forall comp_ok p -> with_slash (join p) = String slash (join p).
Proof.
  intro F. destruct p as [|n p]; [reflexivity|]. inversion F as [|? ? [N1 N2] _]; subst.
  destruct n as [|c n]; [congruence|]. cbn in N2.
  assert (E : exists r, join (String c n :: p) = String c r) by (destruct p; cbn; eauto).
  destruct E as (r & ->). cbn. destruct (Ascii.eqb_spec c slash); [tauto | reflexivity].
Qed.

Lemma name_inj k k' : name k = name k' <-> comps k = comps k'.
Proof.
  split; intro H.
  - rewrite <- (comps_name k), <- (comps_name k'), H. reflexivity.
  - unfold name. rewrite H. reflexivity.
Qed.

Lemma name_name k : name (name k) = name k.
Proof. apply name_inj. apply comps_name. Qed.

Section H5.
Variable other bytes text : Type.
Variable enc : text -> bytes.
Variable dec : bytes -> option text.
Local Notation node := (node other bytes).
Local Notation tree := (tree other bytes).
Local Notation stored := (stored other bytes).
Local Notation value := (value other bytes text).
Local Notation child := (child other bytes).
Local Notation replace := (replace other bytes).
Local Notation setitem := (setitem other bytes).
Local Notation visit := (visit other bytes).
Local Notation visit_node := (visit_node other bytes).
Local Notation write_items := (write_items other bytes text enc).
Local Notation write_h5 := (write_h5 other bytes text enc).
Local Notation read_h5 := (read_h5 other bytes text dec).
Local Notation store := (store other bytes text enc).
Local Notation load := (load other bytes text dec).

Fixpoint get (p : list string) (t : tree) : option stored :=
  match p with
  | [] => None
  | n :: p' =>
      match child n t with
      | None => None
      | Some (Dset v) => match p' with [] => Some v | _ => None end
      | Some (Group c) => get p' c
      end
  end.

Fixpoint wfn (x : node) : Prop :=
  match x with
  | Dset _ => True
  | Group c => c <> [] /\ NoDup (map fst c) /\
      (fix all (l : list (string * node)) : Prop :=
         match l with [] => True | (_, y) :: l' => wfn y /\ all l' end) c
  end.
Definition wf (t : tree) : Prop := NoDup (map fst t) /\ Forall (fun ny => wfn (snd ny)) t.

Lemma wfn_group c : wfn (Group c) <-> c <> [] /\ wf c.
Proof.
  unfold wf. cbn [wfn].
  assert (E : (fix all (l : list (string * node)) : Prop :=
         match l with [] => True | (_, y) :: l' => wfn y /\ all l' end) c <-> Forall (fun ny => wfn (snd ny)) c).
  { induction c as [|[m y] c IH]; split; intro H; auto.
    - destruct H as [H1 H2]. constructor; [exact H1 | apply IH; exact H2].
    - inversion H; subst. split; [assumption | apply IH; assumption]. }
  tauto.
Qed.

Lemma child_in n t x : child n t = Some x -> In (n, x) t.
Proof.
  induction t as [|[m y] t IH]; cbn; [discriminate|]. destruct (String.eqb_spec n m); intro H.
  - injection H as <-. left. congruence.
  - right. auto.
Qed.
Lemma in_child n t x : NoDup (map fst t) -> In (n, x) t -> child n t = Some x.
Proof.
  induction t as [|[m y] t IH]; cbn; intros N H; [contradiction|]. inversion N; subst.
  destruct H as [H|H].
  - injection H as <- <-. rewrite String.eqb_refl. reflexivity.
  - destruct (String.eqb_spec n m) as [->|_]; [|auto].
    destruct H2. apply in_map_iff. exists (m, x). auto.
Qed.
Lemma child_none n t : child n t = None <-> ~ In n (map fst t).
Proof.
  induction t as [|[m y] t IH]; cbn; [tauto|]. destruct (String.eqb_spec n m) as [->|H].
  - split; [discriminate | tauto].
  - rewrite IH. split; intro G; [intros [E|E]; [congruence | tauto] | tauto].
Qed.

Lemma child_wf n t x : wf t -> child n t = Some x -> wfn x.
Proof. intros [_ F] H. apply child_in in H. rewrite Forall_forall in F. apply (F _ H). Qed.

Lemma child_app n t m y : child n (t ++ [(m, y)]) = match child n t with Some x => Some x | None => if String.eqb n m then Some y else None end.
Proof. induction t as [|[k z] t IH]; cbn; [reflexivity|]. destruct (String.eqb n k); auto. Qed.

Lemma replace_keys n x t : map fst (replace n x t) = map fst t.
Proof. induction t as [|[m y] t IH]; cbn; [reflexivity|]. destruct (String.eqb n m); cbn; congruence. Qed.

Lemma child_replace n x y t m : child n t = Some y ->
  child m (replace n x t) = if String.eqb m n then Some x else child m t.
Proof.
  induction t as [|[k z] t IH]; cbn; [discriminate|]. destruct (String.eqb_spec n k) as [->|H]; cbn; intro C.
  - destruct (String.eqb_spec m k); reflexivity.
  - destruct (String.eqb_spec m k) as [->|H'].
    + destruct (String.eqb_spec k n); [congruence | reflexivity].
    + apply IH. exact C.
Qed.

Lemma wf_app t n x : wf t -> child n t = None -> wfn x -> wf (t ++ [(n, x)]).
Proof.
  intros [N F] C X. apply child_none in C. split.
  - rewrite map_app. cbn. apply NoDup_rev in N. rewrite <- (rev_involutive (map fst t)).
    rewrite <- (rev_involutive (rev (rev (map fst t)) ++ [n])). apply NoDup_rev. rewrite rev_app_distr, rev_involutive.
    cbn. constructor; [rewrite <- in_rev; exact C | exact N].
  - apply Forall_app. split; [exact F|]. constructor; [exact X | constructor].
Qed.

Lemma wf_replace t n x : wf t -> wfn x -> wf (replace n x t).
Proof.
  intros [N F] X. split; [rewrite replace_keys; exact N|].
  clear N. induction t as [|[m y] t IH]; cbn; [constructor|]. inversion F; subst.
  destruct (String.eqb n m); constructor; auto.
Qed.

Lemma replace_nonempty n x t : t <> [] -> replace n x t <> [].
Proof. destruct t as [|[m y] t]; [congruence|]. cbn. destruct (String.eqb n m); discriminate. Qed.

(** ** One assignment *)

Definition peq (p q : list string) : bool := if list_eq_dec string_dec p q then true else false.

Lemma peq_cons n p m q : peq (n :: p) (m :: q) = String.eqb n m && peq p q.
Proof.
  unfold peq. destruct (list_eq_dec string_dec (n :: p) (m :: q)) as [E|E];
    destruct (String.eqb_spec n m) as [->|H]; destruct (list_eq_dec string_dec p q) as [->|H']; cbn; congruence.
Qed.
Lemma peq_refl p : peq p p = true.
Proof. unfold peq. destruct (list_eq_dec string_dec p p); congruence. Qed.

Lemma setitem_cons n m p v t : setitem (n :: m :: p) v t =
  match child n t with
  | None => option_map (fun c => t ++ [(n, Group c)]) (setitem (m :: p) v [])
  | Some (Dset _) => None
  | Some (Group c) => option_map (fun c' => replace n (Group c') t) (setitem (m :: p) v c)
  end.
Proof. reflexivity. Qed.

Lemma get_nil q : get q [] = None.
Proof. destruct q; reflexivity. Qed.

Lemma get_cons n q t : get (n :: q) t =
      match child n t with
      | None => None
      | Some (Dset v) => match q with [] => Some v | _ => None end
      | Some (Group c) => get q c
      end.
Proof. reflexivity. Qed.

Lemma setitem_spec p v : forall t t', wf t -> setitem p v t = Some t' ->
  wf t' /\ t' <> [] /\ forall q, get q t' = if peq q p then Some v else get q t.
Proof.
  induction p as [|n p IH]; intros t t' W H; [discriminate|]. destruct p as [|m p].
  - cbn in H. destruct (child n t) eqn:C; [discriminate|]. injection H as <-.
    split; [apply wf_app; [exact W | exact C | exact I]|].
    split; [destruct t; discriminate|]. intros [|n' q]; [reflexivity|].
    rewrite peq_cons, !get_cons, child_app.
    destruct (String.eqb_spec n' n) as [->|H].
    + rewrite C. destruct q; reflexivity.
    + cbn. destruct (child n' t); reflexivity.
  - rewrite setitem_cons in H. destruct (child n t) as [[w|c]|] eqn:C; [discriminate| |].
    + destruct (setitem (m :: p) v c) as [c'|] eqn:S; [|discriminate]. injection H as <-.
      pose proof (child_wf _ _ _ W C) as Wc. apply wfn_group in Wc.
      destruct (IH c c' (proj2 Wc) S) as (W' & NE & G).
      split; [apply wf_replace; [exact W | apply wfn_group; auto]|].
      split; [apply replace_nonempty; intro E; rewrite E in C; discriminate|].
      intros [|n' q]; [reflexivity|].
      rewrite peq_cons, !get_cons, (child_replace _ _ _ _ _ C).
      destruct (String.eqb_spec n' n) as [->|H].
      * rewrite C, G. reflexivity.
      * reflexivity.
    + destruct (setitem (m :: p) v []) as [c'|] eqn:S; [|discriminate]. injection H as <-.
      destruct (IH [] c' (conj (NoDup_nil _) (Forall_nil _)) S) as (W' & NE & G).
      split; [apply wf_app; [exact W | exact C | apply wfn_group; auto]|].
      split; [destruct t; discriminate|].
      intros [|n' q]; [reflexivity|].
      rewrite peq_cons, !get_cons, child_app.
      destruct (String.eqb_spec n' n) as [->|H].
      * rewrite C, G, get_nil. reflexivity.
      * cbn [andb]. destruct (child n' t); reflexivity.
Qed.

(** every group holds a dataset *)
Lemma group_nonempty : forall x, wfn x -> match x with
  | Dset _ => True | Group c => exists q v, get q c = Some v end.
Proof.
  fix F 1. intros [v|c] W; [exact I|]. apply wfn_group in W. destruct W as [NE [N W]].
  destruct c as [|[m y] c]; [congruence|].
  assert (Wy : wfn y) by (inversion W; subst; assumption).
  pose proof (F y Wy) as G. destruct y as [w|d].
  - exists [m], w. cbn. rewrite String.eqb_refl. reflexivity.
  - destruct G as (q & w & G). exists (m :: q), w. cbn. rewrite String.eqb_refl. exact G.
Qed.

Definition blocked (p : list string) (t : tree) : Prop :=
  exists q v, get q t = Some v /\ (prefix p q \/ prefix q p).

Lemma prefix_cons n p m q : prefix (n :: p) (m :: q) <-> n = m /\ prefix p q.
Proof.
  split.
  - intros (r & E). injection E as -> ->. split; [reflexivity | exists r; reflexivity].
  - intros (-> & r & ->). exists r. reflexivity.
Qed.
Lemma prefix_nil q : prefix [] q.
Proof. exists q. reflexivity. Qed.
Lemma prefix_of_nil p : prefix p [] -> p = [].
Proof. intros (r & E). destruct p; [reflexivity | discriminate]. Qed.
Lemma prefix_refl q : prefix q q.
Proof. exists []. rewrite app_nil_r. reflexivity. Qed.

Lemma setitem_none p v : forall t, wf t -> p <> [] -> (setitem p v t = None <-> blocked p t).
Proof.
  induction p as [|n p IH]; intros t W NE; [congruence|]. clear NE. destruct p as [|m p].
  - cbn. destruct (child n t) as [x|] eqn:C.
    + split; [intros _ | reflexivity]. pose proof (group_nonempty x (child_wf _ _ _ W C)) as G.
      destruct x as [w|c].
      * exists [n], w. cbn. rewrite C. split; [reflexivity | left; apply prefix_refl].
      * destruct G as (q & w & G). exists (n :: q), w. cbn. rewrite C. split; [exact G|].
        left. apply prefix_cons. split; [reflexivity | apply prefix_nil].
    + split; [discriminate|]. intros (q & w & G & P). exfalso. destruct q as [|n' q]; [discriminate|].
      assert (n' = n) as -> by (destruct P as [P|P]; apply prefix_cons in P; destruct P; congruence).
      cbn in G. rewrite C in G. discriminate.
  - rewrite setitem_cons. destruct (child n t) as [[w|c]|] eqn:C.
    + split; [intros _ | reflexivity]. exists [n], w. cbn. rewrite C. split; [reflexivity|]. right.
      apply prefix_cons. split; [reflexivity | apply prefix_nil].
    + pose proof (child_wf _ _ _ W C) as Wc. apply wfn_group in Wc. destruct Wc as [_ Wc].
      specialize (IH c Wc ltac:(discriminate)).
      transitivity (setitem (m :: p) v c = None); [destruct (setitem (m :: p) v c); cbn; split; congruence|].
      rewrite IH. split.
      * intros (q & w & G & P). exists (n :: q), w. rewrite get_cons, C. split; [exact G|].
        destruct P as [P|P]; [left|right]; apply prefix_cons; auto.
      * intros (q & w & G & P). destruct q as [|n' q]; [discriminate|].
        assert (n' = n) as -> by (destruct P as [P|P]; apply prefix_cons in P; destruct P; congruence).
        rewrite get_cons, C in G. exists q, w. split; [exact G|].
        destruct P as [P|P]; apply prefix_cons in P; tauto.
    + split.
      * intro H. exfalso. specialize (IH [] (conj (NoDup_nil _) (Forall_nil _)) ltac:(discriminate)).
        destruct (setitem (m :: p) v []); [discriminate|]. destruct (proj1 IH eq_refl) as (q & w & G & _).
        rewrite get_nil in G. discriminate.
      * intros (q & w & G & P). exfalso. destruct q as [|n' q]; [discriminate|].
        assert (n' = n) as -> by (destruct P as [P|P]; apply prefix_cons in P; destruct P; congruence).
        rewrite get_cons, C in G. discriminate.
Qed.

(** ** The visit *)

Lemma visit_group n c : visit_node n (Group c) = map (fun pv => (n :: fst pv, snd pv)) (visit c).
Proof.
  cbn [H5.visit_node]. f_equal. unfold visit. induction c as [|[m y] c IH]; [reflexivity|]. cbn. rewrite IH. reflexivity.
Qed.

Lemma visit_spec p : forall t v, wf t -> (In (p, v) (visit t) <-> get p t = Some v).
Proof.
  induction p as [|n p IH]; intros t v W.
  - split; [|discriminate]. unfold visit. rewrite in_flat_map. intros ([m y] & I & H). exfalso.
    destruct y as [w|c]; cbn [fst snd] in H.
    + destruct H as [H|[]]. discriminate.
    + rewrite visit_group, in_map_iff in H. destruct H as (x & H & _). discriminate.
  - rewrite get_cons. unfold visit. rewrite in_flat_map. split.
    + intros ([m y] & I & H). cbn [fst snd] in H. destruct y as [w|c].
      * destruct H as [H|[]]. injection H as -> <- ->. rewrite (in_child _ _ _ (proj1 W) I). reflexivity.
      * rewrite visit_group, in_map_iff in H. destruct H as ([q w] & H & V). injection H as -> -> ->.
        pose proof (in_child _ _ _ (proj1 W) I) as C. rewrite C.
        pose proof (child_wf _ _ _ W C) as Wc. apply wfn_group in Wc. apply IH; [apply Wc | exact V].
    + intro H. destruct (child n t) as [[w|c]|] eqn:C; [| |discriminate].
      * destruct p; [|discriminate]. injection H as ->. exists (n, Dset v). split; [apply child_in; exact C|].
        left. reflexivity.
      * exists (n, Group c). split; [apply child_in; exact C|]. cbn [fst snd]. rewrite visit_group, in_map_iff.
        exists (p, v). split; [reflexivity|]. apply IH; [|exact H].
        pose proof (child_wf _ _ _ W C) as Wc. apply wfn_group in Wc. apply Wc.
Qed.

(** ** Writing *)

Definition sane (t : tree) : Prop := wf t /\ forall p v, get p t = Some v -> Forall comp_ok p.

Lemma sane_nil : sane [].
Proof. split; [split; constructor|]. intros p v H. rewrite get_nil in H. discriminate. Qed.

Lemma sane_set k v t t' : sane t -> setitem (comps k) v t = Some t' -> sane t'.
Proof.
  intros [W G] H. destruct (setitem_spec _ _ _ _ W H) as (W' & _ & E). split; [exact W'|].
  intros p w. rewrite E. unfold peq. destruct (list_eq_dec string_dec p (comps k)) as [->|_].
  - intros _. apply comps_ok.
  - apply G.
Qed.

Lemma sane_items d : forall t, sane t -> sane (fst (write_items t d)).
Proof.
  induction d as [|[k v] d IH]; intros t S; cbn [H5.write_items]; [exact S|].
  destruct (setitem (comps k) (store v) t) eqn:E; [|exact S]. apply IH. eapply sane_set; eassumption.
Qed.

Definition sane_file (f : option tree) : Prop := match f with None => True | Some t => sane t end.

Lemma sane_open m f : sane_file f -> sane (opened other bytes m f).
Proof. destruct m, f; cbn; auto using sane_nil. Qed.

Lemma sane_write m f d : sane_file f -> sane_file (fst (write_h5 m f d)).
Proof. intro S. cbn. apply sane_items. apply sane_open. exact S. Qed.

Lemma made_sane f : made enc f -> sane_file f.
Proof. induction 1; [exact I | apply sane_write; assumption]. Qed.

(** what is in the file, by name *)
Definition fget (k : string) (f : option tree) : option stored :=
  match f with None => None | Some t => get (comps k) t end.

Lemma items_ok d : forall t, sane t -> snd (write_items t d) = true <->
  True /\ Forall (fun kv => comps (fst kv) <> [] /\ ~ blocked (comps (fst kv)) t) d /\
  ForallOrdPairs (fun a b => ~ clash (fst a) (fst b)) d.
Proof.
  induction d as [|[k v] d IH]; intros t S; cbn [H5.write_items].
  - split; [intros _; repeat constructor | reflexivity].
  - destruct (setitem (comps k) (store v) t) as [t'|] eqn:E.
    + pose proof (sane_set _ _ _ _ S E) as S'. rewrite (IH t' S').
      assert (NE : comps k <> []) by (intro N; rewrite N in E; discriminate).
      assert (NB : ~ blocked (comps k) t).
      { intro B. apply (setitem_none _ (store v) t (proj1 S) NE) in B. congruence. }
      destruct (setitem_spec _ _ _ _ (proj1 S) E) as (_ & _ & G).
      assert (BE : forall p, blocked p t' <-> blocked p t \/ prefix p (comps k) \/ prefix (comps k) p).
      { intro p. split.
        - intros (q & w & H & P). rewrite G in H. unfold peq in H.
          destruct (list_eq_dec string_dec q (comps k)) as [->|_]; [tauto|]. left. exists q, w. auto.
        - intros [(q & w & H & P)|P].
          + exists q, w. split; [|exact P]. rewrite G. unfold peq.
            destruct (list_eq_dec string_dec q (comps k)) as [->|_]; [|exact H].
            exfalso. apply NB. exists (comps k), w. split; [exact H | left; apply prefix_refl].
          + exists (comps k), (store v). rewrite G, peq_refl. auto. }
      assert (EQ : Forall (fun kv => comps (fst kv) <> [] /\ ~ blocked (comps (fst kv)) t') d <->
                   Forall (fun kv => comps (fst kv) <> [] /\ ~ blocked (comps (fst kv)) t) d /\
                   Forall (fun b => ~ clash k (fst b)) d).
      { rewrite !Forall_forall. unfold clash. split.
        - intro H. split; intros x I; specialize (H x I); rewrite BE in H; tauto.
        - intros [H1 H2] x I. specialize (H1 x I). specialize (H2 x I). rewrite BE. tauto. }
      rewrite EQ. split.
      * intros (_ & [H1 H2] & H3). split; [exact Logic.I|]. split; [constructor; [split; assumption | exact H1]|].
        constructor; [exact H2 | exact H3].
      * intros (_ & H1 & H2). inversion H1; subst. inversion H2; subst. auto.
    + split; [discriminate|]. intros (_ & H & _). inversion H as [|? ? [H1 H2] _]; subst. cbn [fst] in *.
      exfalso. apply H2. apply (setitem_none _ (store v) t (proj1 S) H1). exact E.
Qed.

(** the values after the loop: those of the items before the failing one, the old ones elsewhere *)
Lemma items_get d : forall t, sane t -> exists done rest, d = done ++ rest /\
  (snd (write_items t d) = true -> rest = []) /\
  (snd (write_items t d) = false -> exists k v r, rest = (k, v) :: r /\
      (comps k = [] \/ blocked (comps k) (fst (write_items t d)))) /\
  (forall p v, get p (fst (write_items t d)) = Some v <->
     get p t = Some v \/ (exists k w, In (k, w) done /\ comps k = p /\ v = store w)).
Proof.
  induction d as [|[k v] d IH]; intros t S; cbn [H5.write_items].
  - exists [], []. split; [reflexivity|]. split; [auto|]. split; [discriminate|].
    intros p v. split; [auto|]. intros [H|(k & w & [] & _)]. exact H.
  - destruct (setitem (comps k) (store v) t) as [t'|] eqn:E.
    + pose proof (sane_set _ _ _ _ S E) as S'. destruct (IH t' S') as (done & rest & -> & H1 & H2 & H3).
      exists ((k, v) :: done), rest. split; [reflexivity|]. split; [exact H1|]. split; [exact H2|].
      destruct (setitem_spec _ _ _ _ (proj1 S) E) as (_ & _ & G).
      assert (NE : comps k <> []) by (intro N; rewrite N in E; discriminate).
      assert (NB : get (comps k) t = None).
      { destruct (get (comps k) t) as [w|] eqn:X; [|reflexivity]. exfalso.
        assert (blocked (comps k) t) as B by (exists (comps k), w; split; [exact X | left; apply prefix_refl]).
        apply (setitem_none _ (store v) t (proj1 S) NE) in B. congruence. }
      intros p w. rewrite H3, G. unfold peq. destruct (list_eq_dec string_dec p (comps k)) as [->|N].
      * split.
        -- intros [H|(k' & w' & I & H)]; right; [exists k, v | exists k', w']; cbn; intuition congruence.
        -- intros [H|(k' & w' & [I|I] & H & ->)]; [congruence| |].
           ++ injection I as -> ->. left. reflexivity.
           ++ right. exists k', w'. auto.
      * split.
        -- intros [H|(k' & w' & I & H)]; [left; exact H | right; exists k', w'; cbn; tauto].
        -- intros [H|(k' & w' & [I|I] & H & ->)]; [left; exact H| |].
           ++ injection I as -> ->. congruence.
           ++ right. exists k', w'. auto.
    + exists [], ((k, v) :: d). split; [reflexivity|]. split; [discriminate|]. split.
      * intros _. exists k, v, d. split; [reflexivity|]. destruct (comps k) as [|n p] eqn:Ek; [left; reflexivity|].
        right. apply (setitem_none (n :: p) (store v) t (proj1 S)); [discriminate | exact E].
      * intros p w. split; [auto|]. intros [H|(k' & w' & [] & _)]. exact H.
Qed.

(** ** Reading *)

Lemma traverse_some {X Y} (f : X -> option Y) l : forall r, traverse f l = Some r ->
  forall y, In y r <-> exists x, In x l /\ f x = Some y.
Proof.
  induction l as [|x l IH]; cbn; intros r H y.
  - injection H as <-. split; [intros [] | intros (x & [] & _)].
  - destruct (f x) as [b|] eqn:E; [|discriminate]. destruct (traverse f l) as [r'|]; [|discriminate].
    injection H as <-. cbn. rewrite (IH r' eq_refl). split.
    + intros [<-|(x' & I & H)]; [exists x; auto | exists x'; auto].
    + intros (x' & [<-|I] & H); [left; congruence | right; exists x'; auto].
Qed.
Lemma traverse_none {X Y} (f : X -> option Y) l : traverse f l = None <-> exists x, In x l /\ f x = None.
Proof.
  induction l as [|x l IH]; cbn.
  - split; [discriminate | intros (x & [] & _)].
  - destruct (f x) as [b|] eqn:E.
    + destruct (traverse f l) as [r'|].
      * split; [discriminate|]. intros (x' & [<-|I] & H); [congruence|].
        assert (Some r' = None) by (apply IH; exists x'; auto). discriminate.
      * split; [|reflexivity]. intros _. destruct (proj1 IH eq_refl) as (x' & I & H). exists x'. auto.
    + split; [|reflexivity]. intros _. exists x. auto.
Qed.

Lemma dget_in {V} (d : list (string * V)) k v : dget k d = Some v -> In (k, v) d.
Proof.
  induction d as [|[x w] d IH]; cbn; [discriminate|]. destruct (String.eqb_spec k x) as [->|_]; intro H.
  - injection H as ->. auto.
  - auto.
Qed.
Lemma dget_unique {V} (d : list (string * V)) k v : In (k, v) d -> (forall w, In (k, w) d -> w = v) -> dget k d = Some v.
Proof.
  induction d as [|[x w] d IH]; cbn; intros I U; [contradiction|]. destruct (String.eqb_spec k x) as [->|N].
  - rewrite (U w); auto.
  - apply IH; [destruct I as [I|I]; [congruence | exact I] | intros; apply U; auto].
Qed.

Lemma read_get t r : sane t -> read_h5 (Some t) = Some r ->
  forall k v, dget k r = Some v <-> exists p s, get p t = Some s /\ load s = Some v /\ k = String slash (join p).
Proof.
  intros [W C] H k v. cbn in H. pose proof (traverse_some _ _ _ H) as T.
  assert (IN : forall k v, In (k, v) r <-> exists p s, get p t = Some s /\ load s = Some v /\ k = String slash (join p)).
  { intros k' v'. rewrite T. split.
    - intros ([p s] & I & E). cbn in E. apply visit_spec in I; [|exact W].
      destruct (load s) as [x|] eqn:L; [|discriminate]. cbn in E. injection E as <- <-.
      exists p, s. rewrite with_slash_join by (eapply C; exact I). auto.
    - intros (p & s & G & L & ->). exists (p, s). split; [apply visit_spec; assumption|]. cbn. rewrite L. cbn.
      rewrite with_slash_join by (eapply C; exact G). reflexivity. }
  split.
  - intro D. apply IN. apply dget_in. exact D.
  - intro E. apply dget_unique; [apply IN; exact E|]. intros w I. apply IN in I.
    destruct E as (p & s & G & L & ->). destruct I as (p' & s' & G' & L' & E').
    assert (p' = p) as ->.
    { injection E' as E'. rewrite <- (comps_join p), <- (comps_join p') by (eapply C; eassumption). congruence. }
    congruence.
Qed.

Lemma read_raises t : sane t -> (read_h5 (Some t) = None <-> exists p s, get p t = Some s /\ load s = None).
Proof.
  intros [W C]. cbn. rewrite traverse_none. split.
  - intros ([p s] & I & E). apply visit_spec in I; [|exact W]. exists p, s. split; [exact I|].
    cbn in E. destruct (load s); [discriminate | reflexivity].
  - intros (p & s & G & L). exists (p, s). split; [apply visit_spec; assumption|]. cbn. rewrite L. reflexivity.
Qed.

(** in terms of names *)
Lemma read_fget f r : sane_file f -> read_h5 f = Some r ->
  forall k v, dget k r = Some v <-> name k = k /\ exists s, fget k f = Some s /\ load s = Some v.
Proof.
  destruct f as [t|]; [|discriminate]. intros S H k v. rewrite (read_get t r S H). cbn [fget]. split.
  - intros (p & s & G & L & ->). pose proof (proj2 S p s G) as C.
    unfold name. rewrite comps_slash, comps_join by exact C. split; [reflexivity|]. exists s. auto.
  - intros (N & s & G & L). exists (comps k), s. split; [exact G|]. split; [exact L|]. symmetry. exact N.
Qed.

Lemma write_fget m f d : sane_file f ->
  exists done rest, d = done ++ rest /\
  (snd (write_h5 m f d) = true -> rest = []) /\
  (snd (write_h5 m f d) = false -> rest <> []) /\
  (forall k v, fget k (fst (write_h5 m f d)) = Some v <->
     get (comps k) (opened other bytes m f) = Some v \/ (exists k' w, In (k', w) done /\ comps k' = comps k /\ v = store w)).
Proof.
  intro S. destruct (items_get d _ (sane_open m f S)) as (done & rest & E & H1 & H2 & H3).
  exists done, rest. split; [exact E|]. split; [exact H1|]. split.
  - intro F. destruct (H2 F) as (k & v & r & -> & _). discriminate.
  - intros k v. cbn. apply H3.
Qed.
End H5.

(** ** Dicts *)
Section Dicts.
Variable other bytes text : Type.
Variable enc : text -> bytes.
Variable dec : bytes -> option text.
Hypothesis codec : forall s, dec (enc s) = Some s.
Local Notation tree := (tree other bytes).
Local Notation value := (value other bytes text).
Local Notation write_h5 := (write_h5 other bytes text enc).
Local Notation read_h5 := (read_h5 other bytes text dec).
Local Notation store := (store other bytes text enc).
Local Notation load := (load other bytes text dec).
Local Notation fget := (fget other bytes).
Local Notation get := (get other bytes).
Local Notation sane_file := (sane_file other bytes).
Local Notation opened := (opened other bytes).

Lemma load_store (v : value) : load (store v) = readback dec v.
Proof. destruct v; cbn; [rewrite codec|..]; reflexivity. Qed.

(** reading the file that a call found, as a dict; a missing file is an empty one *)
Definition before (m : mode) (f : option tree) : option (list (string * value)) :=
  read_h5 (Some (opened m f)).

Lemma append_spec m f (d : list (string * value)) r : sane_file f -> before m f = Some r -> readable dec d ->
  exists r', read_h5 (fst (write_h5 m f d)) = Some r' /\
  exists done rest, d = done ++ rest /\
    (snd (write_h5 m f d) = true -> rest = []) /\
    (snd (write_h5 m f d) = false -> exists k v rest', rest = (k, v) :: rest' /\
        (comps k = [] \/ exists k' v', dget k' r' = Some v' /\ clash k k')) /\
    (forall k v, dget k r' = Some v <->
       dget k r = Some v \/ exists k0 v0, In (k0, v0) done /\ name k0 = k /\ readback dec v0 = Some v).
Proof.
  intros S B Rd. pose proof (sane_open _ _ m f S) as So.
  pose proof (sane_write _ _ _ enc m f d S) as Sw.
  destruct (items_get _ _ _ enc d _ So) as (done & rest & E & H1 & H2 & H3).
  fold (write_h5 m f d) in *.
  change (fst (write_items other bytes text enc (opened m f) d)) with
    (match fst (write_h5 m f d) with Some t => t | None => [] end) in H2, H3.
  change (snd (write_items other bytes text enc (opened m f) d)) with (snd (write_h5 m f d)) in H1, H2.
  destruct (fst (write_h5 m f d)) as [t'|] eqn:F; [|discriminate].
  destruct (read_h5 (Some t')) as [r'|] eqn:Rr.
  2:{ exfalso. apply (read_raises _ _ _ dec t' Sw) in Rr. destruct Rr as (p & s & G & L).
      apply H3 in G. destruct G as [G|(k & w & I & <- & ->)].
      - assert (before m f = None) by (apply (read_raises _ _ _ dec _ So); exists p, s; auto). congruence.
      - rewrite load_store in L. unfold readable in Rd. rewrite Forall_forall in Rd.
        apply (Rd (k, w)); [rewrite E; apply in_or_app; left; exact I | exact L]. }
  pose proof (read_get _ _ _ dec t' r' Sw Rr) as G'. pose proof (read_get _ _ _ dec _ r So B) as G.
  exists r'. split; [reflexivity|]. exists done, rest. split; [exact E|]. split; [exact H1|]. split.
  - intro X. destruct (H2 X) as (k & v & rest' & -> & K). exists k, v, rest'. split; [reflexivity|].
    destruct K as [K|(q & s & Gq & P)]; [left; exact K|]. right.
    pose proof (proj2 Sw q s Gq) as C.
    exists (String slash (join q)). destruct (load s) as [v'|] eqn:L.
    + exists v'. split; [apply G'; exists q, s; auto|]. unfold clash. rewrite comps_slash, comps_join by exact C. exact P.
    + exfalso. assert (read_h5 (Some t') = None) by (apply (read_raises _ _ _ dec t' Sw); exists q, s; auto). congruence.
  - intros k v. rewrite G', G. split.
    + intros (p & s & Gp & L & ->). apply H3 in Gp. destruct Gp as [Gp|(k0 & w & I & <- & ->)].
      * left. exists p, s. auto.
      * right. exists k0, w. rewrite load_store in L. auto.
    + intros [(p & s & Gp & L & ->)|(k0 & v0 & I & <- & L)].
      * exists p, s. split; [apply H3; left; exact Gp | auto].
      * exists (comps k0), (store v0). rewrite load_store. split; [apply H3; right; exists k0, v0; auto | auto].
Qed.

Lemma read_names m f r : sane_file f -> before m f = Some r -> forall k v, dget k r = Some v -> name k = k.
Proof. intros S B k v H. apply (read_fget _ _ _ dec (Some (opened m f)) r (sane_open _ _ m f S) B) in H. apply H. Qed.

Lemma write_ok m f (d : list (string * value)) r : sane_file f -> before m f = Some r ->
  snd (write_h5 m f d) = true <->
  writable (map fst d) /\ (forall k k', In k (map fst d) -> dget k' r <> None -> ~ clash k k').
Proof.
  intros S B. pose proof (sane_open _ _ m f S) as So. cbn [H5.write_h5 snd].
  rewrite (items_ok _ _ _ enc d _ So). pose proof (read_get _ _ _ dec _ r So B) as G.
  assert (BL : forall k, blocked _ _ (comps k) (opened m f) <-> exists k', dget k' r <> None /\ clash k k').
  { intro k. split.
    - intros (q & s & Gq & P). destruct (load s) as [v|] eqn:L.
      + exists (String slash (join q)). split.
        * rewrite (proj2 (G _ v)) by (exists q, s; auto). discriminate.
        * unfold clash. rewrite comps_slash, comps_join by (eapply (proj2 So); exact Gq). exact P.
      + exfalso. assert (before m f = None) by (apply (read_raises _ _ _ dec _ So); exists q, s; auto). congruence.
    - intros (k' & N & C). destruct (dget k' r) as [v|] eqn:D; [|congruence]. apply G in D.
      destruct D as (p & s & Gp & _ & ->). exists p, s. split; [exact Gp|].
      unfold clash in C. rewrite comps_slash, comps_join in C by (eapply (proj2 So); exact Gp). exact C. }
  assert (P1 : forall (l : list (string * value)), ForallOrdPairs (fun a b => ~ clash (fst a) (fst b)) l <->
      ForallOrdPairs (fun k k' => ~ clash k k') (map fst l)).
  { induction l as [|x l IH]; cbn; [split; constructor|]. split; intro H; inversion H; subst; constructor.
    - rewrite Forall_map. assumption.
    - apply IH. assumption.
    - rewrite Forall_map in H2. assumption.
    - apply IH. assumption. }
  unfold writable. rewrite <- P1, Forall_map. split.
  - intros (_ & F & P). rewrite Forall_forall in F. split; [split; [|exact P]|].
    + apply Forall_forall. intros x I. apply (F x I).
    + intros k k' I D C. apply in_map_iff in I. destruct I as (x & <- & I). apply (F x I). apply BL. exists k'. auto.
  - intros ((F & P) & H). split; [exact Logic.I|]. split; [|exact P]. rewrite Forall_forall in *. intros x I.
    split; [apply F; exact I|]. rewrite BL. intros (k' & D & C). apply (H (fst x) k'); auto. apply in_map. exact I.
Qed.

Lemma before_w f : before W f = Some [].
Proof. reflexivity. Qed.

Lemma clash_name k k' : clash (name k) (name k') <-> clash k k'.
Proof. unfold clash. rewrite !comps_name. reflexivity. Qed.

Lemma pairs_get (l : list string) : writable l -> forall i j k k', nth_error l i = Some k -> nth_error l j = Some k' ->
  comps k = comps k' -> i = j.
Proof.
  intros [_ P]. induction P as [|k l F P IH]; intros i j a b Hi Hj E; [destruct i; discriminate|].
  rewrite Forall_forall in F. assert (X : forall b, In b l -> comps k = comps b -> False).
  { intros c I Ec. apply (F c I). left. rewrite Ec. apply prefix_refl. }
  destruct i as [|i], j as [|j]; cbn in Hi, Hj.
  - reflexivity.
  - injection Hi as <-. exfalso. apply (X b); [eapply nth_error_In; exact Hj | exact E].
  - injection Hj as <-. exfalso. apply (X a); [eapply nth_error_In; exact Hi | symmetry; exact E].
  - f_equal. eapply IH; eassumption.
Qed.

Lemma writable_names l k k' : writable l -> In k l -> In k' l -> comps k = comps k' -> k = k'.
Proof.
  intros Wl I I' E. apply In_nth_error in I. apply In_nth_error in I'. destruct I as (i & I), I' as (j & J).
  assert (i = j) by (eapply pairs_get; eassumption). subst. congruence.
Qed.

Lemma writable_nodup l : writable l -> NoDup l.
Proof.
  intros [_ P]. induction P as [|k l F P IH]; [constructor|]. constructor; [|exact IH].
  intro I. rewrite Forall_forall in F. apply (F k I). left. apply prefix_refl.
Qed.

Lemma in_dget {V} (d : list (string * V)) k v : NoDup (map fst d) -> In (k, v) d -> dget k d = Some v.
Proof.
  intros N I. apply dget_unique; [exact I|]. intros w J. revert I J. induction d as [|[x y] d IH]; cbn; [tauto|].
  inversion N; subst. intros [I|I] [J|J].
  - congruence.
  - injection I as -> ->. destruct H1. apply in_map_iff. exists (k, w). auto.
  - injection J as -> ->. destruct H1. apply in_map_iff. exists (k, v). auto.
  - apply IH; assumption.
Qed.

(** ** update *)
Lemma update_keys {V} (new : list (string * V)) : forall old, map fst old = map fst old ->
  forall k, In k (map fst (update old new)) <-> In k (map fst old) \/ In k (map fst new).
Proof.
  induction new as [|[x v] new IH]; intros old _ k; cbn [update]; [cbn; tauto|].
  destruct (existsb _ old) eqn:E.
  - rewrite IH by reflexivity. rewrite map_map. cbn [map fst In].
    assert (Q : map (fun y : string * V => fst (if String.eqb x (fst y) then (fst y, v) else y)) old = map fst old).
    { apply map_ext. intro a. destruct (String.eqb x (fst a)); reflexivity. }
    rewrite Q. split; [tauto|]. intros [H|[<-|H]]; try tauto. left.
    apply existsb_exists in E. destruct E as (y & I & Y). apply String.eqb_eq in Y. subst. apply in_map. exact I.
  - rewrite IH by reflexivity. rewrite map_app, in_app_iff. cbn. tauto.
Qed.

Lemma dget_app {V} (a b : list (string * V)) k : dget k (a ++ b) = match dget k a with Some v => Some v | None => dget k b end.
Proof. induction a as [|[x v] a IH]; cbn; [reflexivity|]. destruct (String.eqb k x); auto. Qed.

Lemma dget_map {V} (old : list (string * V)) x v k :
  dget k (map (fun kv => if String.eqb x (fst kv) then (fst kv, v) else kv) old) =
  match dget k old with Some w => Some (if String.eqb k x then v else w) | None => None end.
Proof.
  induction old as [|[y w] old IH]; cbn; [reflexivity|].
  destruct (String.eqb_spec x y) as [N|N]; cbn; destruct (String.eqb_spec k y) as [N'|N']; auto;
    destruct (String.eqb_spec k x); congruence.
Qed.

Lemma dget_none {V} (d : list (string * V)) k : dget k d = None <-> ~ In k (map fst d).
Proof.
  induction d as [|[x w] d IH]; cbn; [tauto|]. destruct (String.eqb_spec k x) as [->|N].
  - split; [discriminate | tauto].
  - rewrite IH. intuition congruence.
Qed.

Lemma update_get {V} (new : list (string * V)) : NoDup (map fst new) -> forall old k,
  dget k (update old new) = match dget k new with Some v => Some v | None => dget k old end.
Proof.
  induction new as [|[x v] new IH]; cbn [update dget]; intros N old k; [reflexivity|]. inversion N; subst.
  rewrite (IH H2). destruct (dget k new) as [w|] eqn:D.
  - destruct (String.eqb_spec k x) as [->|_]; [|reflexivity].
    exfalso. apply H1. apply dget_in in D. apply in_map_iff. exists (x, w). auto.
  - destruct (existsb _ old) eqn:E.
    + rewrite dget_map. apply existsb_exists in E. destruct E as (y & I & Y). apply String.eqb_eq in Y.
      destruct (String.eqb_spec k x) as [->|_].
      * destruct (dget x old) eqn:O; [reflexivity|]. apply dget_none in O. destruct O. rewrite Y. apply in_map. exact I.
      * destruct (dget k old); reflexivity.
    + rewrite dget_app. cbn. destruct (String.eqb_spec k x) as [->|_]; [|destruct (dget k old); reflexivity].
      destruct (dget x old) eqn:O; [|reflexivity]. apply dget_in in O. exfalso.
      assert (existsb (fun kv => String.eqb x (fst kv)) old = true).
      { apply existsb_exists. exists (x, v0). split; [exact O | apply String.eqb_refl]. } congruence.
Qed.

(** ** Appending never changes what is there *)
Lemma persist f (d : list (string * value)) k s : sane_file f -> fget k f = Some s ->
  fget k (fst (write_h5 A f d)) = Some s.
Proof.
  intros S H. destruct f as [t|]; [|discriminate].
  destruct (write_fget _ _ _ enc A (Some t) d S) as (done & rest & _ & _ & _ & G). apply G. left. exact H.
Qed.

Local Notation appends := (appends enc).

Lemma appends_persist ds : forall f k s, sane_file f -> fget k f = Some s -> fget k (appends f ds) = Some s.
Proof.
  induction ds as [|d ds IH]; intros f k s S H; cbn [H5Spec.appends]; [exact H|].
  apply IH; [apply sane_write; exact S | apply persist; assumption].
Qed.
Lemma appends_sane ds : forall f, sane_file f -> sane_file (appends f ds).
Proof. induction ds; cbn [H5Spec.appends]; intros f S; [exact S|]. apply IHds. apply sane_write. exact S. Qed.
End Dicts.
