From Coq Require Import List String Arith Bool Lia.
From Verif Require Import Classes.
Import ListNotations.
Open Scope string_scope.

Lemma dget_cons {V} k v (d : dict V) u : dget ((k, v) :: d) u = if String.eqb k u then Some v else dget d u.
Proof. unfold dget. simpl. destruct (k =? u); reflexivity. Qed.
Lemma dupdate_rev {V} (e d : dict V) : dupdate d e = (rev e ++ d)%list.
Proof. revert d. induction e as [|x e IH]; intros d; [reflexivity|]. simpl. unfold dupdate in *. simpl. rewrite IH. unfold dset. now rewrite <- app_assoc. Qed.
Lemma dget_app {V} (a b : dict V) u : dget (a ++ b)%list u = match dget a u with Some v => Some v | None => dget b u end.
Proof. induction a as [|[k v] a IH]; [reflexivity|]. simpl app. rewrite !dget_cons, IH. now destruct (k =? u). Qed.
Lemma dget_dupdate {V} (e d : dict V) u : dget (dupdate d e) u = match dget (rev e) u with Some v => Some v | None => dget d u end.
Proof. now rewrite dupdate_rev, dget_app. Qed.

(** ** parsers *)
Definition own (l : list (parser_class * dict factor)) (o : owner) : list parser_class :=
  map fst (filter (fun cu => owner_eqb o (owner_of (fst cu))) l).
Lemma create_all_get l : forall ds o u,
  dget (create_all l ds o) u = match dget (rev (flat_map writes (own l o))) u with Some v => Some v | None => dget (ds o) u end.
Proof.
  induction l as [|[c us] l IH]; intros ds o u; [reflexivity|]. simpl. rewrite IH. unfold own. cbn [filter fst].
  destruct (owner_eqb o (owner_of c)) eqn:E; [|reflexivity]. cbn [map flat_map fst]. rewrite rev_app_distr, dget_app.
  destruct (dget (rev (flat_map _ _)) u); [reflexivity|]. rewrite dget_dupdate.
  replace (owner_of c) with o; [reflexivity|]. destruct o, (owner_of c); discriminate || reflexivity.
Qed.

(** What is written for a unit under one owner does not depend on who wrote. *)
Definition written (o : owner) (u : string) : list factor :=
  map snd (filter (fun kv => fst kv =? u) (flat_map writes
    (filter (fun c => owner_eqb o (owner_of c)) [CifFile; PDBFile; PwSCF; PwMD; PwVCMD; CpmdSCF; CpmdMD; Cp2kSCF; Cp2kMD; Cp2kRelax; Cp2kDcdMD; LammpsText; LammpsDcd]))).
Lemma dget_in {V} (d : dict V) u v : dget d u = Some v -> In (u, v) d.
Proof.
  unfold dget. destruct (find _ d) as [[k w]|] eqn:E; [|discriminate]. simpl. intros [= <-]. apply find_some in E. destruct E as [E1 E2].
  simpl in E2. apply String.eqb_eq in E2. now subst.
Qed.
Lemma in_own l o c : In c (own l o) -> owner_of c = o.
Proof.
  unfold own. intros H. apply in_map_iff in H. destruct H as ([c' us] & <- & H). apply filter_In in H. destruct H as [_ H]. simpl in *.
  destruct o, (owner_of c'); discriminate || reflexivity.
Qed.
Lemma dget_writes l o u v : dget (rev (flat_map writes (own l o))) u = Some v ->
  exists c, In c (own l o) /\ owner_of c = o /\ In (u, v) (writes c).
Proof.
  intros H. apply dget_in in H. apply in_rev in H. apply in_flat_map in H. destruct H as (c & Hc & Hi). exists c.
  split; [assumption|]. split; [now apply (in_own l)|assumption].
Qed.

Lemma units_stable l c user u : In u (reads c) -> ~ (c = Cp2kSCF /\ u = "stress") ->
  snd (create c user (create_all l dicts0)) u = snd (create c user dicts0) u.
Proof.
  intros Hr Hn. unfold create. cbn [snd]. destruct (dget (rev user) u); [reflexivity|].
  rewrite !dget_dupdate, create_all_get. destruct (dget (rev (writes c)) u) eqn:Ew; [reflexivity|].
  destruct (dget (rev (flat_map writes (own l (owner_of c)))) u) as [v|] eqn:E; [|reflexivity].
  exfalso. apply dget_writes in E. destruct E as (c' & _ & Ho & Hi).
  destruct c; simpl in Hr; destruct c'; try discriminate Ho; simpl in Hi;
    repeat (destruct Hr as [<-|Hr]; [try (vm_compute in Ew; discriminate Ew); repeat (destruct Hi as [Hi|Hi]; [try discriminate Hi; try (injection Hi as _; apply Hn; auto); fail|]); try contradiction; auto|]); try contradiction.
Qed.

Definition cp2k_md (c : parser_class) : bool := match c with Cp2kMD | Cp2kRelax | Cp2kDcdMD => true | _ => false end.
Lemma cp2k_stress l : snd (create Cp2kSCF [] (create_all l dicts0)) "stress" = if existsb (fun cu => cp2k_md (fst cu)) l then "1e-4" else "1.0".
Proof.
  unfold create. cbn [snd rev dget find option_map]. rewrite dget_dupdate, create_all_get. cbn [writes rev owner_of].
  change (dget [] "stress") with (@None factor). cbv iota.
  destruct (existsb _ l) eqn:E.
  - apply existsb_exists in E. destruct E as ([c us] & Hin & Hc). simpl in Hc.
    destruct (dget (rev (flat_map writes (own l OCp2k))) "stress") as [v|] eqn:Ev.
    + apply dget_writes in Ev. destruct Ev as (c' & _ & Ho & Hi). destruct c'; try discriminate Ho; simpl in Hi; intuition; congruence.
    + exfalso. assert (Hi : In ("stress", "1e-4") (rev (flat_map writes (own l OCp2k)))).
      { rewrite <- in_rev. apply in_flat_map. exists c. split; [|destruct c; try discriminate Hc; simpl; auto].
        unfold own. apply in_map_iff. exists (c, us). split; [reflexivity|]. apply filter_In. split; [assumption|]. destruct c; try discriminate Hc; reflexivity. }
      revert Ev Hi. generalize (rev (flat_map writes (own l OCp2k))). clear. induction l as [|[k v] l IH]; intros Ev Hi; [destruct Hi|].
      rewrite dget_cons in Ev. destruct (String.eqb_spec k "stress") as [|Hne]; [discriminate|]. destruct Hi as [Hi|Hi]; [congruence|auto].
  - destruct (dget (rev (flat_map writes (own l OCp2k))) "stress") as [v|] eqn:Ev; [|reflexivity].
    exfalso. apply dget_writes in Ev. destruct Ev as (c' & Hc & Ho & Hi). rewrite <- not_true_iff_false in E. apply E.
    unfold own in Hc. apply in_map_iff in Hc. destruct Hc as ([c us] & <- & Hin). apply filter_In in Hin. destruct Hin as [Hin _].
    apply existsb_exists. exists (c, us). split; [assumption|]. simpl in *. destruct c; try discriminate Ho; simpl in Hi; intuition.
Qed.

(** ** calculators *)
Section Calc.
Variable V : Type.
Notation init_all := (init_all V).
Notation init_params := (init_params V).
Lemma init_keys kwds d d' at_ u : init_params kwds d = Some (d', at_) -> (dget d u = None <-> dget d' u = None).
Proof.
  unfold Classes.init_params. destruct (forallb _ kwds) eqn:E; [|discriminate]. intros [= <- <-]. rewrite dget_dupdate.
  destruct (dget (rev kwds) u) as [v|] eqn:Ev; [|reflexivity]. apply dget_in in Ev. rewrite <- in_rev in Ev.
  rewrite forallb_forall in E. specialize (E _ Ev). simpl in E. destruct (dget d u); [split; discriminate|discriminate].
Qed.
(** The keywords that were accepted, in the order of creation. *)
Definition accepted (d0 : dict V) (l : list (dict V)) : list (dict V) :=
  filter (fun kwds => forallb (fun kv => match dget d0 (fst kv) with Some _ => true | None => false end) kwds) l.
Lemma accepted_ext d d' l : (forall u, dget d u = None <-> dget d' u = None) -> accepted d l = accepted d' l.
Proof.
  intros H. unfold accepted. apply filter_ext. intros kw. induction kw as [|kv kw IH]; [reflexivity|]. simpl. rewrite IH. f_equal.
  specialize (H (fst kv)). destruct (dget d (fst kv)), (dget d' (fst kv)); try reflexivity; destruct H as [H1 H2]; [specialize (H2 eq_refl)|specialize (H1 eq_refl)]; discriminate.
Qed.
Lemma init_all_get l : forall d u, dget (init_all l d) u = match dget (rev (List.concat (accepted d l))) u with Some v => Some v | None => dget d u end.
Proof.
  induction l as [|kw l IH]; intros d u; [reflexivity|]. simpl. destruct (init_params kw d) as [[d' at_]|] eqn:E.
  - pose proof (fun u => init_keys kw d d' at_ u E) as Hk. unfold Classes.init_params in E.
    destruct (forallb _ kw) eqn:Ef; [|discriminate]. injection E as <- <-. rewrite IH. cbn [List.concat]. rewrite rev_app_distr, dget_app.
    rewrite <- (accepted_ext d) by assumption. change (filter _ l) with (accepted d l). destruct (dget (rev (List.concat (accepted d l))) u); [reflexivity|]. apply dget_dupdate.
  - unfold Classes.init_params in E. destruct (forallb _ kw) eqn:Ef; [discriminate|]. apply IH.
Qed.
End Calc.
