From Coq Require Import List String Bool.
From Verif Require Import ParserUnits ParserUnitsSpec.
Import ListNotations.
Local Open Scope string_scope.
Local Open Scope list_scope.
Section P.
Variable num : Type.
Variable K : consts num.
Local Notation fresh := (fresh num K).
Local Notation after := (after num K).
Local Notation construct := (construct num K).
Local Notation change := (change num K).
Definition own (c : cls) : cls :=
  match c with
  | PwSCF | PwMD | PwVCMD => PwSCF | CpmdSCF | CpmdMD => CpmdSCF | Cp2kSCF | Cp2kMD | Cp2kRelax | Cp2kDcd => Cp2kSCF | _ => Base
  end.
(** In every reachable state the four dictionaries agree with the fresh ones except for the
    keys some class sets, whose values are fixed. *)
Definition settled (o : option (dict num)) (base : dict num) (vars : dict num) (seen : bool) : Prop :=
  exists d, o = Some d /\ (forall q, lookup num q d = lookup num q base \/ (seen = true /\ lookup num q d = lookup num q vars /\ lookup num q vars <> None)) /\
            (seen = true -> forall q, lookup num q vars <> None -> lookup num q d = lookup num q vars) /\ (seen = false -> d = base).
Definition lmp (c : cls) := match c with LmpTxt | LmpDcd => true | _ => false end.
Definition pwmd (c : cls) := match c with PwMD | PwVCMD => true | _ => false end.
Definition cpmdmd (c : cls) := match c with CpmdMD => true | _ => false end.
Definition inv (w : world num) (hist : list (cls * dict num)) : Prop :=
  settled (w Base) [] (changes num K LmpTxt) (existsb (fun cu => lmp (fst cu)) hist) /\
  settled (w PwSCF) [("energy", ry_ev _ K); ("length", bohr_ang _ K); ("forces", ry_bohr _ K); ("stress", kbar_gpa _ K)] (changes num K PwMD) (existsb (fun cu => pwmd (fst cu)) hist) /\
  settled (w CpmdSCF) [("energy", ha_ev _ K); ("length", bohr_ang _ K); ("forces", ha_bohr _ K); ("stress", kbar_gpa _ K)] (changes num K CpmdMD) (existsb (fun cu => cpmdmd (fst cu)) hist) /\
  settled (w Cp2kSCF) [("energy", ha_ev _ K); ("forces", ha_bohr _ K)] (changes num K Cp2kMD) (existsb (fun cu => cp2k_md (fst cu)) hist) /\
  (forall c, w c = None \/ own c = c).
Lemma lookup_cons q k v d : lookup num q ((k, v) :: d) = if String.eqb k q then Some v else lookup num q d.
Proof. unfold lookup. cbn. now destruct (String.eqb k q). Qed.
Lemma lookup_app q a b : lookup num q (a ++ b) = match lookup num q a with Some v => Some v | None => lookup num q b end.
Proof. induction a as [|[k v] a IH]; [reflexivity|]. cbn [app]. rewrite !lookup_cons. now destruct (String.eqb k q). Qed.
Lemma put_rev kvs : forall d, put num kvs d = (rev kvs ++ d)%list.
Proof. unfold put. induction kvs as [|kv kvs IH]; intros d; [reflexivity|]. cbn. rewrite IH, <- app_assoc. reflexivity. Qed.
Lemma settled_put o base vars kvs seen : settled o base vars seen -> (forall q, lookup num q (rev kvs) = lookup num q vars) ->
  settled (match o with Some d => Some (put num kvs d) | None => None end) base vars true.
Proof.
  intros (d & -> & A & B & _) E. eexists; split; [reflexivity|]. rewrite put_rev. split; [|split].
  - intros q. rewrite lookup_app, E. destruct (lookup num q vars) eqn:V; [right; split; [reflexivity|]; split; [reflexivity|discriminate]|].
    destruct (A q) as [A1|(_ & A1 & A2)]; [now left|]. now rewrite V in A2.
  - intros _ q N. rewrite lookup_app, E. now destruct (lookup num q vars).
  - discriminate.
Qed.
Lemma settled_same o base vars seen : settled o base vars seen -> settled (match o with Some d => Some (put num [] d) | None => None end) base vars seen.
Proof. intros (d & -> & H). exists d. now split. Qed.
Lemma owner_own w hist c : inv w hist -> owner num w c = Some (own c).
Proof.
  intros ((d1 & E1 & _) & (d2 & E2 & _) & (d3 & E3 & _) & (d4 & E4 & _) & N).
  assert (M : forall k, own k <> k -> w k = None) by (intros k Hk; destruct (N k); [assumption|contradiction]).
  destruct c; unfold owner; cbn [mro find own]; rewrite ?E1, ?E2, ?E3, ?E4; repeat (rewrite M by (cbn; discriminate)); rewrite ?E1, ?E2, ?E3, ?E4; reflexivity.
Qed.
Lemma inv_fresh : inv fresh [].
Proof.
  repeat split; try (eexists; split; [reflexivity|]; repeat split; [now left|discriminate]). intros []; (now left) || (now right).
Qed.
Lemma inv_step w hist cu : inv w hist -> inv (fst (construct w cu)) (hist ++ [cu]).
Proof.
  intros I. pose proof (owner_own w hist (fst cu) I) as O. destruct I as (A & B & C & D & N). destruct cu as [c u]. unfold construct. cbn [fst] in *.
  assert (X : forall f : cls * dict num -> bool, existsb f (hist ++ [(c, u)]) = existsb f hist || f (c, u))
    by (intros f; rewrite existsb_app; cbn [existsb]; now rewrite orb_false_r).
  assert (NX : forall k, change w c k = None \/ own k = k).
  { intros k. unfold change. rewrite O. destruct (cls_eq_dec k (own c)) as [->|]; [right; now destruct c|apply N]. }
  unfold inv. rewrite !X. cbn [fst]. unfold ParserUnits.change. rewrite O.
  refine (conj _ (conj _ (conj _ (conj _ _)))); [| | | |unfold change, ParserUnits.change in NX; rewrite O in NX; exact NX];
    destruct c; cbn [own lmp pwmd cpmdmd cp2k_md changes]; cbn [cls_eq_dec]; rewrite ?orb_false_r, ?orb_true_r;
    repeat match goal with |- context [cls_eq_dec ?a ?b] => destruct (cls_eq_dec a b) as [?|?]; [try discriminate|try congruence] end;
    first [ assumption | apply settled_same; assumption | eapply settled_put; [eassumption|]; intros q; cbn [rev app]; rewrite !lookup_cons;
            repeat match goal with |- context [String.eqb ?k q] => destruct (String.eqb_spec k q); subst; try discriminate end; reflexivity ].
Qed.
Lemma inv_after hist : inv (after hist) hist.
Proof.
  unfold after. pattern hist. apply rev_ind; [apply inv_fresh|]. intros cu l IH. unfold ParserUnits.after. rewrite fold_left_app. cbn [fold_left]. now apply inv_step.
Qed.
Lemma known_put kvs : forall d, known num kvs = true -> known num d = true -> known num (put num kvs d) = true.
Proof. intros d A B. rewrite put_rev. unfold known in *. rewrite forallb_app, B, andb_true_r. rewrite forallb_forall in *. intros x H. apply A. now apply in_rev. Qed.
Lemma known_after hist : forall k d, after hist k = Some d -> known num d = true.
Proof.
  unfold after. pattern hist. apply rev_ind.
  - intros []; cbn; intros d E; try discriminate; injection E as <-; reflexivity.
  - intros [c u] l IH k d. unfold ParserUnits.after. rewrite fold_left_app. cbn [fold_left]. fold (after l). unfold ParserUnits.construct. cbn [fst].
    unfold ParserUnits.change. rewrite (owner_own _ l c (inv_after l)). destruct (cls_eq_dec k (own c)) as [->|]; [|apply IH].
    destruct (after l (own c)) eqn:E; [|discriminate]. intros H. injection H as <-. apply known_put; [now destruct c|]. now apply (IH (own c)).
Qed.
Lemma after_snoc hist cu : change (after hist) (fst cu) = after (hist ++ [cu]).
Proof. unfold after, ParserUnits.after. rewrite fold_left_app. reflexivity. Qed.
Lemma construct_units hist c u : known num u = true ->
  exists d, snd (construct (after hist) (c, u)) = Some (factor num K d u) /\ after (hist ++ [(c, u)]) (own c) = Some d.
Proof.
  intros KU. pose proof (inv_after (hist ++ [(c, u)])) as I. pose proof (owner_own _ _ c I) as O.
  assert (exists d, after (hist ++ [(c, u)]) (own c) = Some d) as [d E].
  { destruct I as ((? & ? & _) & (? & ? & _) & (? & ? & _) & (? & ? & _) & _). destruct c; cbn [own]; eexists; eassumption. }
  exists d. split; [|exact E]. unfold ParserUnits.construct. cbn [snd]. rewrite (after_snoc hist (c, u)).
  assert (DU : default_units num (after (hist ++ [(c, u)])) c = d) by (unfold default_units; now rewrite O, E).
  cbn [fst]. rewrite DU, KU, (known_after _ _ _ E). reflexivity.
Qed.
Lemma seen_snoc f hist c (u : dict num) : f c = true -> existsb (fun cu : cls * dict num => f (fst cu)) (hist ++ [(c, u)]) = true.
Proof. intros H. rewrite existsb_app. cbn. rewrite H. now rewrite !orb_true_r. Qed.
Lemma settled_seen o base vars d q v : settled o base vars true -> o = Some d -> lookup num q vars = Some v -> lookup num q d = Some v.
Proof. intros (d' & E & _ & B & _) E' V. rewrite E' in E. injection E as <-. rewrite B; [exact V|reflexivity|now rewrite V]. Qed.
Lemma settled_base o base vars seen d q : settled o base vars seen -> o = Some d -> lookup num q vars = None -> lookup num q d = lookup num q base.
Proof. intros (d' & E & A & _) E' V. rewrite E' in E. injection E as <-. destruct (A q) as [|(_ & _ & N)]; [assumption|]. now rewrite V in N. Qed.
End P.
