From Coq Require Import List String ZArith Lia Bool.
From Verif Require Import StructGetters Traj TrajSpec TrajProofs.
Import ListNotations.
Open Scope string_scope.

Section Concat.
Context {A X T : Type}.
Notation obj := (obj A X T).
Notation val := (val A X T).
Notation item := (nat * (bool * obj))%type.

Lemma fold_setattr (f : string -> option val) : forall l (o : obj) a,
  fold_left (fun o a => setattr o a (f a)) l o a = if mem a l then f a else o a.
Proof.
  induction l as [|b l IH]; intros o a; [reflexivity|]. cbn [fold_left]. rewrite IH.
  unfold mem. cbn [existsb]. rewrite (String.eqb_sym a b). unfold setattr.
  destruct (String.eqb_spec b a) as [->|]; cbn [orb]; destruct (existsb (String.eqb a) l); reflexivity.
Qed.
Lemma nstep_not_only : forall a, In a attrs_nstep -> In a attrs_only_traj -> a = "velocity" \/ a = "ekin" \/ a = "temperature" \/ a = "time".
Proof.
  intros a H H'. cbn in H'. destruct H' as [<-|[<-|[<-|[<-|[<-|[<-|[]]]]]]]; auto; exfalso; revert H; apply mem_false; reflexivity.
Qed.

(** What struct2traj makes of a part *)
Lemma struct2traj_part (p : item) : part p ->
  (forall a, In a attrs_nstep ->
     (snd (snd p) a = None -> struct2traj (snd p) a = None) /\
     (snd (snd p) a <> None -> exists l, struct2traj (snd p) a = Some (Arr l) /\ List.length l = fst p /\
        forall i, nth_error l i = row (snd (snd p)) a i)) /\
  (forall a, In a (attr_lst false) -> ~ In a attrs_nstep -> struct2traj (snd p) a = snd (snd p) a).
Proof.
  destruct p as [n [[|] o]]; unfold part; cbn [fst snd struct2traj].
  - intros (W1 & W2 & _). split; [|reflexivity]. intros a Ha. split; [auto|]. intros N.
    destruct (W2 a Ha) as [|(l & E & L)]; [contradiction|]. exists l. split; [exact E|]. split; [exact L|].
    intros i. unfold row. rewrite E. reflexivity.
  - intros [(S1 & S2 & S3) ->]. unfold get_traj.
    match goal with |- context [fold_left ?f ?l none] => set (tr := fold_left f l none) end.
    assert (Tr : forall a, tr a = if mem a (attr_lst false) then
              match o a with None => None | Some (Row r) => if mem a attrs_nstep then Some (Arr (repeat r 1)) else Some (Row r)
                           | Some v => Some v end else None).
    { intros a. unfold tr. rewrite (fold_setattr (fun a => match o a with None => None
         | Some (Row r) => if mem a attrs_nstep then Some (Arr (repeat r 1)) else Some (Row r) | Some v => Some v end)). reflexivity. }
    clearbody tr.
    assert (Same : forall a v, a <> "nstep" -> setattr tr "nstep" v a = tr a).
    { intros a v N. unfold setattr. destruct (String.eqb_spec "nstep" a); [congruence|reflexivity]. }
    split.
    + intros a Ha. assert (Nn : a <> "nstep") by (intros ->; revert Ha; apply mem_false; reflexivity).
      rewrite Same by exact Nn. rewrite Tr, (proj2 (mem_In a attrs_nstep) Ha). split.
      * intros ->. destruct (mem a (attr_lst false)); reflexivity.
      * intros N. assert (No : ~ In a attrs_only_traj) by (intros I; apply N, S2, I).
        assert (M : mem a (attr_lst false) = true).
        { apply mem_In. unfold attr_lst. apply filter_In. split; [apply (nstep_attrs a Ha)|].
          change (existsb (String.eqb a) attrs_only_traj) with (mem a attrs_only_traj).
          rewrite (proj2 (mem_false _ _) No). reflexivity. }
        rewrite M. destruct (S1 a Ha) as [|(r & E)]; [contradiction|]. exists [r]. rewrite E. split; [reflexivity|]. split; [reflexivity|].
        intros i. unfold row. rewrite E. destruct i as [|[|i]]; reflexivity.
    + intros a Ha Hn. assert (Nn : a <> "nstep") by (intros ->; revert Ha; apply mem_false; reflexivity).
      rewrite Same by exact Nn. rewrite Tr, (proj2 (mem_In _ _) Ha), (proj2 (mem_false _ _) Hn).
      destruct (o a) as [[| | | |]|]; reflexivity.
Qed.

Lemma get_traj_attr (st : obj) n a : a <> "nstep" -> get_traj st n a = if mem a (attr_lst false) then
  match st a with None => None | Some (Row r) => if mem a attrs_nstep then Some (Arr (repeat r n)) else Some (Row r) | Some v => Some v end else None.
Proof.
  intros N. unfold get_traj, setattr. destruct (String.eqb_spec "nstep" a); [congruence|].
  rewrite (fold_setattr (fun a => match st a with None => None
         | Some (Row r) => if mem a attrs_nstep then Some (Arr (repeat r n)) else Some (Row r) | Some v => Some v end)). reflexivity.
Qed.
Lemma nstep_or_only a : In a attrs_nstep -> mem a (attr_lst false) = negb (mem a attrs_only_traj).
Proof. intros H. cbn in H. repeat (destruct H as [<-|H]; [reflexivity|]). destruct H. Qed.
Lemma nstep_set (tr : obj) : setattr tr "nstep" (get_nstep tr) "nstep" = get_nstep (setattr tr "nstep" (get_nstep tr)).
Proof. reflexivity. Qed.
Lemma get_traj_nstep (st : obj) n : get_traj st n "nstep" = get_nstep (get_traj st n).
Proof. unfold get_traj. apply nstep_set. Qed.
Lemma get_traj_spec (st : obj) n i : single st -> (- Z.of_nat n <= i < Z.of_nat n)%Z ->
  whole n (get_traj st n) /\
  exists st', getitem_int (get_traj st n) i = Some st' /\ forall a, In a (attr_lst false) -> st' a = st a.
Proof.
  intros (S1 & S2 & S3) Hi.
  assert (Ht := S2 "timestep" ltac:(apply mem_In; reflexivity)).
  assert (Q : forall a, In a attrs_nstep -> get_traj st n a = match st a with Some (Row r) => Some (Arr (repeat r n)) | _ => None end).
  { intros a Ha. assert (Nn : a <> "nstep") by (intros ->; revert Ha; apply mem_false; reflexivity).
    rewrite get_traj_attr by exact Nn. rewrite (nstep_or_only a Ha), (proj2 (mem_In a attrs_nstep) Ha).
    destruct (mem a attrs_only_traj) eqn:M; cbn [negb].
    - apply mem_In in M. now rewrite (S2 a M).
    - destruct (S1 a Ha) as [-> | (r & ->)]; reflexivity. }
  assert (W : whole n (get_traj st n)).
  { assert (Ec := Q "coords" ltac:(apply mem_In; reflexivity)). assert (Ef := Q "coords_frac" ltac:(apply mem_In; reflexivity)).
    split; [|split; [|split]].
    - assert (G := get_traj_nstep st n).
      rewrite G. unfold get_nstep. rewrite Ec, Ef. destruct (S1 "coords" ltac:(apply mem_In; reflexivity)) as [E|(r & E)]; rewrite E.
      + destruct (S1 "coords_frac" ltac:(apply mem_In; reflexivity)) as [E'|(r & E')]; rewrite E'; [destruct S3; contradiction|]. now rewrite repeat_length.
      + now rewrite repeat_length.
    - intros a Ha. rewrite (Q a Ha). destruct (S1 a Ha) as [-> | (r & ->)]; [now left|]. right. exists (repeat r n). now rewrite repeat_length.
    - rewrite Ec, Ef. destruct (S1 "coords" ltac:(apply mem_In; reflexivity)) as [E|(r & E)]; rewrite E; [|left; discriminate].
      destruct (S1 "coords_frac" ltac:(apply mem_In; reflexivity)) as [E'|(r & E')]; rewrite E'; [destruct S3; contradiction|right; discriminate].
    - left. rewrite get_traj_attr by discriminate. rewrite Ht. destruct (mem _ _); reflexivity. }
  split; [exact W|]. destruct (getitem_int_spec n (get_traj st n) i W Hi) as (st' & E & R1 & R2 & R3).
  exists st'. split; [exact E|]. intros a Ha.
  assert (Hn : a <> "nstep") by (intros ->; revert Ha; apply mem_false; reflexivity).
  assert (No : ~ In a attrs_only_traj).
  { unfold attr_lst in Ha. apply filter_In in Ha. destruct Ha as [_ Ha]. intros I. apply mem_In in I. unfold mem in I. rewrite I in Ha. discriminate. }
  assert (Hb : In a (attr_lst true)) by (unfold attr_lst in Ha; apply filter_In in Ha; apply Ha).
  destruct (mem a attrs_nstep) eqn:M.
  - apply mem_In in M. destruct (R1 a M No) as [-> _]. unfold row. rewrite (Q a M).
    destruct (S1 a M) as [-> | (r & ->)]; [reflexivity|]. rewrite nth_error_repeat; [reflexivity|].
    apply Nat2Z.inj_lt. rewrite Z2Nat.id; apply Z.mod_pos_bound; lia.
  - pose proof M as M'. apply mem_false in M'. rewrite (R3 a Hb M' No). rewrite get_traj_attr by exact Hn. rewrite (proj2 (mem_In _ _) Ha), M.
    destruct (st a) as [[| | | |]|]; reflexivity.
Qed.

Definition values (ps : list item) (a : string) : list (list A) := map (fun x => rows x a) (map struct2traj (map snd ps)).
Lemma all_have_b (ps : list item) a : Forall part ps -> In a attrs_nstep \/ (In a (attr_lst false) /\ ~ In a attrs_nstep) ->
  forallb (fun o => is_some (o a)) (map struct2traj (map snd ps)) = true <-> Forall (has a) ps.
Proof.
  intros P Ha. rewrite forallb_forall, Forall_forall. rewrite Forall_forall in P. split.
  - intros H p Hp. specialize (H (struct2traj (snd p)) (in_map _ _ _ (in_map _ _ _ Hp))).
    destruct (struct2traj_part p (P p Hp)) as [Q1 Q2]. unfold has. intros N. destruct Ha as [Ha|[Ha Hn]].
    + rewrite (proj1 (Q1 a Ha) N) in H. discriminate.
    + rewrite (Q2 a Ha Hn), N in H. discriminate.
  - intros H o Ho. apply in_map_iff in Ho as (b & <- & Hb). apply in_map_iff in Hb as (p & <- & Hp).
    destruct (struct2traj_part p (P p Hp)) as [Q1 Q2]. specialize (H p Hp). unfold has in H. destruct Ha as [Ha|[Ha Hn]].
    + destruct (proj2 (Q1 a Ha) H) as (l & -> & _). reflexivity.
    + rewrite (Q2 a Ha Hn). destruct (snd (snd p) a); [reflexivity|congruence].
Qed.
Lemma concat_length (ps : list item) a : Forall part ps -> In a attrs_nstep -> Forall (has a) ps ->
  List.length (List.concat (values ps a)) = steps ps /\
  forall pre p post, ps = (pre ++ p :: post)%list -> forall i, i < fst p ->
    nth_error (List.concat (values ps a)) (steps pre + i) = row (snd (snd p)) a i.
Proof.
  intros P Ha H.
  assert (G : forall qs, Forall part qs -> Forall (has a) qs -> List.length (List.concat (values qs a)) = steps qs).
  { induction qs as [|q qs IH]; intros P1 H1; [reflexivity|]. pose proof (Forall_inv P1) as Pq. pose proof (Forall_inv_tail P1) as Pqs.
    pose proof (Forall_inv H1) as Hq. pose proof (Forall_inv_tail H1) as Hqs.
    unfold values in *. cbn [map List.concat]. rewrite app_length, (IH Pqs Hqs). unfold steps. cbn [map list_sum fold_right].
    f_equal. destruct (struct2traj_part q Pq) as [Q1 _]. destruct (proj2 (Q1 a Ha) Hq) as (l & E & L & _). unfold rows. rewrite E. exact L. }
  split; [auto|]. intros pre p post ->. rewrite Forall_app in P, H. destruct P as [P1 P2], H as [H1 H2].
  pose proof (Forall_inv P2) as Pp. pose proof (Forall_inv H2) as Hp. intros i Hi.
  assert (V : values (pre ++ p :: post) a = (values pre a ++ rows (struct2traj (snd p)) a :: values post a)%list)
    by (unfold values; rewrite !map_app; reflexivity).
  rewrite V, concat_app. rewrite nth_error_app2; rewrite (G pre P1 H1); [|lia].
  replace (steps pre + i - steps pre) with i by lia. cbn [map List.concat].
  destruct (struct2traj_part p Pp) as [Q1 _]. destruct (proj2 (Q1 a Ha) Hp) as (l & E & L & R). unfold rows at 1. rewrite E.
  rewrite nth_error_app1 by lia. apply R.
Qed.

Lemma concatenate_spec (p : item) ps : Forall part (p :: ps) ->
  exists tr, concatenate (map snd (p :: ps)) = Some tr /\
    (forall a, In a attrs_nstep -> a <> "time" -> Forall (has a) (p :: ps) ->
       tr a = Some (Arr (List.concat (values (p :: ps) a)))) /\
    (forall a, In a attrs_nstep -> a <> "time" -> ~ Forall (has a) (p :: ps) -> tr a = struct2traj (snd p) a) /\
    (forall a, In a (attr_lst false) -> ~ In a attrs_nstep ->
       (Forall (has a) (p :: ps) -> tr a = snd (snd p) a) /\ (~ Forall (has a) (p :: ps) -> tr a = None)) /\
    tr "timestep" = None /\ tr "time" = None /\ tr "nstep" = get_nstep tr.
Proof.
  intros P. unfold concatenate. cbn [map].
  change (struct2traj (snd p) :: map struct2traj (map snd ps)) with (map struct2traj (map snd (p :: ps))).
  set (trlst := map struct2traj (map snd (p :: ps))). set (com := populated_attrs trlst).
  eexists. split; [reflexivity|].
  set (o1 := fold_left _ (filter _ com) none). set (o2 := fold_left _ _ o1).
  assert (O1 : forall a, o1 a = if mem a (filter (fun a => mem a attrs_nstep) com)
                               then Some (Arr (List.concat (values (p :: ps) a))) else None).
  { intros a. unfold o1. rewrite (fold_setattr (fun a => Some (Arr (List.concat (map (fun x => rows x a) trlst))))). reflexivity. }
  assert (O2 : forall a, o2 a = if mem a (symmetric_difference com (attrs_nstep ++ attrs_only_traj))
                               then struct2traj (snd p) a else o1 a).
  { intros a. unfold o2. apply (fold_setattr (struct2traj (snd p))). }
  clearbody o1 o2.
  assert (MC : forall a, In a attrs_nstep \/ (In a (attr_lst false) /\ ~ In a attrs_nstep) ->
             mem a com = true <-> Forall (has a) (p :: ps)).
  { intros a Ha. rewrite <- (all_have_b _ a P Ha). rewrite mem_In. unfold com, populated_attrs. rewrite filter_In.
    fold trlst. split; [tauto|]. intros H. split; [|exact H]. destruct Ha as [Ha|[Ha _]]; [apply nstep_attrs, Ha|].
    unfold attr_lst in *. apply filter_In in Ha. tauto. }
  assert (SD : forall a, mem a (symmetric_difference com (attrs_nstep ++ attrs_only_traj)) =
              xorb (mem a com) (mem a (attrs_nstep ++ attrs_only_traj))).
  { intros a. apply Bool.eq_iff_eq_true. unfold symmetric_difference. rewrite mem_In, in_app_iff, !filter_In, <- !mem_In.
    destruct (mem a com), (mem a (attrs_nstep ++ attrs_only_traj)); cbn; intuition congruence. }
  assert (FC : forall a, In a attrs_nstep -> mem a (filter (fun a => mem a attrs_nstep) com) = mem a com).
  { intros a Ha. apply Bool.eq_iff_eq_true. rewrite mem_In, filter_In, <- mem_In, (mem_In a attrs_nstep). tauto. }
  assert (Same : forall a, a <> "timestep" -> a <> "time" -> a <> "nstep" -> forall u v w,
            setattr (setattr (setattr o2 "timestep" u) "time" v) "nstep" w a = o2 a).
  { intros a N1 N2 N3 u v w. unfold setattr. destruct (String.eqb_spec "nstep" a); [congruence|].
    destruct (String.eqb_spec "time" a); [congruence|]. destruct (String.eqb_spec "timestep" a); [congruence|]. reflexivity. }
  assert (NN : forall a, In a attrs_nstep -> a <> "timestep" /\ a <> "nstep").
  { intros a Ha. split; intros ->; revert Ha; apply mem_false; reflexivity. }
  assert (MA : forall a, In a attrs_nstep -> mem a (attrs_nstep ++ attrs_only_traj) = true).
  { intros a Ha. apply mem_In, in_app_iff. auto. }
  split; [|split; [|split; [|split; [|split]]]].
  - intros a Ha Nt H. destruct (NN a Ha). rewrite Same by assumption. rewrite O2, SD, (MA a Ha).
    rewrite (proj2 (MC a (or_introl Ha)) H). cbn [xorb]. rewrite O1, FC by exact Ha.
    rewrite (proj2 (MC a (or_introl Ha)) H). reflexivity.
  - intros a Ha Nt H. destruct (NN a Ha). rewrite Same by assumption. rewrite O2, SD, (MA a Ha).
    destruct (mem a com) eqn:M; [exfalso; apply H, MC; auto|]. reflexivity.
  - intros a Ha Hn.
    assert (Hs : forall b, In b attrs_only_traj -> a <> b).
    { intros b Hb ->. unfold attr_lst in Ha. apply filter_In in Ha as [_ Ha].
      change (existsb (String.eqb b) attrs_only_traj) with (mem b attrs_only_traj) in Ha.
      rewrite (proj2 (mem_In _ _) Hb) in Ha. discriminate. }
    rewrite Same; [|apply Hs; cbn; tauto ..]. rewrite O2, SD.
    assert (Mf : mem a (attrs_nstep ++ attrs_only_traj) = false).
    { apply mem_false. intros I. apply in_app_iff in I as [I|I]; [contradiction|]. exact (Hs a I eq_refl). }
    rewrite Mf. destruct (struct2traj_part p (Forall_inv P)) as [_ Q2]. rewrite <- (Q2 a Ha Hn).
    destruct (mem a com) eqn:M; cbn [xorb].
    + split; [reflexivity|]. intros N. exfalso. apply N, MC; auto.
    + split; [intros H; exfalso; apply (MC a) in H; [congruence|auto]|]. intros _. rewrite O1.
      destruct (mem a (filter (fun a => mem a attrs_nstep) com)) eqn:F; [|reflexivity].
      apply mem_In, filter_In in F as [_ F]. apply mem_In in F. contradiction.
  - reflexivity.
  - reflexivity.
  - reflexivity.
Qed.
End Concat.
