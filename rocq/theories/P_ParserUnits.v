(** C69: the unit factors of a parser and the parsers made before it. *)
From Coq Require Import List String Bool Reals Lra.
From Verif Require Import ParserUnits ParserUnitsSpec ParserUnitsProofs.
Import ListNotations.
Local Open Scope string_scope.
Local Open Scope list_scope.
(** The value the user gives for a unit, if any (the last one). *)
Definition given {num} (u : dict num) (q : string) : option num := option_map snd (find (fun kv => String.eqb (fst kv) q) (rev u)).
(** After any history of parser constructions, with any units arguments: a parser converts every
    quantity it reads with the factor of the unit its files use, or with the user's factor.
    The one exception is the stress of cp2k SCF runs. *)
Theorem C69_units num (K : consts num) hist c u q un :
  known num u = true -> printed c q = Some un -> (c = Cp2kSCF -> q <> "stress") ->
  exists f, snd (construct num K (after num K hist) (c, u)) = Some f /\
    f q = match given u q with Some v => v | None => to_pwtools K un end.
Proof.
  intros KU P EX. destruct (construct_units num K hist c u KU) as (d & E & D). exists (factor num K d u). split; [exact E|].
  unfold factor. rewrite put_rev, app_nil_r. change (lookup num q (rev u)) with (given u q). destruct (given u q); [reflexivity|].
  destruct (inv_after num K (hist ++ [(c, u)])) as (I1 & I2 & I3 & I4 & _).
  unfold printed in P.
  destruct c; cbn [own] in D; cbn [find fst snd] in P;
    repeat match type of P with context [String.eqb ?k q] => destruct (String.eqb_spec k q) as [<-|]; [|cbn [find fst snd] in P] end;
    cbn [option_map snd] in P; try discriminate; injection P as <-; try (exfalso; apply EX; reflexivity).
  all: try (rewrite (settled_base _ _ _ _ _ _ _ I1 D) by reflexivity; reflexivity).
  all: try (rewrite (settled_base _ _ _ _ _ _ _ I2 D) by reflexivity; reflexivity).
  all: try (rewrite (settled_base _ _ _ _ _ _ _ I3 D) by reflexivity; reflexivity).
  all: try (rewrite (settled_base _ _ _ _ _ _ _ I4 D) by reflexivity; reflexivity).
  all: try (rewrite (seen_snoc num lmp) in I1 by reflexivity; now erewrite (settled_seen _ _ _ _ _ _ _ I1 D) by reflexivity).
  all: try (rewrite (seen_snoc num pwmd) in I2 by reflexivity; now erewrite (settled_seen _ _ _ _ _ _ _ I2 D) by reflexivity).
  all: try (rewrite (seen_snoc num cpmdmd) in I3 by reflexivity; now erewrite (settled_seen _ _ _ _ _ _ _ I3 D) by reflexivity).
  all: try (rewrite (seen_snoc num cp2k_md) in I4 by reflexivity; now erewrite (settled_seen _ _ _ _ _ _ _ I4 D) by reflexivity).
Qed.
(** Those factors are right: x in the printed unit is x times the factor in the unit of pwtools,
    for eV, Angstrom, fs, GPa, K. *)
Theorem C69_converts (c : si) hist k q un :
  (Ry c > 0 /\ Ha c > 0 /\ eV c > 0 /\ Bohr c > 0 /\ Ang c > 0 /\ fs c > 0 /\ ps c > 0 /\ tryd c > 0 /\ thart c > 0)%R ->
  printed k q = Some un -> (k = Cp2kSCF -> q <> "stress") ->
  exists f t, snd (construct R (factors c) (after R (factors c) hist) (k, [])) = Some f /\ target q = Some t /\
    (forall x, x * size c un = (x * f q) * size c t)%R.
Proof.
  intros (H1 & H2 & H3 & H4 & H5 & H6 & H7 & H8 & H9) P EX. destruct (C69_units R (factors c) hist k [] q un eq_refl P EX) as (f & E & V).
  unfold given in V. cbn [rev find option_map] in V.
  assert (exists t, target q = Some t /\ forall x, (x * size c un = (x * to_pwtools (factors c) un) * size c t)%R) as (t & T & X).
  { clear E V EX. unfold printed in P. destruct k; cbn [find fst snd] in P;
    repeat match type of P with context [String.eqb ?k q] => destruct (String.eqb_spec k q) as [<-|]; [|cbn [find fst snd] in P] end;
    cbn [option_map snd] in P; try discriminate; injection P as <-; (eexists; split; [reflexivity|]); intros x; cbn; field; lra. }
  exists f, t. split; [exact E|]. split; [exact T|]. intros x. rewrite V. apply X.
Qed.
(** The exception: the stress is in GPa, and left alone only if no cp2k MD, relax or DCD parser
    was made earlier in the process; otherwise it is divided by 10000. *)
Theorem C69_cp2k_stress num (K : consts num) hist u : known num u = true -> given u "stress" = None ->
  exists f, snd (construct num K (after num K hist) (Cp2kSCF, u)) = Some f /\
    f "stress" = if existsb (fun cu => cp2k_md (fst cu)) hist then bar_gpa _ K else one _ K.
Proof.
  intros KU G. destruct (construct_units num K hist Cp2kSCF u KU) as (d & E & D). exists (factor num K d u). split; [exact E|].
  unfold factor. rewrite put_rev, app_nil_r. change (lookup num "stress" (rev u)) with (given u "stress"). rewrite G.
  destruct (inv_after num K (hist ++ [(Cp2kSCF, u)])) as (_ & _ & _ & I4 & _). cbn [own] in D.
  rewrite existsb_app in I4. cbn [existsb fst cp2k_md] in I4. rewrite !orb_false_r in I4.
  destruct (existsb (fun cu => cp2k_md (fst cu)) hist).
  - now erewrite (settled_seen _ _ _ _ _ _ _ I4 D) by reflexivity.
  - destruct I4 as (d' & E' & _ & _ & Q). rewrite D in E'. injection E' as <-. rewrite (Q eq_refl). reflexivity.
Qed.
(** So the factors of a parser do depend on the history. *)
Theorem C69_history_refuted num (K : consts num) : bar_gpa _ K <> one _ K ->
  ~ (forall hist c q un, printed c q = Some un -> exists f, snd (construct num K (after num K hist) (c, [])) = Some f /\ f q = to_pwtools K un).
Proof.
  intros N H. destruct (H [(Cp2kMD, [])] Cp2kSCF "stress" UGPa eq_refl) as (f & E & Q).
  destruct (C69_cp2k_stress num K [(Cp2kMD, [])] [] eq_refl eq_refl) as (g & E' & Q'). assert (X : Some f = Some g) by (rewrite <- E; exact E'). injection X as <-. cbn in Q'. cbn in Q. congruence.
Qed.
(** An unknown unit raises, but the class dictionary is changed before. *)
Theorem C69_unknown num (K : consts num) hist c u : known num u = false -> snd (construct num K (after num K hist) (c, u)) = None.
Proof. intros KU. unfold construct. cbn [snd]. rewrite KU. now rewrite andb_false_r. Qed.
(** A case with numbers: nat codes for the factors. *)
Definition K0 : consts nat := Consts nat 1 2 3 4 5 6 7 8 9 10 11 12 13.
Example C69_case : option_map (fun f => map f ["length"; "energy"; "stress"; "time"])
    (snd (construct nat K0 (after nat K0 [(LmpTxt, []); (Cp2kRelax, [("length", 77)]); (PwSCF, []); (CpmdMD, [("bad", 1)])]) (PwMD, [("energy", 50); ("energy", 60)]))) = Some [4; 60; 7; 9].
Proof. reflexivity. Qed.
Example C69_stress_case : option_map (fun f => f "stress") (snd (construct nat K0 (after nat K0 [(Cp2kSCF, []); (Cp2kDcd, [])]) (Cp2kSCF, []))) = Some 8.
Proof. reflexivity. Qed.
Print Assumptions C69_units.
Print Assumptions C69_converts.
Print Assumptions C69_cp2k_stress.
Print Assumptions C69_history_refuted.
Print Assumptions C69_unknown.
