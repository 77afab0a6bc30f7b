(** C22, C23, C24, C60: attributes computed on demand, units, class-level
    dictionaries. *)
From Coq Require Import List String Arith Lia ZArith.
From Verif Require Import Getters GettersSpec GettersProofs StructGetters StructGettersSpec StructGettersProofs
  Units UnitsSpec UnitsProofs Classes ClassesProofs.
Import ListNotations.
Open Scope string_scope.

(** ** C22 *)
(** After set_all an attribute has the value the user gave or the one of its
    getter; getters of given attributes are not executed, those that yield a value
    exactly once. *)
Theorem C22_set_all {V} (get : string -> getter V) init rank l fuel :
  acyclic get rank -> (forall a, plain (get a)) -> (forall a, In a l -> rank a < fuel) ->
  exists s', set_all get fuel l (Obj init []) = Done tt s' /\
    (forall a, In a l -> value get init a (attrs s' a)) /\
    (forall a v, attrs s' a = Some v <-> init a = Some v \/ (needed get init l a /\ value get init a (Some v))) /\
    (forall a v, init a = Some v -> times a (log s') = 0) /\
    (forall a v, init a = None -> attrs s' a = Some v -> times a (log s') = 1).
Proof.
  intros H1 H2 H3. destruct (set_all_spec get init rank l fuel H1 H2 H3) as (s' & A & B & C & D & E & _). exists s'. auto.
Qed.
Theorem C22_order_irrelevant {V} (get : string -> getter V) init rank l l' fuel s s' :
  acyclic get rank -> (forall a, plain (get a)) -> (forall a, In a l -> rank a < fuel) ->
  (forall a, In a l <-> In a l') ->
  set_all get fuel l (Obj init []) = Done tt s -> set_all get fuel l' (Obj init []) = Done tt s' ->
  forall a, attrs s' a = attrs s a.
Proof. exact (set_all_order get init rank l l' fuel s s'). Qed.

(** The getters of Structure and Trajectory also look at attributes without asking
    for them, so that coords and coords_frac, cell and cryst_const can be computed
    from each other.  Still, in any order and for any attributes given, set_all
    gives each attribute the value meant (StructGettersSpec.v). *)
Theorem C22_structure {V} (F : funs V) is_traj given l :
  shapes_kept V F -> (forall a, In a l -> In a (attr_lst is_traj)) ->
  exists s', set_all (getter_of F is_traj) 5 l (Obj given []) = Done tt s' /\
    (forall a, In a l -> attrs s' a = meant V F given a) /\
    (forall a v, In a l -> given a = None -> meant V F given a = Some v -> times a (log s') = 1) /\
    (forall a v, given a = Some v -> attrs s' a = Some v /\ times a (log s') = 0).
Proof. intros H Hl. exact (struct_set_all V F is_traj given H l Hl). Qed.

(** A getter that yields None is executed again and again: here 2^n times. *)
Theorem C22_none_is_not_remembered s :
  exists o, set_all none_getter (S (String.length s)) [s] (Obj (fun _ => None) []) = Done tt o /\
    times "" (log o) = 2 ^ String.length s.
Proof.
  destruct (none_chain s (S (String.length s)) (Obj (fun _ => None) []) (le_n _) (fun _ => eq_refl)) as (o & E & _ & T).
  exists o. cbn [set_all]. rewrite E. split; [reflexivity|]. rewrite T. cbn. lia.
Qed.
Print Assumptions C22_set_all.
Print Assumptions C22_order_irrelevant.
Print Assumptions C22_structure.
Print Assumptions C22_none_is_not_remembered.

Definition ex_get (a : string) : getter nat :=
  if a =? "area" then Ask "side" (fun s => match s with Some s => Return (Some (s * s)) | None => Return None end)
  else if a =? "volume" then ask_all ["area"; "side"] (fun o => match o with Some [x; y] => Return (Some (x * y)) | _ => Return None end)
  else Return None.
Definition ex_rank (a : string) : nat := if a =? "area" then 1 else if a =? "volume" then 2 else 0.
Example C22_case : acyclic ex_get ex_rank /\ (forall a, plain (ex_get a)) /\
  (forall a, In a ["volume"; "area"; "side"] -> ex_rank a < 3).
Proof.
  split; [|split].
  - intros a. unfold ex_get, ex_rank. destruct (a =? "area"); [|destruct (a =? "volume")]; simpl.
    + split; [auto|]. intros [|]; exact I.
    + split; [auto|]. intros [|]; (split; [auto|]); intros [|]; exact I.
    + exact I.
  - intros a. unfold ex_get. destruct (a =? "area"); [|destruct (a =? "volume")]; simpl; auto.
    + intros [|]; exact I.
    + intros [|] [|]; exact I.
  - intros a H. simpl in H. unfold ex_rank. repeat (destruct H as [<-|H]; [simpl; lia|]). contradiction.
Qed.
(** side is given, volume is asked for first: area is computed once. *)
Example C22_case_run :
  match set_all ex_get 3 ["volume"; "area"; "side"] (Obj (fun a => if a =? "side" then Some 3 else None) []) with
  | Done _ s => attrs s "volume" = Some 27 /\ attrs s "area" = Some 9 /\ log s = ["area"; "volume"]
  | _ => False
  end.
Proof. vm_compute. auto. Qed.
Definition ex_funs : funs nat :=
  Funs nat Nat.add Nat.sub S S S S Nat.add Nat.add Nat.add Nat.add S (fun _ => 4) (fun _ => 2) S S Nat.add S S Nat.add S S.
Example C22_structure_case : shapes_kept nat ex_funs /\
  match set_all (getter_of ex_funs true) 5 (rev (attr_lst true)) (Obj (fun a => if a =? "coords_frac" then Some 1 else if a =? "cryst_const" then Some 5 else None) []) with
  | Done _ s => attrs s "coords" = Some 7 /\ attrs s "volume" = Some 7 /\ attrs s "natoms" = Some 4 /\ attrs s "mass" = None
  | _ => False
  end.
Proof. split; [intros x c; simpl; auto|]. vm_compute. auto. Qed.

(** ** C23 *)
(** Any sequence of calls: what was set at the beginning is in the end multiplied
    by its unit once, with the units as they were at the first call that applied
    them; rows of cell and cryst_const may have been repeated.  The product need
    only satisfy x*1 = x, as floats do. *)
Theorem C23_units_once (num : Type) one mul eqb (get : string -> getter (quantity num)) rank fuel tr pre o post h h1 h' :
  (forall f x : num, eqb f one = true -> mul x f = x) -> acyclic get rank ->
  applied num h = false ->
  Forall (fun o => exists d, o = Update num d) pre -> (forall d, o <> Update num d) ->
  steps num one mul eqb get fuel tr pre h = Some h1 ->
  steps num one mul eqb get fuel tr (o :: post) h1 = Some h' ->
  forall a q, store num h a = Some q -> exists q', store num h' a = Some q' /\
    repeated (converted mul (units num h1) a q) q' /\
    (a <> "cell" -> a <> "cryst_const" -> q' = converted mul (units num h1) a q).
Proof.
  intros Hm Hac Ha Hp Ho. apply (units_once num one mul eqb Hm get rank Hac fuel tr pre post o h h1 h' Ha).
  - eapply Forall_impl; [|exact Hp]. intros x [d ->]. simpl. auto.
  - destruct o; simpl; auto. destruct (Ho d eq_refl).
Qed.
(** Once the units are applied, set attributes do not change any more; this is also
    true of those computed later. *)
Theorem C23_later_calls_change_nothing (num : Type) one mul eqb (get : string -> getter (quantity num)) rank fuel tr os h h' :
  acyclic get rank -> applied num h = true -> steps num one mul eqb get fuel tr os h = Some h' ->
  forall a q, store num h a = Some q -> exists q', store num h' a = Some q' /\ repeated q q' /\
    (a <> "cell" -> a <> "cryst_const" -> q' = q).
Proof. intros Hac Ha H. exact (proj2 (steps_applied num one mul eqb get rank Hac fuel tr os h h' Ha H)). Qed.
Theorem C23_none_stays_none (num : Type) one mul eqb h a :
  (forall f x : num, eqb f one = true -> mul x f = x) -> store num h a = None -> store num (apply_units num one mul eqb h) a = None.
Proof.
  intros Hm H. destruct (applied num h) eqn:E; [now rewrite apply_again|].
  destruct (applied_store num one mul eqb Hm h a E) as [A _]. now rewrite A, H.
Qed.
(** update_units: an unknown name raises, else the last factor given for a unit
    counts and the quantities stay. *)
Theorem C23_update_units (num : Type) d h :
  ((exists k v, In (k, v) d /\ ~ In k all_units) <-> update_units num d h = None) /\
  forall h', update_units num d h = Some h' -> store num h' = store num h /\ applied num h' = applied num h /\
    forall u, units num h' u = match last_of num d u with Some f => f | None => units num h u end.
Proof.
  unfold update_units. destruct (forallb _ d) eqn:E.
  - split.
    + split; [|discriminate]. intros (k & v & Hin & Hk). rewrite forallb_forall in E. specialize (E _ Hin). apply existsb_exists in E.
      destruct E as (x & Hx & Ex). apply String.eqb_eq in Ex. simpl in Ex. subst x. contradiction.
    + intros h' [= <-]. split; [reflexivity|]. split; [reflexivity|]. intros u. simpl. apply fold_units.
  - split; [|discriminate]. split; [reflexivity|]. intros _.
    assert (X : exists kv, In kv d /\ existsb (String.eqb (fst kv)) all_units = false).
    { clear h. induction d as [|kv d IH]; [discriminate|]. simpl in E. apply Bool.andb_false_iff in E. destruct E as [E|E].
      - exists kv. split; [now left|assumption].
      - destruct (IH E) as (x & Hx & Ex). exists x. split; [now right|assumption]. }
    destruct X as ([k v] & Hin & Ex). exists k, v. split; [assumption|]. intros Hk. rewrite <- Bool.not_true_iff_false in Ex. apply Ex.
    apply existsb_exists. exists k. split; [assumption|]. apply String.eqb_refl.
Qed.
(** _apply_units_raw refuses to run twice. *)
Theorem C23_raw_twice_raises (num : Type) one mul eqb h h1 :
  apply_units_raw num one mul eqb h = Some h1 -> apply_units_raw num one mul eqb h1 = None.
Proof. unfold apply_units_raw. destruct (applied num h) eqn:E; [discriminate|]. intros [= <-]. reflexivity. Qed.
Print Assumptions C23_units_once.
Print Assumptions C23_later_calls_change_nothing.
Print Assumptions C23_none_stays_none.
Print Assumptions C23_update_units.
Print Assumptions C23_raw_twice_raises.

Definition ex_q (a : string) : option (quantity Z) :=
  if a =? "coords" then Some [[1; 2; 3]; [4; 5; 6]]%Z else if a =? "cryst_const" then Some [[2; 3; 4; 90; 90; 90]]%Z
  else if a =? "etot" then Some [[7]]%Z else None.
Definition ex_h : handler Z := Handler Z ex_q (fun _ => 1%Z) false.
Example C23_case :
  let '(res) := steps Z 1%Z Z.mul Z.eqb (fun _ => Return None) 5 true
     [Update Z [("length", 3%Z); ("energy", 5%Z)]; SetAll Z ["cell"; "coords"]; Apply Z; Update Z [("length", 100%Z)]; SetAll Z ["etot"]] ex_h in
  match res with
  | Some h => store Z h "coords" = Some [[3; 6; 9]; [12; 15; 18]]%Z /\ store Z h "etot" = Some [[35]]%Z /\
              store Z h "cryst_const" = Some [[6; 9; 12; 90; 90; 90]; [6; 9; 12; 90; 90; 90]]%Z
  | None => False
  end /\ (forall f x, Z.eqb f 1 = true -> (x * f = x)%Z) /\ acyclic (V := quantity Z) (fun _ => Return None) (fun _ => 0).
Proof. split; [vm_compute; auto|]. split; [intros f x H; apply Z.eqb_eq in H; subst; apply Z.mul_1_r|intros a; exact I]. Qed.

(** ** C60 *)
(** The first get_struct or get_traj converts every parsed quantity ... *)
Theorem C60_first_get_converts (num : Type) one mul eqb (get : string -> getter (quantity num)) rank fuel tr ac l p p1 a q :
  (forall f x : num, eqb f one = true -> mul x f = x) -> acyclic get rank ->
  applied num (cont num p) = false -> In a l -> parsed num p a = Some q ->
  get_cont num one mul eqb get fuel tr ac l p = Some p1 ->
  exists q', store num (cont num p1) a = Some q' /\ repeated (converted mul (units num (cont num p)) a q) q'.
Proof. intros Hm Hac Ha Hin Hq H. apply (get_cont_once num one mul eqb Hm get rank Hac fuel tr ac l p p1 a q Ha Hin Hq H). Qed.
(** ... the second and every later one puts the unconverted quantities into the
    same container. *)
Theorem C60_second_get_does_not (num : Type) one mul eqb (get : string -> getter (quantity num)) rank fuel tr ac ac' l p p1 p2 a q :
  (forall f x : num, eqb f one = true -> mul x f = x) -> acyclic get rank ->
  applied num (cont num p) = false -> In a l -> parsed num p a = Some q ->
  get_cont num one mul eqb get fuel tr ac l p = Some p1 ->
  get_cont num one mul eqb get fuel tr ac' l p1 = Some p2 ->
  exists q', store num (cont num p2) a = Some q' /\ repeated q q'.
Proof.
  intros Hm Hac Ha Hin Hq H1 H2.
  destruct (get_cont_once num one mul eqb Hm get rank Hac fuel tr ac l p p1 a q Ha Hin Hq H1) as (A & _ & B & _).
  apply (get_cont_twice num one mul eqb get rank Hac fuel tr ac' l p1 p2 a q A Hin); [now rewrite B|exact H2].
Qed.
Theorem C60_get_twice_refuted :
  exists p p1 p2 : parser Z,
    get_cont Z 1%Z Z.mul Z.eqb (fun _ => Return None) 5 false true ["etot"] p = Some p1 /\
    get_cont Z 1%Z Z.mul Z.eqb (fun _ => Return None) 5 false true ["etot"] p1 = Some p2 /\
    store Z (cont Z p1) "etot" = Some [[70]]%Z /\ store Z (cont Z p2) "etot" = Some [[7]]%Z.
Proof.
  exists (Parser Z ex_q (Handler Z (fun _ => None) (fun u => if u =? "energy" then 10%Z else 1%Z) false)).
  eexists. eexists. split; [reflexivity|]. split; [reflexivity|]. split; reflexivity.
Qed.
Print Assumptions C60_first_get_converts.
Print Assumptions C60_second_get_does_not.
Print Assumptions C60_get_twice_refuted.

(** ** C24 *)
(** Whatever parsers were created before, the factors of the quantities a parser
    reads are those of the first parser of a program, ... *)
Theorem C24_parser_units_do_not_leak l c user u :
  In u (reads c) -> ~ (c = Cp2kSCF /\ u = "stress") ->
  snd (create c user (create_all l dicts0)) u = snd (create c user dicts0) u.
Proof. exact (units_stable l c user u). Qed.
(** ... with one exception. *)
Theorem C24_cp2k_stress_leaks l :
  snd (create Cp2kSCF [] (create_all l dicts0)) "stress"
  = if existsb (fun cu => match fst cu with Cp2kMD | Cp2kRelax | Cp2kDcdMD => true | _ => false end) l then "1e-4" else "1.0".
Proof. exact (cp2k_stress l). Qed.
Theorem C24_cp2k_stress_refuted :
  exists l, snd (create Cp2kSCF [] (create_all l dicts0)) "stress" <> snd (create Cp2kSCF [] dicts0) "stress".
Proof. exists [(Cp2kMD, [])]. vm_compute. discriminate. Qed.
(** Calculators: an attribute of a new instance is the latest keyword given to any
    instance of the class, else the default; [accepted] are the keywords of those
    instances whose creation did not raise because of an unknown key. *)
Theorem C24_calculator_parameters_leak {V} (d0 : dict V) l kwds d' attr u :
  init_params V kwds (init_all V l d0) = Some (d', attr) ->
  attr u = match dget (rev (List.concat (accepted V d0 l) ++ kwds)%list) u with Some v => Some v | None => dget d0 u end.
Proof.
  unfold init_params. destruct (forallb _ kwds); [|discriminate]. intros [= _ <-].
  rewrite dget_dupdate, init_all_get, rev_app_distr, dget_app. now destruct (dget (rev kwds) u).
Qed.
Theorem C24_calculator_refuted :
  exists (d0 : dict nat) l d' attr, init_params nat [] (init_all nat l d0) = Some (d', attr) /\ dget d0 "ecutwfc" = Some 80 /\ attr "ecutwfc" = Some 30.
Proof. exists [("ecutwfc", 80)], [[("ecutwfc", 30)]]. eexists. eexists. split; [reflexivity|]. split; reflexivity. Qed.
Print Assumptions C24_parser_units_do_not_leak.
Print Assumptions C24_cp2k_stress_leaks.
Print Assumptions C24_cp2k_stress_refuted.
Print Assumptions C24_calculator_parameters_leak.
Print Assumptions C24_calculator_refuted.
Example C24_case : In "stress" (reads PwSCF) /\
  snd (create PwSCF [] (create_all [(PwMD, []); (LammpsText, []); (Cp2kMD, [])] dicts0)) "stress" = "0.1".
Proof. vm_compute. auto. Qed.
