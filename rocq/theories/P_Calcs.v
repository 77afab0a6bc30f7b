(** C15: template lists of calculations. *)
From Coq Require Import List Arith Lia.
From Verif Require Import Calcs CalcsProofs.
Import ListNotations.

(** write_input passes templates[:]: every calculation of the study has the
    study's templates and the one of its own machine, in the end, when all
    calculations of all machines have been created. *)
Theorem C15_study_templates_do_not_leak {T} (templates : list T) (machs : list (option T)) h l :
  inits heap0 (map (fun m => Ctor (AFresh templates) m) machs) = (h, l) ->
  map (deref h) l = map (fun m => templates ++ opt_list m) machs.
Proof. intros H. exact (proj1 (study_templates templates machs h l H)). Qed.

(** The same in any program that mixes all kinds of calls: a list passed fresh
    is seen by nobody else, as long as the list objects passed explicitly are
    the caller's own. *)
Theorem C15_fresh_lists_do_not_leak {T} (ks : list (ctor T)) h h' l i lst m a :
  0 < length h -> valids h ks -> inits h ks = (h', l) ->
  (forall k b, In k ks -> k_arg k = AShared b -> b < length h) ->
  nth_error ks i = Some (Ctor (AFresh lst) m) -> nth_error l i = Some a ->
  deref h' a = lst ++ opt_list m.
Proof. intros H0 Hv H Hs Hi Ha. exact (proj1 (fresh_own ks h h' l i lst m a H0 Hv H Hs Hi Ha)). Qed.

(** Without a templates argument the calculations of a program all have one and
    the same list: the machine templates of all of them. *)
Theorem C15_default_templates_leak {T} (ks : list (ctor T)) h' l :
  valids heap0 ks -> inits heap0 ks = (h', l) ->
  forall i k a, nth_error ks i = Some k -> k_arg k = ADefault -> nth_error l i = Some a ->
  deref h' a = flat_map (fun k => match k_arg k with ADefault => opt_list (k_mach k) | _ => [] end) ks.
Proof.
  intros Hv H i k a Hk Hd Ha. assert (H0 : 0 < length (heap0 (T := T))) by (simpl; lia).
  destruct (default_collects ks heap0 h' l H0 Hv H) as [A B]. rewrite (B i k a Hk Hd Ha). exact A.
Qed.

(** So the claim "a calculation has the templates it was given and its machine's"
    is false for them. *)
Theorem C15_default_argument_refuted :
  exists (ks : list (ctor nat)) h l a, inits heap0 ks = (h, l) /\
    nth_error ks 1 = Some (Ctor ADefault (Some 7)) /\ nth_error l 1 = Some a /\ deref h a <> [7].
Proof.
  exists [Ctor ADefault (Some 3); Ctor ADefault (Some 7)], [[3; 7]], [0; 0], 0. repeat split. discriminate.
Qed.
Print Assumptions C15_study_templates_do_not_leak.
Print Assumptions C15_fresh_lists_do_not_leak.
Print Assumptions C15_default_templates_leak.
Print Assumptions C15_default_argument_refuted.

Example C15_case :
  let ks := [Ctor (AFresh [1; 2]) (Some 8); Ctor ADefault (Some 3); Ctor (AFresh [1; 2]) (Some 9); Ctor ADefault (Some 4); Ctor (AFresh [1; 2]) None] in
  valids heap0 ks /\ let '(h, l) := inits heap0 ks in map (deref h) l = [[1; 2; 8]; [3; 4]; [1; 2; 9]; [3; 4]; [1; 2]].
Proof. simpl. repeat split. Qed.
