(** C25, C26, C27, C28: indexing, slicing, looping over, concatenating and mixing
    trajectories. *)
From Coq Require Import List String ZArith Lia Reals.
From Verif Require Import StructGetters Traj TrajSpec TrajProofs ConcatProofs.
From Verif Require Mix MixSpec MixProofs.
Import ListNotations.
Open Scope string_scope.

(** ** C25 *)
(** tr[i] is step i (counted from the end if negative) of every time dependent
    array, without the attributes only a trajectory has, and the shared values. *)
Theorem C25_index {A X T} n (tr : obj A X T) i : whole n tr -> (- Z.of_nat n <= i < Z.of_nat n)%Z ->
  exists st, getitem_int tr i = Some st /\
    (forall a, In a attrs_nstep -> ~ In a attrs_only_traj ->
       st a = match row tr a (Z.to_nat (i mod Z.of_nat n)) with Some r => Some (Row r) | None => None end /\
       (tr a <> None -> st a <> None)) /\
    (forall a, In a attrs_only_traj -> st a = None) /\
    (forall a, In a (attr_lst true) -> ~ In a attrs_nstep -> ~ In a attrs_only_traj -> st a = tr a).
Proof. exact (getitem_int_spec n tr i). Qed.
Theorem C25_index_outside {A X T} n (tr : obj A X T) i :
  whole n tr -> ~ (- Z.of_nat n <= i < Z.of_nat n)%Z -> getitem_int tr i = None.
Proof. exact (getitem_int_outside n tr i). Qed.
(** tr[a:b:s] with s > 0 *)
Theorem C25_slice {A X T} mul n (tr : obj A X T) s : whole n tr -> (0 < by_ s)%Z ->
  exists tr', getitem_slice mul tr s = Some tr' /\ whole (Z.to_nat (count s (Z.of_nat n))) tr' /\
    (forall a, In a attrs_nstep ->
       (tr a = None -> tr' a = None) /\
       (forall l, tr a = Some (Arr l) -> exists r, tr' a = Some (Arr r) /\
          is_slice l (first s (Z.of_nat n)) (last s (Z.of_nat n)) (by_ s) r)) /\
    (forall a, In a (attr_lst true) -> ~ In a attrs_nstep -> a <> "nstep" -> a <> "timestep" -> tr' a = tr a) /\
    tr' "timestep" = match tr "timestep" with Some (Num t) => Some (Num (mul t (by_ s))) | v => v end.
Proof. exact (getitem_slice_pos mul n tr s). Qed.
(** Slicing twice *)
Theorem C25_slice_twice {A X T} mul n (tr : obj A X T) s s' tr1 tr2 :
  (forall t d d', mul (mul t d) d' = mul t (d * d')%Z) ->
  whole n tr -> (0 < by_ s)%Z -> (0 < by_ s')%Z ->
  getitem_slice mul tr s = Some tr1 -> getitem_slice mul tr1 s' = Some tr2 ->
  exists tr3, getitem_slice mul tr (composed (Z.of_nat n) s s') = Some tr3 /\
    forall a, In a (attr_lst true) -> tr3 a = tr2 a.
Proof. exact (getitem_slice_twice mul n tr s s' tr1 tr2). Qed.
(** tr[::-1] has a negative timestep *)
Theorem C25_reversed {A X T} mul n (tr : obj A X T) : whole n tr ->
  exists tr', getitem_slice mul tr (Slice None None (Some (-1)%Z)) = Some tr' /\ whole n tr' /\
    (forall a l, In a attrs_nstep -> tr a = Some (Arr l) -> tr' a = Some (Arr (rev l))) /\
    (forall t, tr "timestep" = Some (Num t) -> tr' "timestep" = Some (Num (mul t (-1)%Z))).
Proof. exact (getitem_reversed mul n tr). Qed.
(** An array whose length is not nstep is silently lost. *)
Theorem C25_other_lengths_lost {A X T} mul n (tr : obj A X T) s a l :
  tr "nstep" = Some (Int n) -> In a attrs_nstep -> tr a = Some (Arr l) ->
  Z.of_nat (List.length l) <> n -> (0 < by_ s)%Z ->
  exists tr', getitem_slice mul tr s = Some tr' /\ tr' a = None.
Proof. exact (getitem_lost mul n tr s a l). Qed.
Print Assumptions C25_index.
Print Assumptions C25_index_outside.
Print Assumptions C25_slice.
Print Assumptions C25_slice_twice.
Print Assumptions C25_reversed.
Print Assumptions C25_other_lengths_lost.

Definition ex_tr : obj nat string Z := fun a =>
  if a =? "coords" then Some (Arr [10; 11; 12; 13; 14; 15; 16]) else
  if a =? "etot" then Some (Arr [20; 21; 22; 23; 24; 25; 26]) else
  if a =? "symbols" then Some (Other "Al N") else
  if a =? "nstep" then Some (Int 7) else
  if a =? "timestep" then Some (Num 5%Z) else None.
Example ex_whole : whole 7 ex_tr.
Proof.
  split; [reflexivity|]. split; [|split; [left; discriminate|right; exists 5%Z; reflexivity]].
  intros a H. cbn in H. repeat (destruct H as [<-|H]; [cbn; eauto; fail|]). destruct H.
Qed.
Example C25_cases :
  option_map (fun st => (st "coords", st "etot", st "symbols", st "timestep")) (getitem_int ex_tr (-2)) =
    Some (Some (Row 15), Some (Row 25), Some (Other "Al N"), None) /\
  option_map (fun st => (st "coords", st "nstep", st "timestep")) (getitem_slice Z.mul ex_tr (Slice (Some 1) None (Some 2))%Z) =
    Some (Some (Arr [11; 13; 15]), Some (Int 3%Z), Some (Num 10%Z)).
Proof. split; reflexivity. Qed.

(** ** C26 *)
(** A complete loop visits every step once in order and can be repeated. *)
Theorem C26_complete_loop {S : Type} (n : nat) (f : Z -> S -> S) s fuel : n < fuel ->
  for_loop (Z.of_nat n) (fun i s ix => (f i s, ix, true)) fuel s (-1) =
    Some (fold_left (fun s i => f (Z.of_nat i) s) (seq 0 n) s, (-1)%Z).
Proof. intros H. exact (for_loop_all n _ f (fun _ _ _ => eq_refl) n 0 s fuel eq_refl H). Qed.
(** However calls of next() come about: call number k gives step k mod (n+1), or
    the end of the loop if that is n. *)
Theorem C26_all_calls (n k : nat) :
  fst (nexts (Z.of_nat n) k (-1)) =
    map (fun i => if Nat.eqb (i mod S n) n then None else Some (Z.of_nat (i mod S n))) (seq 0 k).
Proof. change (-1)%Z with (Z.of_nat 0 - 1)%Z. rewrite (nexts_spec n k 0 (Nat.le_0_l n)). reflexivity. Qed.
(** After a loop left in step k the next loop starts with step k+1. *)
Theorem C26_after_break {S : Type} (n k : nat) (f : Z -> S -> S) s fuel s' fuel' : k < n -> k < fuel -> n - k - 1 < fuel' ->
  exists ix,
    for_loop (Z.of_nat n) (fun i s ix => (f i s, ix, negb (i =? Z.of_nat k)%Z)) fuel s (-1) =
      Some (fold_left (fun s i => f (Z.of_nat i) s) (seq 0 (k + 1)) s, ix) /\
    for_loop (Z.of_nat n) (fun i s ix => (f i s, ix, true)) fuel' s' ix =
      Some (fold_left (fun s i => f (Z.of_nat i) s) (seq (k + 1) (n - k - 1)) s', (-1)%Z).
Proof.
  intros H Hf Hf'. exists (Z.of_nat k). split.
  - rewrite Nat.add_1_r. exact (for_loop_break n k _ f (fun _ _ _ => eq_refl) H k 0 s fuel eq_refl Hf).
  - replace (Z.of_nat k) with (Z.of_nat (k + 1) - 1)%Z by lia.
    apply (for_loop_all n _ f (fun _ _ _ => eq_refl)); lia.
Qed.
(** Two nested complete loops over the same object never end: the outer one gets
    step 0 over and over again. *)
Theorem C26_nested_never_ends (n : nat) : 0 < n -> forall fuel s,
  for_loop (Z.of_nat n) (nested (Z.of_nat n) (S n)) fuel s (-1) = None.
Proof. exact (nested_never_ends n). Qed.
Print Assumptions C26_complete_loop.
Print Assumptions C26_all_calls.
Print Assumptions C26_after_break.
Print Assumptions C26_nested_never_ends.
Example C26_cases :
  for_loop 3 (fun i s ix => ((s ++ [i])%list, ix, true)) 9 [] (-1) = Some ([0; 1; 2]%Z, (-1)%Z) /\
  fst (nexts 2 7 (-1)) = [Some 0; Some 1; None; Some 0; Some 1; None; Some 0]%Z.
Proof. split; reflexivity. Qed.

(** ** C27 *)
Theorem C27_concatenate {A X T} (p : nat * (bool * obj A X T)) ps : Forall part (p :: ps) ->
  exists tr, concatenate (map snd (p :: ps)) = Some tr /\
    (** attributes set in all parts: the steps one after the other *)
    (forall a, In a attrs_nstep -> a <> "time" -> Forall (has a) (p :: ps) ->
       exists l, tr a = Some (Arr l) /\ List.length l = steps (p :: ps) /\
         forall pre q post, p :: ps = (pre ++ q :: post)%list -> forall i, i < fst q ->
           nth_error l (steps pre + i) = row (snd (snd q)) a i) /\
    (Forall (has "coords") (p :: ps) -> tr "nstep" = Some (Int (Z.of_nat (steps (p :: ps))))) /\
    (** attributes not set in all parts: dropped, except those set in the first *)
    (forall a, In a attrs_nstep -> a <> "time" -> ~ Forall (has a) (p :: ps) ->
       (snd (snd p) a = None -> tr a = None) /\
       (snd (snd p) a <> None -> exists l, tr a = Some (Arr l) /\ List.length l = fst p)) /\
    (** values without time axis come from the first *)
    (forall a, In a (attr_lst false) -> ~ In a attrs_nstep ->
       (Forall (has a) (p :: ps) -> tr a = snd (snd p) a) /\ (~ Forall (has a) (p :: ps) -> tr a = None)) /\
    tr "timestep" = None /\ tr "time" = None.
Proof.
  intros P. destruct (concatenate_spec p ps P) as (tr & E & H1 & H2 & H3 & H4 & H5 & H6).
  exists tr. split; [exact E|].
  assert (ALL : forall a, In a attrs_nstep -> a <> "time" -> Forall (has a) (p :: ps) ->
       exists l, tr a = Some (Arr l) /\ List.length l = steps (p :: ps) /\
         forall pre q post, p :: ps = (pre ++ q :: post)%list -> forall i, i < fst q ->
           nth_error l (steps pre + i) = row (snd (snd q)) a i).
  { intros a Ha Nt H. exists (List.concat (values (p :: ps) a)). split; [auto|]. exact (concat_length (p :: ps) a P Ha H). }
  split; [exact ALL|]. split; [|split; [|auto]].
  - intros H. rewrite H6. unfold get_nstep. destruct (ALL "coords") as (l & -> & L & _); [left; reflexivity|discriminate|exact H|].
    rewrite L. reflexivity.
  - intros a Ha Nt H. rewrite (H2 a Ha Nt H). destruct (struct2traj_part p (Forall_inv P)) as [Q _]. destruct (Q a Ha) as [Q1 Q2].
    split; [exact Q1|]. intros N. destruct (Q2 N) as (l & El & L & _). eauto.
Qed.
(** Hence "as many steps as the sum" is false when only the first has coords. *)
Definition ex_first : obj nat string Z := fun a =>
  if a =? "coords" then Some (Arr [1; 2]) else if a =? "cell" then Some (Arr [5; 6]) else
  if a =? "nstep" then Some (Int 2) else None.
Definition ex_second : obj nat string Z := fun a =>
  if a =? "coords_frac" then Some (Arr [3; 4; 5]) else if a =? "cell" then Some (Arr [7; 8; 9]) else
  if a =? "nstep" then Some (Int 3) else None.
Theorem C27_concatenate_refuted : exists tr, concatenate [(true, ex_first); (true, ex_second)] = Some tr /\
  part (2, (true, ex_first)) /\ part (3, (true, ex_second)) /\
  tr "nstep" = Some (Int 2) /\ tr "cell" = Some (Arr [5; 6; 7; 8; 9]) /\ tr "coords" = Some (Arr [1; 2]).
Proof.
  eexists. split; [reflexivity|]. split; [|split; [|repeat split; reflexivity]].
  - split; [reflexivity|]. split; [|split; [left; discriminate|left; reflexivity]].
    intros a H. cbn in H. repeat (destruct H as [<-|H]; [cbn; eauto; fail|]). destruct H.
  - split; [reflexivity|]. split; [|split; [right; discriminate|left; reflexivity]].
    intros a H. cbn in H. repeat (destruct H as [<-|H]; [cbn; eauto; fail|]). destruct H.
Qed.
(** st.get_traj(n): a trajectory of n steps, and each of its steps is the structure again. *)
Theorem C27_get_traj {A X T} (st : obj A X T) n i : single st -> (- Z.of_nat n <= i < Z.of_nat n)%Z ->
  whole n (get_traj st n) /\
  exists st', getitem_int (get_traj st n) i = Some st' /\ forall a, In a (attr_lst false) -> st' a = st a.
Proof. exact (get_traj_spec st n i). Qed.
Print Assumptions C27_get_traj.
Print Assumptions C27_concatenate.
Print Assumptions C27_concatenate_refuted.
Definition ex_st : obj nat string Z := fun a =>
  if a =? "coords" then Some (Row 30) else if a =? "symbols" then Some (Other "C") else None.
Example C27_case : Forall part [(7, (true, ex_tr)); (1, (false, ex_st))] /\
  option_map (fun tr => (tr "coords", tr "symbols", tr "nstep", tr "etot")) (concatenate [(true, ex_tr); (false, ex_st)]) =
    Some (Some (Arr [10; 11; 12; 13; 14; 15; 16; 30]), Some (Other "Al N"), Some (Int 8),
          Some (Arr [20; 21; 22; 23; 24; 25; 26])).
Proof.
  split; [|reflexivity]. constructor; [exact ex_whole|]. constructor; [|constructor]. split; [|reflexivity].
  split; [|split; [|left; discriminate]]; intros a H; cbn in H.
  - repeat (destruct H as [<-|H]; [cbn; eauto; fail|]). destruct H.
  - repeat (destruct H as [<-|H]; [reflexivity|]). destruct H.
Qed.

(** ** C28 *)
Import Mix MixSpec MixProofs.
Theorem C28_mix n st1 st2 alpha : atoms n st1 -> atoms n st2 -> symbols st1 = symbols st2 ->
  exists tr, mix st1 st2 alpha = Some tr /\ nstep tr = List.length alpha /\ tsymbols tr = symbols st1 /\
    (forall k a, nth_error alpha k = Some a ->
       (exists c, nth_error (tcoords tr) k = Some c /\ on_line (coords st1) (coords st2) c a) /\
       (exists h, nth_error (tcell tr) k = Some h /\ on_line (cell st1) (cell st2) h a)) /\
    (forall f1 f2, forces st1 = Some f1 -> forces st2 = Some f2 -> exists f, tforces tr = Some f /\
       forall k a, nth_error alpha k = Some a -> exists g, nth_error f k = Some g /\ on_line f1 f2 g a) /\
    (forces st1 = None \/ forces st2 = None -> tforces tr = None).
Proof. exact (mix_spec n st1 st2 alpha). Qed.
(** Structures with other symbols are refused, also those with another number of atoms. *)
Theorem C28_refused st1 st2 alpha : symbols st1 <> symbols st2 \/ List.length (coords st1) <> List.length (coords st2) -> mix st1 st2 alpha = None.
Proof.
  intros H. unfold mix, same_shape. destruct (Nat.eqb_spec (List.length (coords st1)) (List.length (coords st2))); cbn [negb]; [|reflexivity].
  destruct (list_eq_dec string_dec (symbols st1) (symbols st2)); cbn [negb]; [tauto|reflexivity].
Qed.
Theorem C28_ends n st1 st2 alpha tr k c h : atoms n st1 -> atoms n st2 -> symbols st1 = symbols st2 ->
  mix st1 st2 alpha = Some tr -> nth_error (tcoords tr) k = Some c -> nth_error (tcell tr) k = Some h ->
  (nth_error alpha k = Some 0%R -> c = coords st1 /\ h = cell st1) /\
  (nth_error alpha k = Some 1%R -> c = coords st2 /\ h = cell st2).
Proof.
  intros A1 A2 Sy E Ec Eh. destruct (mix_spec n st1 st2 alpha A1 A2 Sy) as (tr' & E' & _ & _ & H & _).
  rewrite E in E'. injection E' as <-. destruct A1 as (C1 & H1 & _), A2 as (C2 & H2 & _).
  split; intros Ha; destruct (H k _ Ha) as ((c' & Ec' & Lc) & (h' & Eh' & Lh));
    rewrite Ec in Ec'; injection Ec' as <-; rewrite Eh in Eh'; injection Eh' as <-.
  - split; [exact (proj1 (on_line_ends n _ _ _ C1 C2) Lc) | exact (proj1 (on_line_ends 3 _ _ _ H1 H2) Lh)].
  - split; [exact (proj2 (on_line_ends n _ _ _ C1 C2) Lc) | exact (proj2 (on_line_ends 3 _ _ _ H1 H2) Lh)].
Qed.
Print Assumptions C28_mix.
Print Assumptions C28_refused.
Print Assumptions C28_ends.
Example C28_case : let I := [[1; 0; 0]; [0; 1; 0]; [0; 0; 1]]%R in
  atoms 1 (Struct [[1; 2; 3]%R] I ["H"] None) /\ atoms 1 (Struct [[4; 5; 6]%R] I ["H"] None).
Proof. repeat split; repeat constructor. Qed.
