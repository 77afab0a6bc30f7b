(** C95: copies are independent, frames and slices of trajectories are not *)
From Coq Require Import List String Reals Lra Lia Arith Bool.
From Verif Require Import StructGetters Traj Alias AliasSpec AliasProofs.
Import ListNotations.
Local Open Scope list_scope.
Local Notation length := List.length.

(** ** new objects from old ones, attribute by attribute *)
Definition sees (h : heap) (v : value) : list item * list nat := match v with Imm x => ([x], []) | Mut w => (contents h w, dims w) end.
Lemma seen_sees h o n : seen h o n = option_map (sees h) (get o n).
Proof. unfold seen. now destruct (get o n) as [[x|v]|]. Qed.
Definition valid (h : heap) (v : value) : Prop := match v with Imm _ => True | Mut w => buf w < length h end.
Lemma sees_app h t v : valid h v -> sees (h ++ t) v = sees h v.
Proof. destruct v as [x|w]; [reflexivity|]. intros B. cbn in *. now rewrite (contents_ext h) by now apply buffer_app. Qed.
Section EACH.
Variable g : string -> heap -> value -> heap * value.
Variable F : string -> list item * list nat -> list item * list nat.
Fixpoint each (h : heap) (l : list (string * value)) : heap * list (string * value) :=
  match l with
  | [] => (h, [])
  | (n, v) :: l => let (h1, v1) := g n h v in let (h2, l2) := each h1 l in (h2, (n, v1) :: l2)
  end.
Hypothesis G : forall n h v, valid h v -> exists t v', g n h v = (h ++ t, v') /\ sees (h ++ t) v' = F n (sees h v) /\ (forall w, v' = Mut w -> length h <= buf w < length (h ++ t)).
Lemma each_spec l : forall h, (forall n v, In (n, v) l -> valid h v) -> exists t l', each h l = (h ++ t, l') /\
  Forall2 (fun a b => fst a = fst b /\ sees (h ++ t) (snd b) = F (fst a) (sees h (snd a)) /\ forall w, snd b = Mut w -> length h <= buf w < length (h ++ t)) l l'.
Proof.
  induction l as [|(n, v) l IH]; intros h V.
  - exists [], []. cbn. rewrite app_nil_r. split; [reflexivity|constructor].
  - cbn. destruct (G n h v (V n v ltac:(now left))) as (t & v' & E & S & B). rewrite E. destruct (IH (h ++ t)) as (t2 & l' & E2 & F2).
    { intros m w I. specialize (V m w ltac:(now right)). destruct w; [constructor|]. cbn in *. rewrite app_length. lia. }
    rewrite E2. exists (t ++ t2), ((n, v') :: l'). rewrite app_assoc. split; [reflexivity|]. constructor.
    + cbn. split; [reflexivity|]. split; [rewrite sees_app; [exact S|]; destruct v'; [exact I|]; cbn; apply (B v0 eq_refl)|]. intros w W. specialize (B w W). rewrite app_length. lia.
    + assert (V2 : forall n v, In (n, v) l -> valid h v) by (intros; apply (V n0); now right). clear -F2 V2. induction F2 as [|(a, x) (b, y) la lb (A & B & C) F2 IH]; [constructor|]. constructor; [|apply IH; intros; apply (V2 n); now right]. cbn in *. split; [exact A|]. split; [rewrite B, sees_app; [reflexivity|]; apply (V2 a); now left|]. intros w W. specialize (C w W). rewrite !app_length in *. lia.
Qed.
Lemma each_object h o : in_memory h o -> let r := each h (attrs o) in fresh h (fst r) (Obj (snd r) no_units false) /\ forall n, seen (fst r) (Obj (snd r) no_units false) n = option_map (F n) (seen h o n).
Proof.
  intros M. destruct (each_spec (attrs o) h) as (t & l' & E & F2).
  { intros n v I. destruct v; [constructor|exact (M _ _ I)]. }
  rewrite E. cbn [fst snd]. split.
  - split; [now exists t|]. assert (X : forall n w, In (n, Mut w) l' -> length h <= buf w < length (h ++ t)).
    { intros n w I. clear E M. induction F2 as [|(a, x) (b, y) la lb (A & B & C) F2 IH]; [destruct I|]. destruct I as [I|I]; [injection I as -> ->; exact (C w eq_refl)|exact (IH I)]. }
    split; [intros n w I; apply (X n w I)|]. intros p (n & w & I & <-). apply (X n w I).
  - intros n. rewrite !seen_sees. unfold get. cbn [attrs]. clear E M. induction F2 as [|(a, x) (b, y) la lb (A & B & C) F2 IH]; [reflexivity|]. cbn in A, B. subst b. cbn. destruct (String.eqb n a) eqn:N; [apply String.eqb_eq in N; subst a; cbn; now rewrite B|exact IH].
Qed.
End EACH.
Lemma copy_each h o : copy h o = (fst (each (fun _ => copy_value) h (attrs o)), Obj (snd (each (fun _ => copy_value) h (attrs o))) no_units false).
Proof.
  unfold copy. assert (E : forall l h, copy_attrs h l = each (fun _ => copy_value) h l). { induction l as [|(n, v) l IH]; intros h0; [reflexivity|]. cbn. destruct (copy_value h0 v) as (h1, v1). now rewrite IH. }
  rewrite E. now destruct (each _ h (attrs o)).
Qed.
Lemma copy_value_sees n h v : valid h v -> exists t v', (fun _ : string => copy_value) n h v = (h ++ t, v') /\ sees (h ++ t) v' = (fun _ x => x) n (sees h v) /\ (forall w, v' = Mut w -> length h <= buf w < length (h ++ t)).
Proof.
  intros V. destruct (copy_value_spec h v) as (t & v' & E & S); [destruct v; [exact I|exact V]|]. exists t, v'. split; [exact E|]. destruct v as [x|w], v' as [y|w']; cbv beta iota in S; [|contradiction|contradiction|].
  - subst y. split; [reflexivity|discriminate].
  - destruct S as (H & _ & H1 & H2). split; [cbn; now rewrite H1, H|]. intros z Z. injection Z as <-. lia.
Qed.
Lemma copy_fresh h o : in_memory h o -> fresh h (fst (copy h o)) (snd (copy h o)) /\ forall n, seen (fst (copy h o)) (snd (copy h o)) n = seen h o n.
Proof.
  intros M. rewrite copy_each. cbn [fst snd]. destruct (each_object (fun _ => copy_value) (fun _ x => x) copy_value_sees h o M) as (A & B). split; [exact A|]. intros n. rewrite B. now destruct (seen h o n).
Qed.

(** ** copy *)
Theorem C95_copy h o : in_memory h o -> let (h', c) := copy h o in untouched h h' /\ forall n, seen h' c n = seen h o n.
Proof. intros M. destruct (copy_fresh h o M) as (A & B). destruct (copy h o) as (h', c). split; [exact (fresh_untouched _ _ _ A)|exact B]. Qed.
Theorem C95_independent wrap cart cast h o : in_memory h o -> let (h', c) := copy h o in independent wrap cart cast h' o c.
Proof. intros M. destruct (copy_fresh h o M) as (A & B). destruct (copy h o) as (h', c). apply apart_independent. exact (fresh_apart _ _ _ _ A M). Qed.
(** get_traj: all attributes along the time axis are repeated, the others copied *)
Theorem C95_get_traj wrap cart cast h o k : in_memory h o -> let (h', c) := get_traj h o k in
  untouched h h' /\ independent wrap cart cast h' o c /\
  forall n, seen h' c n = if mem n attrs_nstep then option_map (fun x => (List.concat (repeat (fst x) k), k :: snd x)) (seen h o n) else seen h o n.
Proof.
  intros M. unfold get_traj.
  set (g := fun n h v => if mem n attrs_nstep then repeat_value h k v else copy_value h v). set (F := fun n (x : list item * list nat) => if mem n attrs_nstep then (List.concat (repeat (fst x) k), k :: snd x) else x).
  assert (E : forall l h, traj_attrs h k l = each g h l). { induction l as [|(n, v) l IH]; intros h0; [reflexivity|]. cbn [traj_attrs each]. change (g n h0 v) with (if mem n attrs_nstep then repeat_value h0 k v else copy_value h0 v). destruct (if mem n attrs_nstep then _ else _) as (h1, v1). now rewrite IH. }
  rewrite E. destruct (each_object g F) with (h := h) (o := o) as (A & B); [|exact M|].
  - intros n h0 v V. unfold g, F. destruct (mem n attrs_nstep); [|exact (copy_value_sees n h0 v V)]. destruct v as [x|w]; cbn [repeat_value alloc].
    + eexists [repeat x k], _. split; [reflexivity|]. split; [|intros w W; injection W as <-; cbn; rewrite app_length; cbn; lia]. cbn [sees fst snd]. f_equal. refine (eq_trans (alloc_contents h0 (repeat x k) [k] F64) _). clear. induction k as [|j IH]; [reflexivity|]. cbn. now rewrite <- IH.
    + eexists [List.concat (repeat (contents h0 w) k)], _. split; [reflexivity|]. split; [|intros z Z; injection Z as <-; cbn; rewrite app_length; cbn; lia]. cbn [sees fst snd]. f_equal. exact (alloc_contents h0 (List.concat (repeat (contents h0 w) k)) (k :: dims w) (kind_ w)).
  - destruct (each g h (attrs o)) as (h', l'). cbn [fst snd] in A, B. split; [exact (fresh_untouched _ _ _ A)|]. split; [apply apart_independent; exact (fresh_apart _ _ _ _ A M)|]. intros n. rewrite B. unfold F. destruct (mem n attrs_nstep); [reflexivity|]. now destruct (seen h o n).
Qed.

(** ** functions with copy=True *)
Theorem C95_wrap_copy wrap cart cast h o : in_memory h o -> let (h', c) := pbc_wrap wrap cart h o true in untouched h h' /\ independent wrap cart cast h' o c.
Proof.
  intros M. unfold pbc_wrap. destruct (copy_fresh h o M) as (A & _). destruct (copy h o) as (h1, c). cbn [fst snd] in A. assert (O := only_wrap wrap cart h1 c ltac:(apply A)). destruct (wrap_here wrap cart h1 c) as (h2, c2). cbn [fst snd] in O. destruct (fresh_only _ _ _ _ _ A O) as (U & P). split; [exact U|]. apply apart_independent. now apply P.
Qed.
Theorem C95_compress_copy wrap cart cast forget h o : in_memory h o -> let (h', c) := compress cast forget h o true in untouched h h' /\ independent wrap cart cast h' o c.
Proof.
  intros M. unfold compress. destruct (copy_fresh h o M) as (A & _). destruct (copy h o) as (h1, c). cbn [fst snd] in A. assert (O := only_compress cast forget h1 c ltac:(apply A)). destruct (compress_here cast forget h1 c) as (h2, c2). cbn [fst snd] in O. destruct (fresh_only _ _ _ _ _ A O) as (U & P). split; [exact U|]. apply apart_independent. now apply P.
Qed.
(** compress: forgotten attributes are gone, float64 arrays are rounded, the rest stays *)
Theorem C95_compress cast forget h o n : in_memory h o -> regular o -> let (h', c) := compress_here cast forget h o in
  seen h' c n = if mem n forget then None else
    match get o n with Some (Mut v) => match kind_ v with F64 => Some (map (num_item cast) (contents h v), dims v) | _ => seen h o n end | _ => seen h o n end.
Proof.
  unfold in_memory, regular, compress_here, seen, get. generalize (attrs o). intros l M ND.
  assert (G : forall h, (forall n v, In (n, Mut v) l -> buf v < length h) -> let (h', l') := compress_attrs cast forget h l in (exists t, h' = h ++ t) /\
    match find (fun nv => String.eqb n (fst nv)) l' with Some nv => Some (sees h' (snd nv)) | None => None end = if mem n forget then None else
    match find (fun nv => String.eqb n (fst nv)) l with Some nv => match snd nv with Mut v => match kind_ v with F64 => Some (map (num_item cast) (contents h v), dims v) | _ => Some (sees h (snd nv)) end | x => Some (sees h x) end | None => None end).
  { clear M o. induction l as [|(a, v) l IH]; intros h0 M; [cbn -[mem]; split; [exists []; now rewrite app_nil_r|now destruct (mem n forget)]|]. inversion ND as [|? ? NI ND2]; subst. specialize (IH ND2). cbn [compress_attrs]. destruct (mem a forget) eqn:MF.
    - specialize (IH h0 (fun n v I => M n v (or_intror I))). destruct (compress_attrs cast forget h0 l) as (h2, l2). destruct IH as (T & IH). split; [exact T|]. rewrite IH. destruct (mem n forget) eqn:MN; [reflexivity|]. cbn [find fst]. destruct (String.eqb n a) eqn:E; [apply String.eqb_eq in E; subst; congruence|reflexivity].
    - assert (S : exists t v1, cast_value cast h0 v = (h0 ++ t, v1) /\ valid (h0 ++ t) v1 /\ Some (sees (h0 ++ t) v1) = match v with Mut w => match kind_ w with F64 => Some (map (num_item cast) (contents h0 w), dims w) | _ => Some (sees h0 v) end | x => Some (sees h0 x) end).
      { destruct v as [x|w]; [exists [], (Imm x); rewrite app_nil_r; now repeat split|]. assert (B := M a w ltac:(now left)). cbn [cast_value]. destruct (kind_ w).
        - eexists [map (num_item cast) (contents h0 w)], _. split; [reflexivity|]. split; [cbn; rewrite app_length; cbn; lia|]. cbn [sees dims]. do 2 f_equal. exact (alloc_contents h0 (map (num_item cast) (contents h0 w)) (dims w) F32).
        - exists [], (Mut w). rewrite app_nil_r. now repeat split.
        - exists [], (Mut w). rewrite app_nil_r. now repeat split. }
      destruct S as (t & v1 & E1 & V1 & E2). rewrite E1. specialize (IH (h0 ++ t)). destruct (compress_attrs cast forget (h0 ++ t) l) as (h2, l2). destruct IH as ((t2 & ->) & IH); [intros m w I; rewrite app_length; specialize (M m w (or_intror I)); lia|]. split; [exists (t ++ t2); now rewrite app_assoc|]. cbn -[mem]. destruct (String.eqb n a) eqn:E.
      + apply String.eqb_eq in E. subst a. rewrite MF. cbn [snd]. rewrite sees_app by exact V1. rewrite E2. destruct v; reflexivity.
      + rewrite IH. destruct (mem n forget); [reflexivity|]. destruct (find _ l) as [(b, z)|] eqn:FI; [|reflexivity]. cbn [snd]. apply find_in in FI as (FI & _). destruct z as [x|w]; [reflexivity|]. assert (B := M b w (or_intror FI)). rewrite (contents_ext h0 (h0 ++ t)) by now apply buffer_app. rewrite sees_app by exact B. reflexivity. }
  specialize (G h M). destruct (compress_attrs cast forget h l) as (h', l'). destruct G as (_ & G). cbn [attrs]. destruct (find (fun nv => String.eqb n (fst nv)) l') as [(a, x)|].
  - cbn [snd] in *. transitivity (Some (sees h' x)); [now destruct x|]. rewrite G. destruct (mem n forget); [reflexivity|]. destruct (find _ l) as [(b, z)|]; [|reflexivity]. cbn [snd]. destruct z as [y|w]; [reflexivity|]. now destruct (kind_ w).
  - rewrite G. destruct (mem n forget); [reflexivity|]. destruct (find _ l) as [(b, z)|]; [|reflexivity]. cbn [snd]. destruct z as [y|w]; [reflexivity|]. now destruct (kind_ w).
Qed.

(** ** units *)
Definition scaled (f : R) (x : list item * list nat) : list item * list nat := (map (mul_item f) (fst x), snd x).
Lemma mul_one x : mul_item 1 x = x. Proof. destruct x; [cbn; now rewrite Rmult_1_r|reflexivity]. Qed.
Lemma scaled_one x : scaled 1 x = x.
Proof. destruct x as (l, d). unfold scaled. cbn. f_equal. rewrite (map_ext _ (fun x => x)) by apply mul_one. apply map_id. Qed.
(** [grows h o h' o' f]: memory is only added, attribute n becomes f n of it; the array is a new one if [new n] *)
Definition grows (h : heap) (o : object) (h' : heap) (o' : object) (f : string -> list item * list nat -> list item * list nat) (new : string -> Prop) : Prop :=
  (exists t, h' = h ++ t) /\ in_memory h' o' /\ (forall n, seen h' o' n = option_map (f n) (seen h o n)) /\
  (forall n v, get o n = Some (Mut v) -> (~ new n -> get o' n = Some (Mut v)) /\ (new n -> exists w, get o' n = Some (Mut w) /\ length h <= buf w)) /\ units o' = units o /\ applied o' = applied o.
Lemma grows_refl h o : in_memory h o -> grows h o h o (fun _ x => x) (fun _ => False).
Proof. intros M. split; [exists []; now rewrite app_nil_r|]. split; [exact M|]. split; [intros n; now destruct (seen h o n)|]. split; [|now split]. intros n v G. split; [intros _; exact G|intros []]. Qed.
Lemma grows_trans h o h1 o1 h2 o2 f g p q : grows h o h1 o1 f p -> grows h1 o1 h2 o2 g q -> grows h o h2 o2 (fun n x => g n (f n x)) (fun n => p n \/ q n).
Proof.
  intros ((t & ->) & M & S & N & U1 & U2) ((t2 & ->) & M2 & S2 & N2 & V1 & V2). split; [exists (t ++ t2); now rewrite app_assoc|]. split; [exact M2|]. split; [intros n; rewrite S2, S; now destruct (seen h o n)|]. split; [|split; congruence].
  intros n v G. destruct (N n v G) as (A & B). split.
  - intros X. assert (G1 : get o1 n = Some (Mut v)) by (apply A; tauto). apply (N2 n v G1). tauto.
  - intros X. destruct (Classical_Prop.classic (p n)) as [P|P].
    + destruct (B P) as (w & W & L). destruct (N2 n w W) as (C & D). destruct (Classical_Prop.classic (q n)) as [Q|Q]; [destruct (D Q) as (z & Z & LZ); exists z; rewrite app_length in LZ; split; [exact Z|lia]|exists w; split; [now apply C|exact L]].
    + destruct X as [X|X]; [contradiction|]. destruct (N2 n v (A P)) as (_ & D). destruct (D X) as (z & Z & LZ). exists z. rewrite app_length in LZ. split; [exact Z|lia].
Qed.
Lemma grows_ext h o h' o' f g p q : (forall n x, f n x = g n x) -> (forall n, p n <-> q n) -> grows h o h' o' f p -> grows h o h' o' g q.
Proof. intros E Q (A & B & C & D & U). split; [exact A|]. split; [exact B|]. split; [intros n; rewrite C; destruct (seen h o n); [cbn; now rewrite E|reflexivity]|]. split; [|exact U]. intros n v G. destruct (D n v G) as (X & Y). rewrite <- Q. now split. Qed.
Lemma seen_put_alloc h o n l d k m : in_memory h o -> seen (h ++ [l]) (put o n (Mut (View (length h) (seq 0 (length l)) d k))) m = if String.eqb m n then Some (l, d) else seen h o m.
Proof.
  intros M. rewrite !seen_sees, get_put. destruct (String.eqb m n); [cbn [option_map sees dims]; do 2 f_equal; exact (alloc_contents h l d k)|]. destruct (get o m) as [v|] eqn:G; [|reflexivity]. cbn. f_equal. apply sees_app. destruct v; [exact I|]. apply get_in in G. exact (M _ _ G).
Qed.
Lemma grows_times f h o n : in_memory h o -> grows h o (fst (times_attr f (h, o) n)) (snd (times_attr f (h, o) n)) (fun m => if String.eqb m n then scaled f else fun x => x) (fun m => m = n).
Proof.
  intros M. assert (ME := only_mem _ _ _ _ (only_times_attr f h o n M)). unfold times_attr in *. cbn [fst snd] in *. destruct (get o n) as [v|] eqn:G.
  - unfold times in *. destruct v as [x|v].
    + cbn [fst snd] in *. split; [exists []; now rewrite app_nil_r|]. split; [exact ME|]. split; [|split; [|now split]].
      * intros m. rewrite !seen_sees, get_put. destruct (String.eqb m n) eqn:E; [apply String.eqb_eq in E; subst m; now rewrite G|]. now destruct (get o m).
      * intros m w W. rewrite get_put. destruct (String.eqb m n) eqn:E; [apply String.eqb_eq in E; subst m; congruence|]. split; [now intros _|]. intros ->. now rewrite String.eqb_refl in E.
    + cbn [alloc fst snd] in *. split; [eexists; reflexivity|]. split; [exact ME|]. split; [|split; [|now split]].
      * intros m. rewrite (seen_put_alloc h o n (map (mul_item f) (contents h v)) (dims v) (kind_ v) m M). destruct (String.eqb m n) eqn:E; [apply String.eqb_eq in E; subst m; rewrite seen_sees, G; reflexivity|]. now destruct (seen h o m).
      * intros m w W. rewrite get_put. destruct (String.eqb m n) eqn:E.
        -- apply String.eqb_eq in E. split; [contradiction|]. intros _. eexists. split; [reflexivity|]. cbn. lia.
        -- split; [now intros _|]. intros ->. now rewrite String.eqb_refl in E.
  - apply (grows_ext h o h o (fun m => if String.eqb m n then scaled f else fun x => x) _ (fun m => m = n)); [reflexivity|reflexivity|]. split; [exists []; now rewrite app_nil_r|]. split; [exact M|]. split; [|split; [|now split]].
    + intros m. destruct (String.eqb m n) eqn:E; [apply String.eqb_eq in E; subst m; rewrite seen_sees, G; reflexivity|]. now destruct (seen h o m).
    + intros m w W. split; [now intros _|]. intros ->. congruence.
Qed.
Lemma grows_names f l : NoDup l -> forall h o, in_memory h o -> grows h o (fst (fold_left (times_attr f) l (h, o))) (snd (fold_left (times_attr f) l (h, o))) (fun m => if mem m l then scaled f else fun x => x) (fun m => In m l).
Proof.
  induction 1 as [|n l NI ND IH]; intros h o M; [exact (grows_refl h o M)|]. cbn [fold_left]. assert (X := grows_times f h o n M). destruct (times_attr f (h, o) n) as (h1, o1). cbn [fst snd] in X. assert (Y := IH h1 o1 ltac:(apply X)). refine (grows_ext _ _ _ _ _ _ _ _ _ _ (grows_trans _ _ _ _ _ _ _ _ _ _ X Y)).
  - intros m x. unfold mem. cbn [existsb]. fold (mem m l). destruct (String.eqb m n) eqn:E; [|reflexivity]. apply String.eqb_eq in E. subst m. cbn. destruct (mem n l) eqn:MM; [|reflexivity]. exfalso. apply NI. unfold mem in MM. apply existsb_exists in MM as (k & K & E). apply String.eqb_eq in E. now subst.
  - intros m. cbn. split; intros [A|A]; auto.
Qed.
Lemma grows_cc f h o : in_memory h o -> (forall x, get o "cryst_const" <> Some (Imm x)) -> grows h o (fst (times_cc f (h, o))) (snd (times_cc f (h, o))) (fun m => if String.eqb m "cryst_const" then (fun x => (scale_abc f (fst x), snd x)) else fun x => x) (fun m => m = "cryst_const"%string).
Proof.
  intros M NI. assert (ME := only_mem _ _ _ _ (only_cc f h o M)). unfold times_cc in *. cbn [fst snd] in *. destruct (get o "cryst_const") as [[x|v]|] eqn:G; [now destruct (NI x)| |].
  - cbn [alloc fst snd] in *. split; [eexists; reflexivity|]. split; [exact ME|]. split; [|split; [|now split]].
    + intros m. rewrite (seen_put_alloc h o "cryst_const" (scale_abc f (contents h v)) (dims v) (kind_ v) m M). destruct (String.eqb m "cryst_const") eqn:E; [apply String.eqb_eq in E; subst m; rewrite seen_sees, G; reflexivity|]. now destruct (seen h o m).
    + intros m w W. rewrite get_put. destruct (String.eqb m "cryst_const") eqn:E.
      * apply String.eqb_eq in E. split; [contradiction|]. intros _. eexists. split; [reflexivity|]. cbn. lia.
      * split; [now intros _|]. intros ->. now rewrite String.eqb_refl in E.
  - split; [exists []; now rewrite app_nil_r|]. split; [exact M|]. split; [|split; [|now split]].
    + intros m. destruct (String.eqb m "cryst_const") eqn:E; [apply String.eqb_eq in E; subst m; cbn [fst snd]; unfold seen; rewrite G; reflexivity|]. cbn [fst snd]; now destruct (seen h o m).
    + intros m w W. split; [now intros _|]. intros ->. congruence.
Qed.
(** the factor of an attribute, unit by unit *)
Definition by_units (u : string -> R) (l : list (string * list string)) (m : string) (x : list item * list nat) : list item * list nat :=
  fold_left (fun x ul => if mem m (snd ul) then scaled (u (fst ul)) x else x) l x.
Lemma grows_units u l : Forall (fun ul : string * list string => NoDup (snd ul)) l -> forall h o, in_memory h o ->
  let r := fold_left (fun ho ul => if Req_EM_T (u (fst ul)) 1 then ho else fold_left (times_attr (u (fst ul))) (snd ul) ho) l (h, o) in
  grows h o (fst r) (snd r) (by_units u l) (fun m => exists ul, In ul l /\ In m (snd ul) /\ u (fst ul) <> 1%R).
Proof.
  induction 1 as [|(k, names) l ND FA IH]; intros h o M.
  - cbn. apply (grows_ext _ _ _ _ (fun _ x => x) _ (fun _ => False)); [reflexivity| |now apply grows_refl]. intros n. split; [intros []|intros (? & [] & _)].
  - cbn [fold_left fst snd] in *. destruct (Req_EM_T (u k) 1) as [E|NE].
    + assert (Y := IH h o M). cbn zeta in Y |- *. refine (grows_ext _ _ _ _ _ _ _ _ _ _ Y).
      * intros n x. unfold by_units. cbn [fold_left fst snd]. rewrite E, scaled_one. now destruct (mem n names).
      * intros n. split; intros (ul & I & J & K); [exists ul; split; [now right|now split]|]. destruct I as [<-|I]; [contradiction|]. exists ul. now split.
    + assert (X := grows_names (u k) names ND h o M). destruct (fold_left (times_attr (u k)) names (h, o)) as (h1, o1). cbn [fst snd] in X. assert (Y := IH h1 o1 ltac:(apply X)). cbn zeta in Y |- *. refine (grows_ext _ _ _ _ _ _ _ _ _ _ (grows_trans _ _ _ _ _ _ _ _ _ _ X Y)).
      * intros n x. unfold by_units. cbn [fold_left fst snd]. now destruct (mem n names).
      * intros n. split.
        -- intros [I|(ul & I & J & K)]; [exists (k, names); split; [now left|now split]|exists ul; split; [now right|now split]].
        -- intros (ul & [<-|I] & J & K); [now left|right; exists ul; now split].
Qed.
Lemma grows_apply h o : in_memory h o -> applied o = false -> (forall x, get o "cryst_const" <> Some (Imm x)) ->
  let (h', o') := apply_units (h, o) in (exists t, h' = h ++ t) /\ in_memory h' o' /\
  (forall n, seen h' o' n = option_map (fun x => if String.eqb n "cryst_const" then (scale_abc (units o "length"%string) (fst x), snd x) else scaled (unit_of (units o) n) x) (seen h o n)) /\
  (forall n v, get o n = Some (Mut v) -> n <> "cryst_const"%string -> (unit_of (units o) n = 1%R -> get o' n = Some (Mut v)) /\ (unit_of (units o) n <> 1%R -> exists w, get o' n = Some (Mut w) /\ length h <= buf w)).
Proof.
  intros M AP NI. unfold apply_units. cbn [fst snd]. rewrite AP. assert (X := grows_cc (units o "length") h o M NI). destruct (times_cc _ _) as (h1, o1). cbn [fst snd] in X.
  assert (ND : Forall (fun ul : string * list string => NoDup (snd ul)) units_map) by (repeat constructor; cbn; intuition discriminate).
  assert (Y := grows_units (units o) units_map ND h1 o1 ltac:(apply X)). cbn zeta in Y. destruct (fold_left _ units_map (h1, o1)) as (h2, o2). cbn [fst snd] in *. destruct (grows_trans _ _ _ _ _ _ _ _ _ _ X Y) as (T & ME & S & G & _).
  assert (BU : forall n x, String.eqb n "cryst_const" = false -> by_units (units o) units_map n x = scaled (unit_of (units o) n) x).
  { intros n x _. unfold by_units, unit_of, units_map, mem. cbn [fold_left fst snd existsb].
    repeat match goal with |- context [String.eqb n ?s] => let E := fresh in destruct (String.eqb n s) eqn:E; [apply String.eqb_eq in E; subst n; reflexivity|] end. cbn. now rewrite scaled_one. }
  split; [exact T|]. split; [exact ME|]. split.
  - intros n. unfold seen at 1. cbn [attrs]. change (seen h2 o2 n = option_map (fun x => if String.eqb n "cryst_const" then (scale_abc (units o "length"%string) (fst x), snd x) else scaled (unit_of (units o) n) x) (seen h o n)). rewrite S. destruct (seen h o n) as [x|]; [|reflexivity]. cbn [option_map]. f_equal. destruct (String.eqb n "cryst_const") eqn:E; [apply String.eqb_eq in E; subst n; reflexivity|]. now apply BU.
  - intros n v GE NC. destruct (G n v GE) as (A & B). change (get {| attrs := attrs o2; units := units o2; applied := true |} n) with (get o2 n). split; intros U.
    + apply A. intros [E|(ul & I & J & K)]; [contradiction|]. apply K. cbn in I. decompose [or] I; subst; try contradiction; cbn in J; decompose [or] J; subst; try contradiction; exact U.
    + apply B. right. unfold unit_of in U.
      assert (D : forall s l (P : Prop), (mem s l = true -> P) -> (mem s l = false -> P) -> P) by (intros s l P; destruct (mem s l); auto).
      assert (MI : forall s l, mem s l = true -> In s l) by (intros s l H; unfold mem in H; apply existsb_exists in H as (k & K & E); apply String.eqb_eq in E; now subst).
      destruct (mem n ["cell"; "coords"; "abc"]%string) eqn:E1; [exists ("length", ["cell"; "coords"; "abc"])%string; split; [cbn; tauto|]; split; [now apply MI|exact U]|].
      destruct (mem n ["etot"; "ekin"]%string) eqn:E2; [exists ("energy", ["etot"; "ekin"])%string; split; [cbn; tauto|]; split; [now apply MI|exact U]|].
      destruct (String.eqb n "stress") eqn:E3; [apply String.eqb_eq in E3; subst n; exists ("stress", ["stress"])%string; cbn; tauto|].
      destruct (String.eqb n "forces") eqn:E4; [apply String.eqb_eq in E4; subst n; exists ("forces", ["forces"])%string; cbn; tauto|].
      destruct (String.eqb n "temperature") eqn:E5; [apply String.eqb_eq in E5; subst n; exists ("temperature", ["temperature"])%string; cbn; tauto|].
      destruct (String.eqb n "velocity") eqn:E6; [apply String.eqb_eq in E6; subst n; exists ("velocity", ["velocity"])%string; cbn; tauto|].
      destruct (String.eqb n "timestep") eqn:E7; [apply String.eqb_eq in E7; subst n; exists ("time", ["timestep"])%string; cbn; tauto|]. contradiction.
Qed.
Lemma abc_one l : scale_abc 1 l = l.
Proof.
  unfold scale_abc.
  assert (G : forall (l : list item) k, map (fun ix => if (fst ix mod 6 <? 3)%nat then mul_item 1 (snd ix) else snd ix) (combine (seq k (length l)) l) = l).
  { clear l. intros l. induction l as [|a l IH]; intros k; [reflexivity|]. cbn [length seq combine map fst snd]. rewrite IH. f_equal. destruct (k mod 6 <? 3)%nat; [apply mul_one|reflexivity]. }
  apply G.
Qed.
Lemma unit_none n : unit_of no_units n = 1%R.
Proof. unfold unit_of, no_units. repeat match goal with |- context [if ?b then _ else _] => destruct b end; reflexivity. Qed.
Lemma units_seen h o : in_memory h o -> applied o = false -> (forall x, get o "cryst_const" <> Some (Imm x)) ->
  let (h', o') := apply_units (h, o) in untouched h h' /\ forall n, seen h' o' n =
    match seen h o n with
    | None => None
    | Some (l, d) => Some (if String.eqb n "cryst_const" then scale_abc (units o "length"%string) l else map (mul_item (unit_of (units o) n)) l, d)
    end.
Proof.
  intros M A C. assert (X := grows_apply h o M A C). destruct (apply_units (h, o)) as (h', o'). destruct X as ((t & ->) & _ & S & _). split.
  - intros x MX. split; [intros n v I; rewrite app_length; specialize (MX _ _ I); lia|]. intros n. rewrite !seen_sees. destruct (get x n) as [v|] eqn:G; [|reflexivity]. cbn. f_equal. apply sees_app. destruct v; [exact I|]. apply get_in in G. exact (MX _ _ G).
  - intros n. rewrite S. destruct (seen h o n) as [(l, d)|]; [|reflexivity]. cbn. now destruct (String.eqb n "cryst_const").
Qed.
Lemma abc_nth f l : lengths_times f l (scale_abc f l).
Proof.
  intros row col C. unfold scale_abc.
  assert (G : forall (l : list item) k i, nth_error (map (fun ix => if (fst ix mod 6 <? 3)%nat then mul_item f (snd ix) else snd ix) (combine (seq k (length l)) l)) i = match nth_error l i with Some x => Some (if ((k + i) mod 6 <? 3)%nat then mul_item f x else x) | None => None end).
  { clear. intros l. induction l as [|a l IH]; intros k i; [now destruct i|]. cbn [length seq combine map fst snd]. destruct i as [|i]; cbn [nth_error]; [now rewrite Nat.add_0_r|]. rewrite IH. now replace (S k + i) with (k + S i) by lia. }
  rewrite G. cbn [Nat.add]. rewrite (Nat.mul_comm 6 row), Nat.add_comm, Nat.mod_add by discriminate. rewrite (Nat.mod_small col 6 C). reflexivity.
Qed.
(** set_all multiplies by the units, once *)
Theorem C95_units h o : in_memory h o -> applied o = false -> (forall x, get o "cryst_const" <> Some (Imm x)) ->
  let (h', o') := apply_units (h, o) in untouched h h' /\ forall n,
    match seen h o n, seen h' o' n with
    | None, None => True
    | Some (l, d), Some (l', d') => d' = d /\ if String.eqb n "cryst_const" then lengths_times (units o "length"%string) l l' else l' = map (scaled_by (unit_of (units o) n)) l
    | _, _ => False
    end.
Proof.
  intros M A C. assert (X := units_seen h o M A C). destruct (apply_units (h, o)) as (h', o'). destruct X as (U & S). split; [exact U|]. intros n. rewrite S. destruct (seen h o n) as [(l, d)|]; [|exact I]. split; [reflexivity|]. destruct (String.eqb n "cryst_const"); [apply abc_nth|reflexivity].
Qed.
(** a copy forgets the units: if they have not been applied yet, they never will be *)
Theorem C95_units_lost_refuted h o n l d : in_memory h o -> applied o = false -> (forall x, get o "cryst_const" <> Some (Imm x)) -> n <> "cryst_const"%string -> seen h o n = Some (l, d) ->
  (let (h', o') := apply_units (h, o) in seen h' o' n = Some (map (scaled_by (unit_of (units o) n)) l, d)) /\
  (let (h', o') := apply_units (copy h o) in seen h' o' n = Some (l, d)).
Proof.
  intros M A C NC S. apply String.eqb_neq in NC. split.
  - assert (X := units_seen h o M A C). destruct (apply_units (h, o)) as (h', o'). destruct X as (_ & X). rewrite X, S, NC. reflexivity.
  - destruct (copy_fresh h o M) as ((_ & MC & _) & E).
    assert (CI : forall x, get (snd (copy h o)) "cryst_const" <> Some (Imm x)).
    { intros x G. assert (Y := E "cryst_const"%string). rewrite !seen_sees, G in Y. destruct (get o "cryst_const") as [[y|v]|] eqn:GO; [exact (C y eq_refl)| |discriminate Y]. rewrite copy_each in G. cbn [snd] in G. unfold get in G, GO. cbn [attrs] in G.
      clear -G GO. revert G GO. generalize h at 1 as hh. generalize (attrs o). intros l. induction l as [|(a, w) l IH]; intros hh G GO; [discriminate GO|]. cbn [each] in G. destruct (copy_value hh w) as (h1, v1) eqn:CV. specialize (IH h1). destruct (each (fun _ => copy_value) h1 l) as (h2, l2). cbn [snd find fst] in *. destruct (String.eqb "cryst_const" a).
      - cbn in G, GO. injection GO as ->. cbn in CV. injection CV as _ <-. discriminate G.
      - now apply IH. }
    assert (UN : units (snd (copy h o)) = no_units /\ applied (snd (copy h o)) = false) by (rewrite copy_each; now split). destruct UN as (UN & UA).
    assert (X := units_seen _ _ MC UA CI). destruct (copy h o) as (h1, c). cbn [fst snd] in *. destruct (apply_units (h1, c)) as (h', o'). destruct X as (_ & X). rewrite X, E, S, NC, UN, unit_none. do 2 f_equal. rewrite (map_ext _ (fun x => x)) by apply mul_one. apply map_id.
Qed.
(** the constructor keeps the array of the caller unless it has to convert it (or copies it, for
    cryst_const); it changes no array *)
Theorem C95_input h kwds u : in_memory h (Obj kwds u false) -> (forall x, get (Obj kwds u false) "cryst_const" <> Some (Imm x)) ->
  let (h', o) := construct h kwds u in untouched h h' /\
  forall n v, get (Obj kwds u false) n = Some (Mut v) -> n <> "cryst_const"%string -> (get o n = Some (Mut v) <-> unit_of u n = 1%R) /\ (unit_of u n <> 1%R -> forall b, (exists w, get o n = Some (Mut w) /\ buf w = b) -> length h <= b).
Proof.
  intros M C. unfold construct. assert (X := units_seen h (Obj kwds u false) M eq_refl C). assert (Y := grows_apply h (Obj kwds u false) M eq_refl C). destruct (apply_units _) as (h', o). split; [apply X|]. destruct Y as (_ & _ & _ & Y). cbn [units] in Y. intros n v G NC. destruct (Y n v G NC) as (A & B). split; [split|].
  - intros E. destruct (Req_EM_T (unit_of u n) 1) as [|N]; [assumption|]. destruct (B N) as (w & W & L). rewrite E in W. injection W as <-. apply get_in in G. specialize (M _ _ G). lia.
  - exact A.
  - intros N b (w & W & <-). destruct (B N) as (w' & W' & L). rewrite W in W'. injection W' as <-. exact L.
Qed.

(** ** frames and slices *)
Lemma contents_len h v : length (contents h v) = length (offs v). Proof. unfold contents. apply map_length. Qed.
Lemma contents_store h v q p x : proper h v -> nth_error (offs v) q = Some p -> contents (store h (buf v) p x) v = set_nth q x (contents h v).
Proof.
  intros (B & V & ND & _) Q. unfold contents. rewrite store_same by exact B. revert V ND q Q. generalize (offs v) as l. induction l as [|a l IH]; intros V ND q Q; [destruct q; discriminate Q|]. inversion ND as [|? ? NI ND2]; subst. destruct q as [|q]; cbn in Q.
  - injection Q as ->. cbn [map set_nth]. rewrite set_at by (apply V; now left). f_equal. apply map_ext_in. intros b I. apply set_other. intros ->. contradiction.
  - cbn [map set_nth]. f_equal; [apply set_other; intros ->; apply NI; exact (nth_error_In _ _ Q)|]. apply IH; [intros; apply V; now right|exact ND2|exact Q].
Qed.
Lemma find_none_in n (l : list (string * value)) : ~ In n (map fst l) -> find (fun nv => String.eqb n (fst nv)) l = None.
Proof. induction l as [|(a, v) l IH]; intros N; [reflexivity|]. cbn in *. destruct (String.eqb n a) eqn:E; [apply String.eqb_eq in E; subst; tauto|]. apply IH. tauto. Qed.
Lemma frame_names h tr i l r : frame_attrs h tr i l = Some r -> forall n, In n (map fst r) -> In n (map fst l).
Proof.
  revert r. induction l as [|(a, v) l IH]; intros r H n I; [cbn in H; injection H as <-; exact I|]. cbn [frame_attrs] in H. destruct (frame_attrs h tr i l) as [r0|]; [|discriminate H]. specialize (IH r0 eq_refl n).
  destruct (mem a attrs_only_traj); [injection H as <-; right; now apply IH|]. destruct (mem a attrs_nstep).
  - destruct v as [x|w]; [discriminate H|]. destruct (has_nstep tr w); [|injection H as <-; right; now apply IH]. destruct (item_of h w i); [|discriminate H]. injection H as <-. cbn in *. tauto.
  - injection H as <-. cbn in *. tauto.
Qed.
Lemma frame_get h tr i f n : regular tr -> frame h tr i = Some f -> get f n =
  if mem n attrs_only_traj then None else if mem n attrs_nstep then match get tr n with Some (Mut w) => if has_nstep tr w then item_of h w i else None | _ => None end else get tr n.
Proof.
  unfold regular, frame, get. generalize (attrs tr) as l. intros l. destruct (frame_attrs h tr i l) as [r|] eqn:F; [|discriminate]. intros ND H. injection H as <-. cbn [attrs]. revert r F ND. induction l as [|(a, v) l IH]; intros r F ND.
  - cbn in F. injection F as <-. cbn [find]. destruct (mem n attrs_only_traj), (mem n attrs_nstep); reflexivity.
  - cbn [frame_attrs] in F. destruct (frame_attrs h tr i l) as [r0|] eqn:F0; [|discriminate F]. inversion ND as [|? ? NI ND2]; subst. specialize (IH r0 eq_refl ND2). cbn [find fst]. destruct (String.eqb n a) eqn:E.
    + apply String.eqb_eq in E. subst a. cbn [snd]. assert (NO : find (fun nv => String.eqb n (fst nv)) r0 = None) by (apply find_none_in; intros X; apply NI; exact (frame_names _ _ _ _ _ F0 _ X)).
      destruct (mem n attrs_only_traj); [injection F as <-; now rewrite NO|]. destruct (mem n attrs_nstep).
      * destruct v as [x|w]; [discriminate F|]. destruct (has_nstep tr w); [|injection F as <-; now rewrite NO]. destruct (item_of h w i) as [z|]; [|discriminate F]. injection F as <-. cbn [find fst]. now rewrite String.eqb_refl.
      * injection F as <-. cbn [find fst]. now rewrite String.eqb_refl.
    + rewrite <- IH. destruct (mem a attrs_only_traj); [now injection F as <-|]. destruct (mem a attrs_nstep).
      * destruct v as [x|w]; [discriminate F|]. destruct (has_nstep tr w); [|now injection F as <-]. destruct (item_of h w i) as [z|]; [|discriminate F]. injection F as <-. cbn [find fst]. now rewrite E.
      * injection F as <-. cbn [find fst]. now rewrite E.
Qed.
Lemma row_error v i k : k < rowlen (dims v) -> (S i) * rowlen (dims v) <= length (offs v) -> nth_error (row v i) k = nth_error (offs v) (i * rowlen (dims v) + k).
Proof.
  intros K L. unfold row. set (r := rowlen (dims v)) in *. set (l := offs v) in *. clearbody r l.
  assert (A : forall (l : list nat) j, nth_error (skipn j l) k = nth_error l (j + k)). { clear. induction l as [|a l IH]; intros [|j]; cbn; try reflexivity; [now destruct k|]. apply IH. }
  rewrite <- A. generalize (skipn (i * r) l). clear -K. revert r K. induction k as [|k IH]; intros [|r] K l; try lia; destruct l; cbn; try reflexivity. apply IH. lia.
Qed.
(** Setting an element of a frame sets it in the trajectory. *)
Theorem C95_frame_refuted wrap cart cast h tr i f n v m a d : regular tr -> frame h tr i = Some f -> mem n attrs_nstep = true -> mem n attrs_only_traj = false ->
  get tr n = Some (Mut v) -> proper h v -> dims v = m :: a :: d -> nstep_of tr = Some m -> i < m ->
  let r := a * fold_right Nat.mul 1 d in
  seen h f n = Some (firstn r (skipn (i * r) (contents h v)), a :: d) /\
  forall k x, k < r -> seen (fst (perform wrap cart cast (Poke n k x) (h, f))) tr n = Some (set_nth (i * r + k) x (contents h v), dims v).
Proof.
  intros RE F N1 N2 G P D NS I r. assert (GF := frame_get h tr i f n RE F). rewrite N1, N2, G in GF. unfold has_nstep in GF. rewrite D, NS, Nat.eqb_refl in GF. unfold item_of in GF. rewrite D in GF. assert (LI : (i <? m)%nat = true) by now apply Nat.ltb_lt. rewrite LI in GF.
  assert (RL : rowlen (dims v) = r) by (rewrite D; reflexivity). assert (LO : length (offs v) = m * r) by (destruct P as (_ & _ & _ & P); rewrite P, D; reflexivity).
  split.
  - unfold seen. rewrite GF. cbn [dims]. do 2 f_equal. unfold contents. cbn [offs buf]. unfold row. rewrite RL. rewrite <- firstn_map, <- skipn_map. reflexivity.
  - intros k x K. cbn [perform]. rewrite GF. cbn [offs buf]. rewrite row_error by (rewrite ?RL, ?LO; nia). rewrite RL. destruct (nth_error (offs v) (i * r + k)) as [p|] eqn:Q; [|apply nth_error_None in Q; rewrite LO in Q; nia]. cbn [fst]. unfold seen. rewrite G. now rewrite (contents_store h v _ p x P Q).
Qed.
(** The list of symbols is the same list. *)
Theorem C95_symbols_refuted wrap cart cast h tr i f n v : regular tr -> frame h tr i = Some f -> mem n attrs_nstep = false -> mem n attrs_only_traj = false ->
  get tr n = Some (Mut v) -> proper h v -> forall k x, k < length (offs v) -> seen (fst (perform wrap cart cast (Poke n k x) (h, f))) tr n = Some (set_nth k x (contents h v), dims v).
Proof.
  intros RE F N1 N2 G P k x K. assert (GF := frame_get h tr i f n RE F). rewrite N1, N2, G in GF. cbn [perform]. rewrite GF. destruct (nth_error (offs v) k) as [p|] eqn:Q; [|apply nth_error_None in Q; lia]. cbn [fst]. unfold seen. rewrite G. now rewrite (contents_store h v _ p x P Q).
Qed.
Lemma apply_ext h o : exists t, fst (apply_units (h, o)) = h ++ t.
Proof.
  unfold apply_units. cbn [fst snd]. destruct (applied o); [exists []; cbn; now rewrite app_nil_r|].
  assert (A : forall f h o n, exists t, fst (times_attr f (h, o) n) = h ++ t).
  { intros f h0 o0 n. unfold times_attr. cbn [fst snd]. destruct (get o0 n) as [[x|v]|]; [exists []; cbn; now rewrite app_nil_r|eexists; reflexivity|exists []; cbn; now rewrite app_nil_r]. }
  assert (B : forall (T : Type) (g : heap * object -> T -> heap * object), (forall h o a, exists t, fst (g (h, o) a) = h ++ t) -> forall l h o, exists t, fst (fold_left g l (h, o)) = h ++ t).
  { intros T g G. induction l as [|a l IH]; intros h0 o0; [exists []; cbn; now rewrite app_nil_r|]. cbn. destruct (G h0 o0 a) as (t & E). destruct (g (h0, o0) a) as (h1, o1). cbn in E. subst h1. destruct (IH (h0 ++ t) o1) as (t2 & E2). exists (t ++ t2). now rewrite E2, app_assoc. }
  assert (C : exists t, fst (times_cc (units o "length") (h, o)) = h ++ t).
  { unfold times_cc. cbn [fst snd]. destruct (get o "cryst_const") as [[x|v]|]; [exists []; cbn; now rewrite app_nil_r|eexists; reflexivity|exists []; cbn; now rewrite app_nil_r]. }
  destruct C as (t & C). destruct (times_cc _ _) as (h1, o1). cbn in C. subst h1. destruct (B _ (fun ho ul => if Req_EM_T (units o (fst ul)) 1 then ho else fold_left (times_attr (units o (fst ul))) (snd ul) ho)) with (l := units_map) (h := h ++ t) (o := o1) as (t2 & E2).
  - intros h2 o2 ul. destruct (Req_EM_T _ 1); [exists []; cbn; now rewrite app_nil_r|]. apply B. apply A.
  - exists (t ++ t2). now rewrite E2, app_assoc.
Qed.
Lemma wrap_buffer wrap cart h o v b : get o "coords_frac" = Some (Mut v) -> b < length h -> buffer (fst (wrap_here wrap cart h o)) b = buffer (update_with (num_item wrap) h v) b.
Proof.
  intros G B. unfold wrap_here. rewrite get_unset. cbn [String.eqb Ascii.eqb eqb]. change (String.eqb "coords_frac" "coords") with false. cbn iota. rewrite G. destruct (apply_ext (update_with (num_item wrap) h v) (unset o "coords")) as (t & E). destruct (apply_units _) as (h2, o2). cbn in E. subst h2.
  assert (L : b < length (update_with (num_item wrap) h v)) by now rewrite update_len.
  unfold set_coords. destruct (get o2 "coords"); [cbn; now apply buffer_app|]. destruct (get o2 "coords_frac") as [[x|w]|]; [cbn; now apply buffer_app| |cbn; now apply buffer_app]. destruct (get o2 "cell") as [[x|c]|]; [cbn; now apply buffer_app| |cbn; now apply buffer_app]. cbn [alloc fst]. rewrite buffer_app by (rewrite app_length; lia). now apply buffer_app.
Qed.
Lemma nodup_skip {A} (l : list A) k : NoDup l -> NoDup (skipn k l).
Proof. revert l. induction k as [|k IH]; intros [|a l] H; cbn; try assumption. inversion H; subst. now apply IH. Qed.
Lemma nodup_first {A} (l : list A) k : NoDup l -> NoDup (firstn k l).
Proof.
  revert l. induction k as [|k IH]; intros [|a l] H; cbn; try constructor; inversion H; subst; [|now apply IH]. intros I. apply H2. rewrite <- (firstn_skipn k l). apply in_or_app. now left.
Qed.
(** pbc_wrap(tr[i], copy=False) changes the fractional coordinates of that step of the trajectory, and
    nothing else of it: in particular not coords *)
Theorem C95_wrap_frame_refuted wrap cart h tr i f v m a d : regular tr -> in_memory h tr -> frame h tr i = Some f ->
  get tr "coords_frac" = Some (Mut v) -> proper h v -> dims v = m :: a :: d -> nstep_of tr = Some m -> i < m ->
  let (h', f') := pbc_wrap wrap cart h f false in let r := a * fold_right Nat.mul 1 d in
  (forall q, q < length (contents h v) -> nth_error (contents h' v) q = option_map (fun x => if ((i * r <=? q) && (q <? (i + 1) * r))%nat then num_item wrap x else x) (nth_error (contents h v) q)) /\
  (forall n w, get tr n = Some (Mut w) -> buf w <> buf v -> seen h' tr n = seen h tr n).
Proof.
  intros RE M F G P D NS I. assert (GF := frame_get h tr i f "coords_frac" RE F). change (mem "coords_frac" attrs_only_traj) with false in GF. change (mem "coords_frac" attrs_nstep) with true in GF. cbn iota in GF. rewrite G in GF. unfold has_nstep in GF. rewrite D, NS, Nat.eqb_refl in GF. unfold item_of in GF. rewrite D in GF. assert (LI : (i <? m)%nat = true) by now apply Nat.ltb_lt. rewrite LI in GF.
  set (w := View (buf v) (row v i) (a :: d) (kind_ v)) in *. unfold pbc_wrap. assert (WB := fun b => wrap_buffer wrap cart h f w b GF). destruct (wrap_here wrap cart h f) as (h', f'). cbn [fst] in WB. cbn zeta. set (r := a * fold_right Nat.mul 1 d) in *.
  assert (RL : rowlen (dims v) = r) by (rewrite D; reflexivity). destruct P as (B & V & ND & LO). assert (LO2 : length (offs v) = m * r) by (rewrite LO, D; reflexivity).
  assert (SUB : forall p, In p (row v i) <-> exists k, k < r /\ nth_error (offs v) (i * r + k) = Some p).
  { intros p. split.
    - intros X. apply In_nth_error in X as (k & X). assert (k < r). { assert (k < length (row v i)) by (apply nth_error_Some; congruence). unfold row in H. rewrite firstn_length, RL in H. lia. } exists k. split; [assumption|]. rewrite <- X. rewrite row_error by (rewrite ?RL, ?LO2; nia). now rewrite RL.
    - intros (k & K & X). apply (nth_error_In _ k). rewrite row_error by (rewrite ?RL, ?LO2; nia). now rewrite RL. }
  split.
  - intros q Q. rewrite contents_len in Q. unfold contents. rewrite (WB (buf v) B), !nth_error_map. destruct (nth_error (offs v) q) as [p|] eqn:E; [|apply nth_error_None in E; lia]. cbn [option_map]. f_equal.
    change (buf v) with (buf w) at 1. rewrite update_nth; [|exact B|intros z Z; cbn [w offs buf] in *; apply V; apply SUB in Z as (k & _ & Z); exact (nth_error_In _ _ Z)|].
    + cbn [w offs buf]. destruct (in_dec Nat.eq_dec p (row v i)) as [IN|NIN].
      * apply SUB in IN as (k & K & X). assert (EQ : q = i * r + k). { apply (proj1 (NoDup_nth_error (offs v)) ND); [exact Q|congruence]. } assert (A1 : (i * r <=? q)%nat = true) by (apply Nat.leb_le; lia). assert (A2 : (q <? (i + 1) * r)%nat = true) by (apply Nat.ltb_lt; lia). now rewrite A1, A2.
      * destruct (i * r <=? q)%nat eqn:A1; [|reflexivity]. destruct (q <? (i + 1) * r)%nat eqn:A2; [|reflexivity]. exfalso. apply NIN. apply SUB. apply Nat.leb_le in A1. apply Nat.ltb_lt in A2. exists (q - i * r). split; [lia|]. replace (i * r + (q - i * r)) with q by lia. exact E.
    + cbn [w offs]. unfold row. apply nodup_first. apply nodup_skip. exact ND.
  - intros n z Z NE. unfold seen. rewrite Z. rewrite (contents_ext h h'); [reflexivity|]. apply get_in in Z. rewrite (WB (buf z) (M _ _ Z)). now apply update_other.
Qed.
(** a time step which is an array is changed by slicing *)
Theorem C95_timestep_refuted h tr s h' o v : regular tr -> get tr "timestep" = Some (Mut v) -> proper h v -> slice_traj h tr s = Some (h', o) ->
  seen h' tr "timestep" = Some (map (scaled_by (step_of s)) (contents h v), dims v).
Proof.
  intros RE G P. unfold slice_traj. destruct (nstep_of tr) as [n|]; [|discriminate]. destruct (slice_list s (seq 0 n)) as [idx|]; [|discriminate]. destruct (part_attrs tr idx (attrs tr)) as [l|] eqn:PA; [|discriminate].
  assert (GL : find (fun nv => String.eqb "timestep" (fst nv)) l = Some ("timestep"%string, Mut v)).
  { unfold get in G. revert G PA. generalize (attrs tr) at 1 2 as L. intros L. revert l. induction L as [|(a, x) L IH]; intros l G PA; [discriminate G|]. cbn [part_attrs] in PA. destruct (part_attrs tr idx L) as [r|]; [|discriminate PA]. cbn [find fst] in G. destruct (String.eqb "timestep" a) eqn:E.
    - apply String.eqb_eq in E. subst a. cbn in G. injection G as ->. change (mem "timestep" attrs_nstep) with false in PA. cbn iota in PA. injection PA as <-. reflexivity.
    - specialize (IH r G eq_refl). destruct (mem a attrs_nstep); [destruct x as [x|w]; [discriminate PA|]; destruct (has_nstep tr w); injection PA as <-; [cbn [find fst]; now rewrite E|exact IH]|]. injection PA as <-. cbn [find fst]. now rewrite E. }
  rewrite get_put. change (String.eqb "timestep" "nstep") with false. cbn iota. unfold get at 1. cbn [attrs]. rewrite GL. cbn [snd]. intros H. injection H as <- <-. unfold seen. rewrite G. do 2 f_equal. destruct P as (B & V & ND & _).
  unfold contents. rewrite map_map. apply map_ext_in. intros p I. rewrite update_nth by assumption. destruct (in_dec Nat.eq_dec p (offs v)); [reflexivity|contradiction].
Qed.

(** ** what frames, slices and wrapped objects show *)
(** set_all applies units once *)
Theorem C95_once h o : apply_units (apply_units (h, o)) = apply_units (h, o).
Proof.
  assert (A : applied (snd (apply_units (h, o))) = true) by (unfold apply_units; cbn [fst snd]; destruct (applied o) eqn:E; [exact E|reflexivity]).
  unfold apply_units at 1. now rewrite A.
Qed.
Theorem C95_frame h tr i f n : regular tr -> frame h tr i = Some f ->
  (mem n ["nstep"; "timestep"; "time"; "ekin"; "velocity"; "temperature"]%string = true -> seen h f n = None) /\
  (mem n attrs_only_traj = false -> mem n attrs_nstep = false -> seen h f n = seen h tr n) /\
  (forall v m, mem n attrs_only_traj = false -> mem n attrs_nstep = true -> get tr n = Some (Mut v) -> dims v = [m] -> nstep_of tr = Some m -> i < m -> seen h f n = Some ([nth i (contents h v) (Num 0)], [])).
Proof.
  intros RE F. assert (G := frame_get h tr i f n RE F). unfold seen. rewrite G. split; [|split].
  - intros E. change (mem n attrs_only_traj = true) in E. now rewrite E.
  - intros E1 E2. now rewrite E1, E2.
  - intros v m E1 E2 GV D NS L. rewrite E1, E2, GV. unfold has_nstep. rewrite D, NS, Nat.eqb_refl. unfold item_of. rewrite D. assert (LI : (i <? m)%nat = true) by now apply Nat.ltb_lt. now rewrite LI.
Qed.
Lemma part_names tr idx l r : part_attrs tr idx l = Some r -> forall n, In n (map fst r) -> In n (map fst l).
Proof.
  revert r. induction l as [|(a, v) l IH]; intros r H n I; [cbn in H; injection H as <-; exact I|]. cbn [part_attrs] in H. destruct (part_attrs tr idx l) as [r0|]; [|discriminate H]. specialize (IH r0 eq_refl n).
  destruct (mem a attrs_nstep).
  - destruct v as [x|w]; [discriminate H|]. destruct (has_nstep tr w); injection H as <-; cbn in *; tauto.
  - injection H as <-. cbn in *. tauto.
Qed.
Lemma part_get tr idx r n : regular tr -> part_attrs tr idx (attrs tr) = Some r -> get (Obj r no_units false) n =
  if mem n attrs_nstep then match get tr n with Some (Mut w) => if has_nstep tr w then Some (Mut (part w idx)) else None | _ => None end else get tr n.
Proof.
  unfold regular, get. generalize (attrs tr) as l. intros l ND. cbn [attrs]. revert r ND. induction l as [|(a, v) l IH]; intros r ND F.
  - cbn in F. injection F as <-. cbn [find]. now destruct (mem n attrs_nstep).
  - cbn [part_attrs] in F. destruct (part_attrs tr idx l) as [r0|] eqn:F0; [|discriminate F]. inversion ND as [|? ? NI ND2]; subst. specialize (IH r0 ND2 eq_refl). cbn [find fst]. destruct (String.eqb n a) eqn:E.
    + apply String.eqb_eq in E. subst a. cbn [snd]. assert (NO : find (fun nv => String.eqb n (fst nv)) r0 = None) by (apply find_none_in; intros X; apply NI; exact (part_names _ _ _ _ F0 _ X)).
      destruct (mem n attrs_nstep).
      * destruct v as [x|w]; [discriminate F|]. destruct (has_nstep tr w); [|injection F as <-; now rewrite NO]. injection F as <-. cbn [find fst]. now rewrite String.eqb_refl.
      * injection F as <-. cbn [find fst]. now rewrite String.eqb_refl.
    + rewrite <- IH. destruct (mem a attrs_nstep).
      * destruct v as [x|w]; [discriminate F|]. destruct (has_nstep tr w); [|now injection F as <-]. injection F as <-. cbn [find fst]. now rewrite E.
      * injection F as <-. cbn [find fst]. now rewrite E.
Qed.
Lemma slice_in {B} s (l r : list B) x : slice_list s l = Some r -> In x r -> In x l.
Proof.
  unfold slice_list. destruct (slice_indices s _) as [((a, b), d)|]; [|discriminate]. intros H. injection H as <-. generalize (range_len a b d) as c. intros c. revert a. induction c as [|c IH]; intros a I; [destruct I|]. cbn [pick] in I.
  repeat match type of I with In _ (if ?b then _ else _) => destruct b end.
  all: try (destruct (nth_error l _) as [y|] eqn:E; [destruct I as [<-|I]; [exact (nth_error_In _ _ E)|]|]); exact (IH _ I).
Qed.
Lemma concat_nth {A} (g : nat -> list A) r idx j i q : (forall i, In i idx -> length (g i) = r) -> nth_error idx j = Some i -> q < r -> nth_error (List.concat (map g idx)) (j * r + q) = nth_error (g i) q.
Proof.
  revert j. induction idx as [|a idx IH]; intros j L J Q; [destruct j; discriminate J|]. cbn [map List.concat]. assert (LA := L a ltac:(now left)). destruct j as [|j].
  - cbn in J. injection J as ->. cbn [Nat.mul Nat.add]. rewrite nth_error_app1 by lia. reflexivity.
  - cbn in J. rewrite nth_error_app2 by lia. replace (S j * r + q - length (g a)) with (j * r + q) by lia. apply IH; [intros; apply L; now right|exact J|exact Q].
Qed.
(** a slice shows the chosen steps, and setting an element there sets it in the trajectory *)
Theorem C95_slice wrap cart cast h tr s idx h' o n v m d : regular tr -> nstep_of tr = Some m -> get tr n = Some (Mut v) -> mem n attrs_nstep = true -> dims v = m :: d -> proper h v ->
  (forall w, get tr "timestep" <> Some (Mut w)) -> slice_list s (seq 0 m) = Some idx -> slice_traj h tr s = Some (h', o) ->
  let r := fold_right Nat.mul 1 d in
  h' = h /\ seen h o "nstep" = Some ([Num (INR (length idx))], []) /\
  seen h o "timestep" = option_map (fun x => (map (scaled_by (step_of s)) (fst x), snd x)) (seen h tr "timestep") /\
  seen h o n = Some (List.concat (map (fun i => firstn r (skipn (i * r) (contents h v))) idx), length idx :: d) /\
  forall j i q x, nth_error idx j = Some i -> q < r -> seen (fst (perform wrap cart cast (Poke n (j * r + q) x) (h, o))) tr n = Some (set_nth (i * r + q) x (contents h v), dims v).
Proof.
  intros RE NS G N1 D P NT SL H r. unfold slice_traj in H. rewrite NS, SL in H. destruct (part_attrs tr idx (attrs tr)) as [l|] eqn:PA; [|discriminate H].
  assert (PG := fun n => part_get tr idx l n RE PA).
  assert (N2 : String.eqb n "nstep" = false) by (destruct (String.eqb n "nstep") eqn:E; [apply String.eqb_eq in E; subst; discriminate N1|reflexivity]).
  assert (N3 : String.eqb n "timestep" = false) by (destruct (String.eqb n "timestep") eqn:E; [apply String.eqb_eq in E; subst; discriminate N1|reflexivity]).
  set (o1 := put (Obj l no_units false) "nstep" (Imm (Num (INR (length idx))))) in *.
  assert (T1 : get o1 "timestep" = get tr "timestep") by (unfold o1; rewrite get_put; change (String.eqb "timestep" "nstep") with false; cbn iota; rewrite PG; reflexivity).
  assert (A : h' = h /\ (forall k, String.eqb k "timestep" = false -> get o k = get o1 k) /\ get o "timestep" = option_map (fun v => match v with Imm x => Imm (mul_item (step_of s) x) | z => z end) (get tr "timestep")).
  { rewrite T1 in H. destruct (get tr "timestep") as [[x|w]|] eqn:ET.
    - injection H as <- <-. split; [reflexivity|]. split; [intros k K; rewrite get_put, K; reflexivity|]. now rewrite get_put.
    - now destruct (NT w).
    - injection H as <- <-. split; [reflexivity|]. split; [reflexivity|]. exact T1. }
  destruct A as (-> & AO & AT). assert (GO : get o n = Some (Mut (part v idx))).
  { rewrite (AO n N3). unfold o1. rewrite get_put, N2, PG, N1, G. unfold has_nstep. rewrite D, NS, Nat.eqb_refl. reflexivity. }
  assert (RL : rowlen (dims v) = r) by (rewrite D; reflexivity). assert (LO : length (offs v) = m * r) by (destruct P as (_ & _ & _ & P); rewrite P, D; reflexivity).
  assert (IM : forall i, In i idx -> i < m) by (intros i I; apply (slice_in _ _ _ _ SL) in I; apply in_seq in I; lia).
  split; [reflexivity|]. split; [|split; [|split]].
  - unfold seen. rewrite (AO "nstep"%string eq_refl). unfold o1. now rewrite get_put.
  - unfold seen. rewrite AT. destruct (get tr "timestep") as [[x|w]|] eqn:ET; [reflexivity|now destruct (NT w)|reflexivity].
  - unfold seen. rewrite GO. unfold part. cbn [dims]. rewrite D. cbn [tl]. do 2 f_equal. unfold contents. cbn [offs buf]. rewrite concat_map, map_map. f_equal. apply map_ext. intros i. unfold row. rewrite RL. now rewrite <- firstn_map, <- skipn_map.
  - intros j i q x J Q. assert (IL := IM i (nth_error_In _ _ J)). cbn [perform]. rewrite GO. cbn [part offs buf].
    rewrite (concat_nth (row v) r idx j i q); [| |exact J|exact Q].
    + rewrite row_error by (rewrite ?RL, ?LO; nia). rewrite RL. destruct (nth_error (offs v) (i * r + q)) as [p|] eqn:QQ; [|apply nth_error_None in QQ; rewrite LO in QQ; nia]. cbn [fst]. unfold seen. rewrite G. now rewrite (contents_store h v _ p x P QQ).
    + intros k K. apply IM in K. unfold row. rewrite RL, firstn_length, skipn_length, LO. nia.
Qed.
(** pbc_wrap(copy=False): fractional coordinates are wrapped, coords calculated from them *)
Theorem C95_wrap wrap cart h o v c : in_memory h o -> regular o -> get o "coords_frac" = Some (Mut v) -> get o "cell" = Some (Mut c) -> proper h v ->
  (forall n w, n <> "coords_frac"%string -> get o n = Some (Mut w) -> buf w <> buf v) -> applied o = true ->
  let (h', o') := pbc_wrap wrap cart h o false in forall n, seen h' o' n =
    if String.eqb n "coords_frac" then Some (map (num_item wrap) (contents h v), dims v)
    else if String.eqb n "coords" then Some (cart (map (num_item wrap) (contents h v)) (contents h c), dims v) else seen h o n.
Proof.
  intros M RE G GC P DI AP. unfold pbc_wrap, wrap_here. rewrite get_unset. change (String.eqb "coords_frac" "coords") with false. cbn iota. rewrite G.
  set (h1 := update_with (num_item wrap) h v). unfold apply_units. cbn [fst snd]. change (applied (unset o "coords")) with (applied o). rewrite AP. unfold set_coords. rewrite !get_unset. change (String.eqb "coords" "coords") with true. change (String.eqb "coords_frac" "coords") with false. change (String.eqb "cell" "coords") with false. cbn iota. rewrite G, GC. cbn [alloc].
  assert (CV : contents h1 v = map (num_item wrap) (contents h v)).
  { destruct P as (B & V & ND & _). unfold contents, h1. rewrite map_map. apply map_ext_in. intros p I. rewrite update_nth by assumption. destruct (in_dec Nat.eq_dec p (offs v)); [reflexivity|contradiction]. }
  assert (CW : forall n w, n <> "coords_frac"%string -> get o n = Some (Mut w) -> contents h1 w = contents h w) by (intros n w N GW; apply contents_ext; apply update_other; exact (DI n w N GW)).
  assert (M1 : forall n w, get o n = Some (Mut w) -> buf w < length h1) by (intros n w GW; unfold h1; rewrite update_len; apply get_in in GW; exact (M _ _ GW)).
  intros n. unfold seen. rewrite get_put, get_unset. destruct (String.eqb n "coords_frac") eqn:E1.
  - apply String.eqb_eq in E1. subst n. change (String.eqb "coords_frac" "coords") with false. cbn iota. rewrite G. do 2 f_equal. rewrite (contents_ext h1) by (apply buffer_app; exact (M1 _ _ G)). exact CV.
  - destruct (String.eqb n "coords") eqn:E2.
    + cbn [dims]. do 2 f_equal. refine (eq_trans (alloc_contents h1 (cart (contents h1 v) (contents h1 c)) (dims v) F64) _). rewrite CV, (CW "cell"%string c); [reflexivity|discriminate|exact GC].
    + destruct (get o n) as [[x|w]|] eqn:GN; [reflexivity| |reflexivity]. do 2 f_equal. rewrite (contents_ext h1) by (apply buffer_app; exact (M1 _ _ GN)). apply (CW n); [|exact GN]. now apply String.eqb_neq.
Qed.

(** ** Examples: a trajectory of two steps of one atom *)
Definition ex_heap : heap := [[Num 0; Num 2; Num 0; Num 1; Num 3; Num 1]; [Num 0; Num 4; Num 0; Num 2; Num 6; Num 2]; [Txt "Al"]]%R.
Definition ex_traj : object := Obj [("coords_frac", Mut (View 0 (seq 0 6) [2; 1; 3] F64)); ("coords", Mut (View 1 (seq 0 6) [2; 1; 3] F64)); ("symbols", Mut (View 2 [0] [1] Other_)); ("nstep", Imm (Num 2))]%string no_units false.
Example ex_ok : in_memory ex_heap ex_traj /\ regular ex_traj /\ proper ex_heap (View 0 (seq 0 6) [2; 1; 3] F64).
Proof.
  split; [|split].
  - intros n v [H|[H|[H|[H|[]]]]]; try discriminate H; injection H as E1 E2; subst v; cbn; lia.
  - unfold regular. cbn. repeat constructor; cbn; intuition discriminate.
  - split; [cbn; lia|]. split; [intros p I; apply in_seq in I; cbn; lia|]. split; [apply seq_NoDup|reflexivity].
Qed.
Lemma ex_nstep : nstep_of ex_traj = Some 2.
Proof.
  unfold nstep_of. cbn. f_equal. assert (E : Int_part 2 = 2%Z). { unfold Int_part. replace (up 2) with 3%Z; [reflexivity|]. apply tech_up; simpl; lra. } rewrite E. reflexivity.
Qed.
Example ex_frame : exists f, frame ex_heap ex_traj 1 = Some f.
Proof.
  unfold frame. assert (E : forall d k, has_nstep ex_traj (View k (seq 0 6) (2 :: d) F64) = true) by (intros d k; unfold has_nstep; cbn [dims]; now rewrite ex_nstep).
  assert (F : exists l, frame_attrs ex_heap ex_traj 1 (attrs ex_traj) = Some l).
  { unfold ex_traj at 2. cbn [attrs]. cbn [frame_attrs]. rewrite !E. eexists. reflexivity. }
  destruct F as (l & F). rewrite F. eexists. reflexivity.
Qed.
Example ex_units : exists o, in_memory ex_heap o /\ applied o = false /\ units o "length"%string = 2%R /\ seen ex_heap o "coords" = seen ex_heap ex_traj "coords" /\ unit_of (units o) "coords" = 2%R.
Proof.
  exists (Obj (attrs ex_traj) (fun _ => 2%R) false). split; [exact (proj1 ex_ok)|]. repeat split.
Qed.

Print Assumptions C95_copy.
Print Assumptions C95_independent.
Print Assumptions C95_get_traj.
Print Assumptions C95_wrap_copy.
Print Assumptions C95_compress_copy.
Print Assumptions C95_compress.
Print Assumptions C95_units.
Print Assumptions C95_units_lost_refuted.
Print Assumptions C95_input.
Print Assumptions C95_frame_refuted.
Print Assumptions C95_symbols_refuted.
Print Assumptions C95_wrap_frame_refuted.
Print Assumptions C95_timestep_refuted.
Print Assumptions C95_once.
Print Assumptions C95_frame.
Print Assumptions C95_slice.
Print Assumptions C95_wrap.
