(** Lemmas for C95 *)
From Coq Require Import List String Reals Lra Lia Arith Bool.
From Verif Require Import StructGetters Traj Alias AliasSpec.
Import ListNotations.
Local Open Scope list_scope.
Local Notation length := List.length.

(** ** memory *)
Lemma set_len {A} k (x : A) l : length (set_nth k x l) = length l.
Proof. revert k; induction l as [|a l IH]; intros [|k]; cbn; auto. Qed.
Lemma set_at {A} k (x d : A) l : k < length l -> nth k (set_nth k x l) d = x.
Proof. revert k; induction l as [|a l IH]; intros [|k] H; cbn in *; try lia; [reflexivity|apply IH; lia]. Qed.
Lemma set_other {A} k j (x d : A) l : j <> k -> nth j (set_nth k x l) d = nth j l d.
Proof. revert k j; induction l as [|a l IH]; intros [|k] [|j] H; cbn; try lia; try reflexivity. apply IH. lia. Qed.
Lemma store_len h b o x : length (store h b o x) = length h. Proof. apply set_len. Qed.
Lemma store_same h b o x : b < length h -> buffer (store h b o x) b = set_nth o x (buffer h b).
Proof. intros H. unfold store, buffer at 1. now apply set_at. Qed.
Lemma store_other h b o x c : c <> b -> buffer (store h b o x) c = buffer h c.
Proof. intros H. unfold store, buffer. now apply set_other. Qed.
Lemma update_len f v h : length (update_with f h v) = length h.
Proof. unfold update_with. generalize (offs v). intros l. revert h. induction l as [|o l IH]; intros h; [reflexivity|]. cbn [fold_left]. rewrite IH. apply store_len. Qed.
Lemma update_other f v h c : c <> buf v -> buffer (update_with f h v) c = buffer h c.
Proof. intros N. unfold update_with. generalize (offs v). intros l. revert h. induction l as [|o l IH]; intros h; [reflexivity|]. cbn [fold_left]. rewrite IH. now apply store_other. Qed.
Lemma update_nth f v h p : buf v < length h -> (forall p, In p (offs v) -> p < length (buffer h (buf v))) -> NoDup (offs v) ->
  nth p (buffer (update_with f h v) (buf v)) (Num 0) = if in_dec Nat.eq_dec p (offs v) then f (nth p (buffer h (buf v)) (Num 0)) else nth p (buffer h (buf v)) (Num 0).
Proof.
  intros B. unfold update_with. generalize (offs v). intros l. revert h B. induction l as [|o l IH]; intros h B V N; [reflexivity|]. cbn [fold_left]. inversion N as [|? ? NI ND]; subst. rewrite IH.
  - rewrite store_same by exact B. destruct (in_dec Nat.eq_dec p l) as [I|I].
    + assert (p <> o) by (intros ->; contradiction). rewrite set_other by assumption. destruct (in_dec Nat.eq_dec p (o :: l)) as [|X]; [reflexivity|exfalso; apply X; now right].
    + destruct (Nat.eq_dec p o) as [->|NE].
      * rewrite set_at by (apply V; now left). destruct (in_dec Nat.eq_dec o (o :: l)) as [|X]; [reflexivity|exfalso; apply X; now left].
      * rewrite set_other by assumption. destruct (in_dec Nat.eq_dec p (o :: l)) as [[X|X]|]; [congruence|contradiction|reflexivity].
  - now rewrite store_len.
  - intros q Q. rewrite store_same, set_len by exact B. apply V. now right.
  - exact ND.
Qed.
Lemma contents_ext h h' v : buffer h' (buf v) = buffer h (buf v) -> contents h' v = contents h v.
Proof. intros E. unfold contents. now rewrite E. Qed.
Lemma buffer_app h t b : b < length h -> buffer (h ++ t) b = buffer h b.
Proof. intros H. unfold buffer. now apply app_nth1. Qed.
Lemma alloc_contents h l d k : contents (fst (alloc h l d k)) (snd (alloc h l d k)) = l.
Proof.
  unfold alloc, contents. cbn [fst snd offs buf]. unfold buffer. rewrite app_nth2, Nat.sub_diag by lia. cbn.
  induction l as [|a l IH] using rev_ind; [reflexivity|]. rewrite app_length, seq_app, map_app. cbn. rewrite app_nth2, Nat.sub_diag by lia. cbn. f_equal. transitivity (map (fun o => nth o l (Num 0)) (seq 0 (length l))); [|exact IH].
  apply map_ext_in. intros p P. apply in_seq in P. rewrite app_nth1 by lia. reflexivity.
Qed.

(** ** attributes *)
Lemma find_in (l : list (string * value)) n nv : find (fun x => String.eqb n (fst x)) l = Some nv -> In nv l /\ fst nv = n.
Proof. intros H. apply find_some in H as (I & E). apply String.eqb_eq in E. now split. Qed.
Lemma get_in o n v : get o n = Some v -> In (n, v) (attrs o).
Proof. unfold get. destruct (find _ _) as [(m, w)|] eqn:E; [|discriminate]. intros H. injection H as <-. apply find_in in E as (I & E). cbn in E. now subst. Qed.
Lemma in_del n m v l : In (m, v) (del n l) -> In (m, v) l /\ m <> n.
Proof. unfold del. intros H. apply filter_In in H as (A & B). cbn in B. split; [exact A|]. intros ->. now rewrite String.eqb_refl in B. Qed.
Lemma find_del n m (l : list (string * value)) : m <> n -> find (fun x => String.eqb m (fst x)) (del n l) = find (fun x => String.eqb m (fst x)) l.
Proof.
  intros N. induction l as [|(k, v) l IH]; [reflexivity|]. cbn. destruct (String.eqb n k) eqn:E; cbn.
  - apply String.eqb_eq in E. subst k. apply String.eqb_neq in N. now rewrite N.
  - destruct (String.eqb m k); [reflexivity|exact IH].
Qed.
Lemma get_put o n v m : get (put o n v) m = if String.eqb m n then Some v else get o m.
Proof. unfold get, put. cbn. destruct (String.eqb m n) eqn:E; [reflexivity|]. apply String.eqb_neq in E. now rewrite find_del. Qed.
Lemma get_unset o n m : get (unset o n) m = if String.eqb m n then None else get o m.
Proof.
  unfold get, unset. cbn. destruct (String.eqb m n) eqn:E.
  - apply String.eqb_eq in E. subst m. destruct (find _ (del n (attrs o))) as [(k, v)|] eqn:F; [|reflexivity]. apply find_in in F as (I & F). cbn in F. subst k. apply in_del in I as (_ & I). congruence.
  - apply String.eqb_neq in E. now rewrite find_del.
Qed.

(** ** what a method may change: memory of its own object and new memory *)
Definition owns (o : object) (b : nat) : Prop := exists n v, In (n, Mut v) (attrs o) /\ buf v = b.
Definition only (h : heap) (o : object) (h' : heap) (o' : object) : Prop :=
  length h <= length h' /\ (forall b, b < length h -> ~ owns o b -> buffer h' b = buffer h b) /\
  (forall b, owns o' b -> (owns o b \/ length h <= b) /\ b < length h').
Lemma owns_mem h o b : in_memory h o -> owns o b -> b < length h.
Proof. intros M (n & v & I & <-). exact (M _ _ I). Qed.
Lemma only_refl h o : in_memory h o -> only h o h o.
Proof. intros M. split; [lia|]. split; [auto|]. intros b B. split; [now left|exact (owns_mem _ _ _ M B)]. Qed.
Lemma only_trans h o h1 o1 h2 o2 : only h o h1 o1 -> only h1 o1 h2 o2 -> only h o h2 o2.
Proof.
  intros (L1 & K1 & O1) (L2 & K2 & O2). split; [lia|]. split.
  - intros b B N. rewrite K2; [now apply K1|lia|]. intros X. destruct (O1 _ X) as ([Y|Y] & _); [contradiction|lia].
  - intros b B. destruct (O2 _ B) as ([X|X] & Z); [|split; [right; lia|exact Z]]. destruct (O1 _ X) as (Y & _). split; [|exact Z]. destruct Y; [now left|now right].
Qed.
Lemma only_mem h o h' o' : only h o h' o' -> in_memory h' o'.
Proof. intros (_ & _ & O) n v I. apply O. exists n, v. now split. Qed.
Lemma only_alloc h o l d k n : in_memory h o -> only h o (fst (alloc h l d k)) (put o n (Mut (snd (alloc h l d k)))).
Proof.
  intros M. unfold alloc. cbn [fst snd]. split; [rewrite app_length; lia|]. split.
  - intros b B _. now apply buffer_app.
  - intros b (m & v & I & <-). cbn in I. rewrite app_length. cbn. destruct I as [I|I].
    + injection I as <- <-. cbn. split; [right; lia|lia].
    + apply in_del in I as (I & _). split; [left; now exists m, v|]. specialize (M _ _ I). lia.
Qed.
Lemma only_imm h o n x : in_memory h o -> only h o h (put o n (Imm x)).
Proof.
  intros M. split; [lia|]. split; [auto|]. intros b (m & v & I & <-). cbn in I. destruct I as [I|I]; [discriminate I|]. apply in_del in I as (I & _). split; [left; now exists m, v|exact (M _ _ I)].
Qed.
Lemma only_unset h o n : in_memory h o -> only h o h (unset o n).
Proof. intros M. split; [lia|]. split; [auto|]. intros b (m & v & I & <-). cbn in I. apply in_del in I as (I & _). split; [left; now exists m, v|exact (M _ _ I)]. Qed.
Lemma only_flags h o u a : in_memory h o -> only h o h (Obj (attrs o) u a).
Proof. intros M. split; [lia|]. split; [auto|]. intros b (m & v & I & <-). cbn in I. split; [left; now exists m, v|exact (M _ _ I)]. Qed.
Lemma only_store h o n v p x : in_memory h o -> get o n = Some (Mut v) -> only h o (store h (buf v) p x) o.
Proof.
  intros M G. split; [rewrite store_len; lia|]. split.
  - intros b B N. apply store_other. intros ->. apply N. exists n, v. split; [now apply get_in|reflexivity].
  - intros b B. split; [now left|]. rewrite store_len. exact (owns_mem _ _ _ M B).
Qed.
Lemma only_update h o n v f : in_memory h o -> get o n = Some (Mut v) -> only h o (update_with f h v) o.
Proof.
  intros M G. split; [rewrite update_len; lia|]. split.
  - intros b B N. apply update_other. intros ->. apply N. exists n, v. split; [now apply get_in|reflexivity].
  - intros b B. split; [now left|]. rewrite update_len. exact (owns_mem _ _ _ M B).
Qed.
Lemma only_times_attr f h o n : in_memory h o -> only h o (fst (times_attr f (h, o) n)) (snd (times_attr f (h, o) n)).
Proof.
  intros M. unfold times_attr. cbn [fst snd]. destruct (get o n) as [v|]; [|now apply only_refl]. unfold times. destruct v as [x|v].
  - now apply only_imm.
  - exact (only_alloc h o (map (mul_item f) (contents h v)) (dims v) (kind_ v) n M).
Qed.
Lemma only_fold {A} (g : heap * object -> A -> heap * object) l h o : (forall h o a, in_memory h o -> only h o (fst (g (h, o) a)) (snd (g (h, o) a))) -> in_memory h o ->
  only h o (fst (fold_left g l (h, o))) (snd (fold_left g l (h, o))).
Proof.
  intros G. revert h o. induction l as [|a l IH]; intros h o M; [now apply only_refl|]. cbn. assert (X := G h o a M). destruct (g (h, o) a) as (h1, o1). cbn [fst snd] in X. apply (only_trans _ _ _ _ _ _ X). apply IH. exact (only_mem _ _ _ _ X).
Qed.
Lemma only_cc f h o : in_memory h o -> only h o (fst (times_cc f (h, o))) (snd (times_cc f (h, o))).
Proof.
  intros M. unfold times_cc. cbn [fst snd]. destruct (get o "cryst_const") as [[x|v]|]; [now apply only_refl| |now apply only_refl].
  exact (only_alloc h o (scale_abc f (contents h v)) (dims v) (kind_ v) "cryst_const" M).
Qed.
Lemma only_apply h o : in_memory h o -> only h o (fst (apply_units (h, o))) (snd (apply_units (h, o))).
Proof.
  intros M. unfold apply_units. cbn [fst snd]. destruct (applied o); [now apply only_refl|].
  assert (X := only_cc (units o "length") h o M). destruct (times_cc _ _) as (h1, o1). cbn [fst snd] in X. assert (M1 := only_mem _ _ _ _ X).
  assert (Y := only_fold (fun ho ul => if Req_EM_T (units o (fst ul)) 1 then ho else fold_left (times_attr (units o (fst ul))) (snd ul) ho) units_map h1 o1).
  destruct (fold_left _ units_map (h1, o1)) as (h2, o2). cbn [fst snd] in *. assert (Z : only h1 o1 h2 o2).
  { apply Y; [|exact M1]. intros h3 o3 (u, l) M3. cbn [fst snd]. destruct (Req_EM_T (units o u) 1); [now apply only_refl|]. apply only_fold; [|exact M3]. intros. now apply only_times_attr. }
  apply (only_trans _ _ _ _ _ _ X). apply (only_trans _ _ _ _ _ _ Z). apply only_flags. exact (only_mem _ _ _ _ Z).
Qed.
Section CH.
Variable wrap : R -> R.
Variable cart : list item -> list item -> list item.
Variable cast : R -> R.
Lemma only_coords h o : in_memory h o -> only h o (fst (set_coords cart h o)) (snd (set_coords cart h o)).
Proof.
  intros M. unfold set_coords. destruct (get o "coords"); [now apply only_refl|]. destruct (get o "coords_frac") as [[x|v]|]; try (now apply only_refl). destruct (get o "cell") as [[x|c]|]; try (now apply only_refl).
  exact (only_alloc h o (cart (contents h v) (contents h c)) (dims v) F64 "coords" M).
Qed.
Lemma only_wrap h o : in_memory h o -> only h o (fst (wrap_here wrap cart h o)) (snd (wrap_here wrap cart h o)).
Proof.
  intros M. unfold wrap_here. assert (U := only_unset h o "coords" M). assert (M1 := only_mem _ _ _ _ U). set (o1 := unset o "coords") in *. destruct (get o1 "coords_frac") as [[x|v]|] eqn:G; [exact U| |exact U].
  assert (X := only_update h o1 _ v (num_item wrap) M1 G). assert (M2 := only_mem _ _ _ _ X). assert (Y := only_apply _ _ M2). destruct (apply_units _) as (h2, o2). cbn [fst snd] in Y. assert (M3 := only_mem _ _ _ _ Y).
  apply (only_trans _ _ _ _ _ _ U). apply (only_trans _ _ _ _ _ _ X). apply (only_trans _ _ _ _ _ _ Y). now apply only_coords.
Qed.
Lemma only_compress forget h o : in_memory h o -> only h o (fst (compress_here cast forget h o)) (snd (compress_here cast forget h o)).
Proof.
  intros M. unfold compress_here.
  assert (G : forall l h, (forall n v, In (n, Mut v) l -> buf v < length h) -> let r := compress_attrs cast forget h l in length h <= length (fst r) /\ (forall b, b < length h -> buffer (fst r) b = buffer h b) /\ (forall n v, In (n, Mut v) (snd r) -> ((exists n w, In (n, Mut w) l /\ buf w = buf v) \/ length h <= buf v) /\ buf v < length (fst r))).
  { induction l as [|(n, v) l IH]; intros h0 ML; [cbn; intuition|]. cbn -[mem cast_value]. destruct (mem n forget).
    - destruct (IH h0) as (A & B & C); [intros; apply (ML n0); now right|]. split; [exact A|]. split; [exact B|]. intros m w I. destruct (C m w I) as ([(k & z & Z1 & Z2)|D] & E); (split; [|exact E]); [left; exists k, z; split; [now right|exact Z2]|now right].
    - destruct v as [x|v]; cbn [cast_value].
      + specialize (IH h0). destruct (compress_attrs cast forget h0 l) as (h2, l2). cbn [fst snd] in *. destruct IH as (A & B & C); [intros; apply (ML n0); now right|]. split; [exact A|]. split; [exact B|]. intros m w [I|I]; [discriminate I|]. destruct (C m w I) as ([(k & z & Z1 & Z2)|D] & E); (split; [|exact E]); [left; exists k, z; split; [now right|exact Z2]|now right].
      + destruct (kind_ v).
        * cbn. specialize (IH (h0 ++ [map (num_item cast) (contents h0 v)])). destruct (compress_attrs cast forget _ l) as (h2, l2). cbn [fst snd] in *. destruct IH as (A & B & C); [intros k w I; rewrite app_length; specialize (ML k w ltac:(now right)); lia|]. rewrite app_length in A, C. cbn in A, C. rewrite app_length in B. cbn in B. split; [lia|]. split; [intros b Bb; rewrite B by lia; now apply buffer_app|].
          intros m w [I|I]; [injection I as <- <-; cbn; split; [right; lia|lia]|]. destruct (C m w I) as ([(k & z & Z1 & Z2)|D] & E); (split; [|exact E]); [left; exists k, z; split; [now right|exact Z2]|right; lia].
        * specialize (IH h0). destruct (compress_attrs cast forget h0 l) as (h2, l2). cbn [fst snd] in *. destruct IH as (A & B & C); [intros; apply (ML n0); now right|]. split; [exact A|]. split; [exact B|]. intros m w [I|I].
          -- injection I as <- <-. split; [left; exists n, v; split; [now left|reflexivity]|]. specialize (ML n v ltac:(now left)). lia.
          -- destruct (C m w I) as ([(k & z & Z1 & Z2)|D] & E); (split; [|exact E]); [left; exists k, z; split; [now right|exact Z2]|now right].
        * specialize (IH h0). destruct (compress_attrs cast forget h0 l) as (h2, l2). cbn [fst snd] in *. destruct IH as (A & B & C); [intros; apply (ML n0); now right|]. split; [exact A|]. split; [exact B|]. intros m w [I|I].
          -- injection I as <- <-. split; [left; exists n, v; split; [now left|reflexivity]|]. specialize (ML n v ltac:(now left)). lia.
          -- destruct (C m w I) as ([(k & z & Z1 & Z2)|D] & E); (split; [|exact E]); [left; exists k, z; split; [now right|exact Z2]|now right]. }
  specialize (G (attrs o) h M). destruct (compress_attrs cast forget h (attrs o)) as (h2, l2). cbn [fst snd] in *. destruct G as (A & B & C). split; [exact A|]. split; [intros b Bb _; now apply B|]. intros b (n & v & I & <-). cbn in I. destruct (C n v I) as ([(k & w & W1 & W2)|D] & E); (split; [|exact E]); [left; exists k, w; now split|now right].
Qed.
Lemma only_perform c h o : in_memory h o -> only h o (fst (perform wrap cart cast c (h, o))) (snd (perform wrap cart cast c (h, o))).
Proof.
  intros M. destruct c; cbn [perform].
  - destruct (get o n) as [[y|v]|] eqn:G; try (now apply only_refl). destruct (nth_error (offs v) k); [|now apply only_refl]. exact (only_store h o n v _ x M G).
  - exact (only_alloc h o l d F64 n M).
  - now apply only_unset.
  - now apply only_wrap.
  - now apply only_compress.
  - assert (X := only_apply h o M). destruct (apply_units (h, o)) as (h1, o1). cbn [fst snd] in X. apply (only_trans _ _ _ _ _ _ X). apply only_coords. exact (only_mem _ _ _ _ X).
Qed.
End CH.
Lemma only_seen h o h' o' x : only h o h' o' -> in_memory h x -> (forall b, owns x b -> ~ owns o b) -> in_memory h' x /\ forall n, seen h' x n = seen h x n.
Proof.
  intros (L & K & _) M D. split; [intros n v I; specialize (M _ _ I); lia|]. intros n. unfold seen. destruct (get x n) as [[y|v]|] eqn:G; try reflexivity. apply get_in in G. rewrite (contents_ext h h'); [reflexivity|]. apply K; [exact (M _ _ G)|]. apply D. exists n, v. now split.
Qed.
(** objects without common memory *)
Definition apart (h : heap) (a b : object) : Prop := in_memory h a /\ in_memory h b /\ forall p, owns a p -> ~ owns b p.
Lemma apart_step wrap cart cast c h a b : apart h a b -> let r := perform wrap cart cast c (h, b) in apart (fst r) a (snd r) /\ forall n, seen (fst r) a n = seen h a n.
Proof.
  intros (MA & MB & D) r. assert (O := only_perform wrap cart cast c h b MB). fold r in O. destruct (only_seen _ _ _ _ _ O MA D) as (M & E). split; [|exact E]. split; [exact M|]. split; [exact (only_mem _ _ _ _ O)|]. intros p P Q. destruct O as (_ & _ & O). destruct (O _ Q) as ([X|X] & _); [exact (D _ P X)|]. assert (Y := owns_mem _ _ _ MA P). lia.
Qed.
Lemma apart_sym h a b : apart h a b -> apart h b a.
Proof. intros (A & B & D). split; [exact B|]. split; [exact A|]. intros p P Q. exact (D _ Q P). Qed.
Lemma apart_independent wrap cart cast h a b : apart h a b -> independent wrap cart cast h a b.
Proof.
  intros AP. unfold independent.
  assert (G : forall l h a b h1 a1 b1, apart h a b -> run2 wrap cart cast l (h, a, b) = (h1, a1, b1) -> apart h1 a1 b1).
  { induction l as [|(w, c) l IH]; intros h0 a0 b0 h1 a1 b1 A H; [cbn in H; injection H as <- <- <-; exact A|]. unfold run2 in H. cbn [fold_left] in H. unfold step2 at 2 in H. cbn [fst snd] in H. destruct w.
    - assert (X := apart_step wrap cart cast c h0 a0 b0 A). destruct (perform wrap cart cast c (h0, b0)) as (h2, b2). cbn in X. exact (IH _ _ _ _ _ _ (proj1 X) H).
    - assert (X := apart_step wrap cart cast c h0 b0 a0 (apart_sym _ _ _ A)). destruct (perform wrap cart cast c (h0, a0)) as (h2, a2). cbn in X. exact (IH _ _ _ _ _ _ (apart_sym _ _ _ (proj1 X)) H). }
  intros l h1 a1 b1 c H. specialize (G _ _ _ _ _ _ _ AP H). split; [exact (proj2 (apart_step wrap cart cast c _ _ _ G))|exact (proj2 (apart_step wrap cart cast c _ _ _ (apart_sym _ _ _ G)))].
Qed.
(** a new object *)
Definition fresh (h h' : heap) (c : object) : Prop := (exists t, h' = h ++ t) /\ in_memory h' c /\ forall p, owns c p -> length h <= p.
Lemma fresh_untouched h h' c : fresh h h' c -> untouched h h'.
Proof.
  intros ((t & ->) & _) o M. split; [intros n v I; rewrite app_length; specialize (M _ _ I); lia|]. intros n. unfold seen. destruct (get o n) as [[x|v]|] eqn:G; try reflexivity. apply get_in in G. rewrite (contents_ext h (h ++ t)); [reflexivity|]. apply buffer_app. exact (M _ _ G).
Qed.
Lemma fresh_apart h h' c o : fresh h h' c -> in_memory h o -> apart h' o c.
Proof. intros F M. destruct (fresh_untouched _ _ _ F o M) as (M1 & _). destruct F as (_ & MC & O). split; [exact M1|]. split; [exact MC|]. intros p P Q. specialize (O _ Q). assert (X := owns_mem _ _ _ M P). lia. Qed.
Lemma fresh_only h h1 c h2 c2 : fresh h h1 c -> only h1 c h2 c2 -> untouched h h2 /\ forall o, in_memory h o -> apart h2 o c2.
Proof.
  intros F O. assert (U := fresh_untouched _ _ _ F). assert (G : forall o, in_memory h o -> (in_memory h2 o /\ forall n, seen h2 o n = seen h o n)).
  { intros o M. destruct (fresh_apart _ _ _ _ F M) as (MO & MC & D). destruct (only_seen _ _ _ _ _ O MO D) as (A & B). split; [exact A|]. intros n. rewrite B. apply U. exact M. }
  split; [exact G|]. intros o M. destruct (fresh_apart _ _ _ _ F M) as (MO & MC & D). split; [apply G; exact M|]. split; [exact (only_mem _ _ _ _ O)|]. intros p P Q. destruct O as (L & _ & O). destruct (O _ Q) as ([X|X] & _); [exact (D _ P X)|]. assert (Y := owns_mem _ _ _ MO P). lia.
Qed.
(** ** copy and get_traj make new objects *)
Lemma copy_value_spec h v : (match v with Mut w => buf w < length h | _ => True end) -> exists t v', copy_value h v = (h ++ t, v') /\ match v, v' with
  | Imm x, Imm y => x = y | Mut w, Mut w' => dims w' = dims w /\ kind_ w' = kind_ w /\ contents (h ++ t) w' = contents h w /\ length h <= buf w' < length (h ++ t) | _, _ => False end.
Proof.
  destruct v as [x|w]; intros B.
  - exists [], (Imm x). rewrite app_nil_r. now split.
  - eexists [contents h w], _. split; [reflexivity|]. cbn [dims kind_ buf]. split; [reflexivity|]. split; [reflexivity|]. split; [exact (alloc_contents h (contents h w) (dims w) (kind_ w))|]. rewrite app_length. cbn. lia.
Qed.
