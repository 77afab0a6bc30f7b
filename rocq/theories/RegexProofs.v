From Coq Require Import Ascii String List Arith Bool Lia.
From Verif Require Import Comb Template Regex.
Import ListNotations.
Local Open Scope list_scope.
Local Notation length := List.length.

Definition all (p : ascii -> bool) (s : pstr) : Prop := Forall (fun c => p c = true) s.
(** The text does not go on with a character of the class. *)
Definition stops (p : ascii -> bool) (s : pstr) : Prop := match s with [] => True | c :: _ => p c = false end.

Section K.
Context {A : Type}.
Implicit Type k : pstr -> caps -> option A.
Definition loop (x : re) k := fix loop (fuel : nat) (s : pstr) (c : caps) : option A :=
  orelse (match fuel with O => None | S f => m x s c (fun s' c' => if length s' <? length s then loop f s' c' else None) end) (k s c).
Lemma star_loop x s c k : m (Star x) s c k = loop x k (length s) s c.
Proof. reflexivity. Qed.
(** What a greedy repetition of a class tries: all splits of [u], the longest first. *)
Fixpoint longest (u s : pstr) (f : pstr -> option A) : option A :=
  match u with [] => f s | a :: u' => orelse (longest u' s f) (f (u ++ s)) end.
Lemma loop_class p u s c k : all p u -> stops p s -> forall fuel, length (u ++ s) <= fuel -> loop (Chr p) k fuel (u ++ s) c = longest u s (fun s => k s c).
Proof.
  induction u as [|a u IH]; intros H S fuel L.
  - cbn [app longest]. destruct fuel as [|f]; [reflexivity|]. destruct s as [|b s]; [reflexivity|]. cbn in S. cbn [loop m]. rewrite S. reflexivity.
  - destruct fuel as [|f]; [cbn in L; lia|]. cbn [app loop m longest]. rewrite (Forall_inv H). destruct (Nat.ltb_spec (length (u ++ s)) (length (a :: u ++ s))) as [_|B]; [|cbn in B; lia].
    fold (loop (Chr p) k). rewrite IH; [reflexivity|exact (Forall_inv_tail H)|exact S|cbn in L; lia].
Qed.
Lemma star_class p u s c k : all p u -> stops p s -> m (Star (Chr p)) (u ++ s) c k = longest u s (fun s => k s c).
Proof. intros H S. rewrite star_loop. now apply loop_class. Qed.
Lemma plus_class p a u s c k : all p (a :: u) -> stops p s -> m (Plus (Chr p)) (a :: u ++ s) c k = longest u s (fun s => k s c).
Proof. intros H S. unfold Plus. cbn [m]. rewrite (Forall_inv H). exact (star_class p u s c k (Forall_inv_tail H) S). Qed.
Lemma plus_fail p s c k : stops p s -> m (Plus (Chr p)) s c k = None.
Proof. destruct s as [|a s]; intros S; [reflexivity|]. cbn in S. unfold Plus. cbn [m]. now rewrite S. Qed.
Lemma longest_some u s f v : f s = Some v -> longest u s f = Some v.
Proof. intros H. induction u as [|a u IH]; [exact H|]. cbn [longest]. now rewrite IH. Qed.
Lemma longest_none u s f : (forall u1 u2, u = u1 ++ u2 -> f (u2 ++ s) = None) -> longest u s f = None.
Proof.
  induction u as [|a u IH]; intros H; [exact (H [] [] eq_refl)|]. cbn [longest]. rewrite IH; [|intros u1 u2 ->; apply (H (a :: u1) u2 eq_refl)].
  exact (H [] (a :: u) eq_refl).
Qed.
Lemma longest_app u1 u2 s f : longest (u1 ++ u2) s f = orelse (longest u2 s f) (longest u1 (u2 ++ s) f).
Proof.
  induction u1 as [|a u1 IH].
  - cbn [app longest]. destruct u2 as [|b u2]; cbn [longest app].
    + now destruct (f s).
    + destruct (longest u2 s f); cbn [orelse]; [reflexivity|]. now destruct (f (b :: u2 ++ s)).
  - cbn [app longest]. rewrite IH. destruct (longest u2 s f); [reflexivity|]. cbn [orelse]. now rewrite app_assoc.
Qed.
Lemma longest_ext u s f g : (forall s, f s = g s) -> longest u s f = longest u s g.
Proof. intros H. induction u as [|a u IH]; cbn [longest]; [apply H|]. now rewrite IH, H. Qed.
End K.

Lemma lit_match {A} w : w <> [] -> forall s c (k : pstr -> caps -> option A), m (Lit w) (w ++ s) c k = k s c.
Proof.
  induction w as [|a w IH]; [congruence|]. intros _ s c k. destruct w as [|b w].
  - cbn. now rewrite Ascii.eqb_refl.
  - change (Lit (a :: b :: w)) with (Seq (Chr (Ascii.eqb a)) (Lit (b :: w))). cbn [m app]. rewrite Ascii.eqb_refl. apply (IH ltac:(discriminate)).
Qed.
Lemma lit_fail {A} w s c (k : pstr -> caps -> option A) : w <> [] -> is_prefix w s = false -> m (Lit w) s c k = None.
Proof.
  revert s. induction w as [|a w IH]; [congruence|]. intros s _ H. destruct s as [|b s].
  - destruct w; reflexivity.
  - destruct w as [|a' w].
    + cbn in H |- *. destruct (Ascii.eqb a b); [destruct s; discriminate H|reflexivity].
    + change (Lit (a :: a' :: w)) with (Seq (Chr (Ascii.eqb a)) (Lit (a' :: w))). cbn [m]. cbn [is_prefix] in H. destruct (Ascii.eqb a b) eqn:E; [|reflexivity].
      apply IH; [discriminate|]. exact H.
Qed.
Lemma taken (u s : pstr) : firstn (length (u ++ s) - length s) (u ++ s) = u.
Proof. rewrite app_length. replace (length u + length s - length s) with (length u) by lia. rewrite firstn_app, Nat.sub_diag, firstn_all. cbn. apply app_nil_r. Qed.
(** float_re takes all of a run of its characters. *)
Lemma float_match {A} x s c (k : pstr -> caps -> option A) v : x <> [] -> all float_char x -> stops float_char s -> k s c = Some v -> m float_re (x ++ s) c k = Some v.
Proof.
  intros NE F S H. change (m (Star (Chr sign)) (x ++ s) c (fun s c => m (Plus (Chr float_char)) s c k) = Some v).
  assert (G : forall x, all float_char x -> x <> [] -> m (Plus (Chr float_char)) (x ++ s) c k = Some v).
  { intros [|a y] Fy Ny; [congruence|]. cbn [app]. rewrite plus_class by assumption. now apply longest_some. }
  assert (SS : stops sign s).
  { destruct s as [|a s]; [exact I|]. cbn in *. unfold float_char in S. now apply orb_false_elim in S as [_ S]. }
  assert (D : exists u y, x = u ++ y /\ all sign u /\ stops sign (y ++ s)).
  { clear -SS. induction x as [|a x IH]; [exists [], []; repeat split; [constructor|exact SS]|]. destruct (sign a) eqn:E.
    - destruct IH as (u & y & -> & U & Y). exists (a :: u), y. split; [reflexivity|]. split; [now constructor|exact Y].
    - exists [], (a :: x). repeat split; [constructor|exact E]. }
  destruct D as (u & y & -> & U & Y). rewrite <- app_assoc. rewrite star_class by assumption.
  assert (Fy : all float_char y) by (apply Forall_app in F; tauto).
  destruct y as [|b y]; [|apply longest_some, G; [exact Fy|discriminate]].
  (* signs only *)
  rewrite app_nil_r in *. cbn [app]. destruct u as [|a u] using rev_ind; [congruence|]. rewrite longest_app. cbn [longest app].
  assert (P : m (Plus (Chr float_char)) s c k = None) by (now apply plus_fail). rewrite P. cbn [orelse].
  assert (P2 : m (Plus (Chr float_char)) (a :: s) c k = Some v).
  { apply (G [a]); [|discriminate]. apply Forall_app in F. tauto. }
  rewrite P2. reflexivity.
Qed.
(** One of the numbers with the blanks before it. *)
Lemma item_match {A} n g x s c (k : pstr -> caps -> option A) v : g <> [] -> all is_space g -> x <> [] -> all float_char x -> stops float_char s ->
  stops is_space x -> k s ((n, g ++ x) :: c) = Some v -> m (Group n (Seq (Plus (Chr is_space)) float_re)) (g ++ x ++ s) c k = Some v.
Proof.
  intros Ng G Nx X S SX H. destruct g as [|a g]; [congruence|].
  change (m (Seq (Plus (Chr is_space)) float_re) (a :: g ++ x ++ s) c (fun s' c' => k s' ((n, firstn (length (a :: g ++ x ++ s) - length s') (a :: g ++ x ++ s)) :: c')) = Some v).
  set (k' := fun s' c' => k s' _).
  change (m (Plus (Chr is_space)) (a :: g ++ x ++ s) c (fun s0 c0 => m float_re s0 c0 k') = Some v).
  rewrite plus_class; [|exact G|destruct x; [congruence|exact SX]]. apply longest_some. apply float_match; [exact Nx|exact X|exact S|]. unfold k'.
  change (a :: g ++ x ++ s) with ((a :: g) ++ x ++ s). rewrite app_assoc, taken. exact H.
Qed.
Lemma prefix_stop w u r a : (forall c, In c w -> Ascii.eqb c a = false) -> is_prefix w (u ++ a :: r) = is_prefix w u.
Proof.
  revert u. induction w as [|b w IH]; intros u H; [now destruct u|]. destruct u as [|c u].
  - cbn [app is_prefix]. rewrite (H b (or_introl eq_refl)). reflexivity.
  - cbn [app is_prefix]. rewrite IH; [reflexivity|]. intros d Hd. apply H. now right.
Qed.
