From Coq Require Import Ascii String List Arith Bool Lia.
From Verif Require Import Comb CombProofs Template TemplateProofs ArrayIO Regex RegexProofs Pdb PdbSpec.
Import ListNotations.
Local Open Scope list_scope.
Local Notation length := List.length.

Lemma all_of p s : consists_of p s -> all p s.
Proof. intros H. apply Forall_forall. exact H. Qed.
Lemma stops_of p s : starts_without p s -> stops p s.
Proof. destruct s as [|c s]; intros H; [exact I|]. exact (H c s eq_refl). Qed.
Lemma char_cases (P : ascii -> bool) : (forallb (fun n => P (ascii_of_nat n)) (seq 0 256) = true) -> forall c, P c = true.
Proof.
  intros H c. rewrite <- (ascii_nat_embedding c). rewrite forallb_forall in H. apply H. apply in_seq. pose proof (nat_ascii_bounded c). lia.
Qed.
Lemma imp_cases (P Q : ascii -> bool) : (forallb (fun n => negb (P (ascii_of_nat n)) || Q (ascii_of_nat n)) (seq 0 256) = true) -> forall c, P c = true -> Q c = true.
Proof. intros H c Hc. pose proof (char_cases (fun c => negb (P c) || Q c) H c) as G. cbn in G. rewrite Hc in G. exact G. Qed.
Lemma not_cases (P Q : ascii -> bool) : (forallb (fun n => negb (P (ascii_of_nat n)) || negb (Q (ascii_of_nat n))) (seq 0 256) = true) -> forall c, P c = true -> Q c = false.
Proof. intros H c Hc. apply negb_true_iff. exact (imp_cases P (fun c => negb (Q c)) H c Hc). Qed.
Lemma float_no_space c : float_char c = true -> is_space c = false. Proof. revert c. now apply not_cases. Qed.
Lemma space_no_float c : is_space c = true -> float_char c = false. Proof. revert c. now apply not_cases. Qed.
Lemma digit_no_space c : digit c = true -> is_space c = false. Proof. revert c. now apply not_cases. Qed.
Lemma digit_float c : digit c = true -> float_char c = true. Proof. revert c. now apply imp_cases. Qed.
Lemma digit_bd c : digit c = true -> blank_digit c = true. Proof. revert c. now apply imp_cases. Qed.
Lemma digit_ba c : digit c = true -> blank_alnum c = true. Proof. revert c. now apply imp_cases. Qed.
Lemma space_bd c : is_space c = true -> blank_digit c = true. Proof. revert c. now apply imp_cases. Qed.
Lemma bd_ba c : blank_digit c = true -> blank_alnum c = true. Proof. revert c. now apply imp_cases. Qed.
Lemma bd_no_letter c : blank_digit c = true -> letter c = false. Proof. revert c. now apply not_cases. Qed.
Lemma letter_no_bd c : letter c = true -> blank_digit c = false. Proof. revert c. now apply not_cases. Qed.
Definition markb (c : ascii) := Ascii.eqb c "." || sign c.
Lemma mark_ba c : markb c = true -> blank_alnum c = false. Proof. revert c. now apply not_cases. Qed.
Lemma mark_bd c : markb c = true -> blank_digit c = false. Proof. revert c. now apply not_cases. Qed.
Lemma mark_space c : markb c = true -> is_space c = false. Proof. revert c. now apply not_cases. Qed.
Lemma mark_float c : markb c = true -> float_char c = true. Proof. revert c. now apply imp_cases. Qed.
Lemma all_imp (p q : ascii -> bool) s : (forall c, p c = true -> q c = true) -> all p s -> all q s.
Proof. intros H. apply Forall_impl. exact H. Qed.
Lemma stops_app p s t : s <> [] -> stops p s -> stops p (s ++ t).
Proof. destruct s; [congruence|]. intros _ H. exact H. Qed.
Lemma stops_first (p q : ascii -> bool) s : (forall c, p c = true -> q c = false) -> all p s -> s <> [] -> stops q s.
Proof. destruct s as [|a s]; intros H A NE; [congruence|]. apply H. exact (Forall_inv A). Qed.

(** No record begins here. *)
Lemma atom_fail s : is_prefix ATOM s = false -> is_prefix HETATM s = false -> re_match atom_re s = None.
Proof.
  intros H1 H2. unfold re_match, atom_re. 
  change (orelse (m (Lit (text "ATOM")) s [] (fun s' c' => m (Seq (Plus (Chr blank_digit)) (Seq (Group 2 (Plus (Chr letter))) (Seq (Star (Chr blank_alnum)) (Seq (Plus (Chr blank_digit))
    (Group 3 (Times 3 (Group 4 (Seq (Plus (Chr is_space)) float_re)))))))) s' ((1, firstn (length s - length s') s) :: c') (fun s c => Some (s, c))))
    (m (Lit (text "HETATM")) s [] (fun s' c' => m (Seq (Plus (Chr blank_digit)) (Seq (Group 2 (Plus (Chr letter))) (Seq (Star (Chr blank_alnum)) (Seq (Plus (Chr blank_digit))
    (Group 3 (Times 3 (Group 4 (Seq (Plus (Chr is_space)) float_re)))))))) s' ((1, firstn (length s - length s') s) :: c') (fun s c => Some (s, c)))) = None).
  rewrite !lit_fail; try discriminate; [reflexivity|exact H2|exact H1].
Qed.
Definition quiet (t : pstr) : Prop := ~ occurs ATOM t /\ ~ occurs HETATM t.
Lemma quiet_tail c t : quiet (c :: t) -> quiet t.
Proof. intros [H1 H2]. split; intros (a & b & ->); [apply H1|apply H2]; exists (c :: a), b; reflexivity. Qed.
Lemma quiet_prefix t : quiet t -> is_prefix ATOM t = false /\ is_prefix HETATM t = false.
Proof.
  intros [H1 H2]. split.
  - destruct (is_prefix ATOM t) eqn:E; [|reflexivity]. exfalso. apply H1. apply is_prefix_spec in E. destruct E as (r & ->). now exists [], r.
  - destruct (is_prefix HETATM t) eqn:E; [|reflexivity]. exfalso. apply H2. apply is_prefix_spec in E. destruct E as (r & ->). now exists [], r.
Qed.
Lemma no_newline w : w = ATOM \/ w = HETATM \/ w = CRYST1 -> forall c, In c w -> Ascii.eqb c newline = false.
Proof. intros [-> |[-> | ->]] c Hc; cbn in Hc; repeat (destruct Hc as [<- |Hc]; [reflexivity|]); destruct Hc. Qed.
Lemma quiet_skip t r : quiet t -> forall fuel, length (t ++ newline :: r) < fuel -> exists fuel', length r < fuel' /\ re_finditer fuel atom_re (t ++ newline :: r) = re_finditer fuel' atom_re r.
Proof.
  induction t as [|c t IH]; intros Q fuel L.
  - destruct fuel as [|f]; [lia|]. exists f. cbn [app length] in *. split; [lia|]. cbn [re_finditer]. now rewrite (atom_fail (newline :: r)).
  - destruct fuel as [|f]; [lia|]. cbn [app re_finditer]. destruct (quiet_prefix _ Q) as [P1 P2].
    rewrite (atom_fail (c :: t ++ newline :: r)).
    + apply IH; [exact (quiet_tail _ _ Q)|]. cbn in L. lia.
    + change (c :: t ++ newline :: r) with ((c :: t) ++ newline :: r). rewrite prefix_stop by (apply no_newline; auto). exact P1.
    + change (c :: t ++ newline :: r) with ((c :: t) ++ newline :: r). rewrite prefix_stop by (apply no_newline; auto). exact P2.
Qed.

(** Three numbers. *)
Lemma triple_match {A} w x g1 y g2 z s c (k : pstr -> caps -> option A) v : is_space w = true -> x <> [] -> all float_char x -> g1 <> [] -> all is_space g1 -> y <> [] -> all float_char y ->
  g2 <> [] -> all is_space g2 -> z <> [] -> all float_char z -> stops float_char s -> (forall c', k s ((3, w :: x ++ g1 ++ y ++ g2 ++ z) :: c' ++ c) = Some (v c')) ->
  exists c', Forall (fun e => fst e = 4) c' /\ m (Group 3 (Times 3 (Group 4 (Seq (Plus (Chr is_space)) float_re)))) (w :: x ++ g1 ++ y ++ g2 ++ z ++ s) c k = Some (v c').
Proof.
  intros W Nx X N1 G1 Ny Y N2 G2 Nz Z S H. exists [(4, g2 ++ z); (4, g1 ++ y); (4, [w] ++ x)]. split; [now repeat constructor|].
  set (it := Group 4 (Seq (Plus (Chr is_space)) float_re)). set (T := w :: x ++ g1 ++ y ++ g2 ++ z ++ s).
  set (k3 := fun s' c' => k s' ((3, firstn (length T - length s') T) :: c')).
  change (m (Seq it (Seq it it)) T c k3 = Some (v [(4, g2 ++ z); (4, g1 ++ y); (4, [w] ++ x)])).
  change (m it T c (fun s c => m it s c (fun s c => m it s c k3)) = Some (v [(4, g2 ++ z); (4, g1 ++ y); (4, [w] ++ x)])).
  unfold T. change (w :: x ++ g1 ++ y ++ g2 ++ z ++ s) with ([w] ++ x ++ g1 ++ y ++ g2 ++ z ++ s).
  assert (NS : forall q, all float_char q -> q <> [] -> stops is_space q) by (intros q Q NQ; apply (stops_first float_char); auto using float_no_space).
  assert (NF : forall g r, all is_space g -> g <> [] -> stops float_char (g ++ r)) by (intros g r G NG; apply stops_app; [exact NG|]; apply (stops_first is_space); auto using space_no_float).
  apply item_match; auto; [discriminate|now repeat constructor|].
  apply item_match; auto. apply item_match; auto. unfold k3, T.
  replace (w :: x ++ g1 ++ y ++ g2 ++ z ++ s) with ((w :: x ++ g1 ++ y ++ g2 ++ z) ++ s) by (cbn [app]; rewrite <- !app_assoc; reflexivity). rewrite taken. exact (H [(4, g2 ++ z); (4, g1 ++ y); (4, [w] ++ x)]).
Qed.
Lemma triple_fail {A} s c (k : pstr -> caps -> option A) : stops is_space s -> m (Group 3 (Times 3 (Group 4 (Seq (Plus (Chr is_space)) float_re)))) s c k = None.
Proof.
  intros H. set (it := Group 4 (Seq (Plus (Chr is_space)) float_re)).
  change (m (Plus (Chr is_space)) s c (fun s0 c0 => m float_re s0 c0 (fun s' c' => m (Seq it it) s' ((4, firstn (length s - length s') s) :: c') (fun s' c' => k s' ((3, firstn (length s - length s') s) :: c')))) = None).
  now apply plus_fail.
Qed.
Lemma find_skip (c' c : caps) : Forall (fun e => fst e = 4) c' -> find (fun e : nat * pstr => fst e =? 2) (c' ++ c) = find (fun e => fst e =? 2) c.
Proof. induction 1 as [|e c' E _ IH]; [reflexivity|]. cbn [app find]. now rewrite E. Qed.
(** One record. *)
Section Rec.
Variable a : atom.
Variable r : pstr.
Hypothesis Reg : regular a.
Let it3 := Group 3 (Times 3 (Group 4 (Seq (Plus (Chr is_space)) float_re))).
Let fin : pstr -> caps -> option (pstr * caps) := fun s c => Some (s, c).
(** The text from x on. *)
Let X := x a ++ gap1 a ++ y a ++ gap2 a ++ z a ++ tail a ++ newline :: r.
Let K4 (c : caps) (s : pstr) : option (pstr * caps) := m (Seq (Plus (Chr blank_digit)) it3) s c fin.
Lemma stop_tail : stops float_char (tail a ++ newline :: r).
Proof. destruct Reg as (_ & _ & _ & _ & _ & _ & _ & _ & _ & _ & _ & _ & _ & _ & _ & _ & _ & _ & _ & _ & T & _). apply stops_of in T. destruct (tail a); [reflexivity|exact T]. Qed.
Lemma x_all : all float_char (x a) /\ x a <> [] /\ all digit (x_int a) /\ markb (x_mark a) = true.
Proof.
  destruct Reg as (_ & _ & _ & _ & _ & _ & _ & _ & _ & XI & XM & XR & _). assert (M : markb (x_mark a) = true).
  { unfold markb. destruct XM as [-> | ->]; [reflexivity|apply orb_true_r]. }
  split; [|split; [unfold x; destruct (x_int a); discriminate|split; [now apply all_of|exact M]]]. unfold x. apply Forall_app. split.
  - eapply all_imp; [exact digit_float|now apply all_of].
  - constructor; [now apply mark_float|now apply all_of].
Qed.
(** From inside x nothing matches. *)
Lemma inside_x u1 u2 c : x_int a = u1 ++ u2 -> K4 c (u2 ++ x_mark a :: x_rest a ++ gap1 a ++ y a ++ gap2 a ++ z a ++ tail a ++ newline :: r) = None.
Proof.
  intros E. destruct x_all as (_ & _ & XI & M). unfold K4. rewrite E in XI. apply Forall_app in XI. destruct XI as [_ U].
  set (rest := x_rest a ++ _). change (m (Plus (Chr blank_digit)) (u2 ++ x_mark a :: rest) c (fun s c => m it3 s c fin) = None).
  destruct u2 as [|d u2].
  - cbn [app]. apply plus_fail. now apply mark_bd.
  - cbn [app]. rewrite plus_class; [|eapply all_imp; [exact digit_bd|exact U]|now apply mark_bd]. apply longest_none. intros v1 v2 ->.
    apply triple_fail. destruct v2 as [|e v2]; [now apply mark_space|]. cbn. apply digit_no_space. apply Forall_inv_tail in U. apply Forall_app in U. destruct U as [_ U]. exact (Forall_inv U).
Qed.
Lemma X_eq : X = x_int a ++ x_mark a :: x_rest a ++ gap1 a ++ y a ++ gap2 a ++ z a ++ tail a ++ newline :: r.
Proof. unfold X, x. rewrite <- app_assoc. reflexivity. Qed.
Lemma at_x c : K4 c X = None.
Proof. rewrite X_eq. now apply (inside_x [] (x_int a)). Qed.
Lemma at_blank c : K4 c (blank a :: X) = None.
Proof.
  destruct Reg as (_ & _ & _ & _ & _ & _ & _ & _ & B & _). destruct x_all as (XF & XN & XI & M). unfold K4.
  change (m (Plus (Chr blank_digit)) (blank a :: X) c (fun s c => m it3 s c fin) = None). rewrite X_eq.
  rewrite plus_class; [|constructor; [now apply space_bd|eapply all_imp; [exact digit_bd|exact XI]]|now apply mark_bd].
  apply longest_none. intros u1 u2 E. apply triple_fail. destruct u2 as [|d u2]; [now apply mark_space|]. cbn. apply digit_no_space. rewrite E in XI. apply Forall_app in XI. destruct XI as [_ XI]. exact (Forall_inv XI).
Qed.
Lemma at_last c : exists c', Forall (fun e => fst e = 4) c' /\ K4 c (last a :: blank a :: X) = Some (tail a ++ newline :: r, (3, blank a :: x a ++ gap1 a ++ y a ++ gap2 a ++ z a) :: c' ++ c).
Proof.
  destruct Reg as (_ & _ & _ & _ & _ & _ & _ & L & B & _ & _ & _ & N1 & G1 & NY & Y & N2 & G2 & NZ & Z & _). destruct x_all as (XF & XN & XI & M). unfold K4.
  change (exists c', Forall (fun e => fst e = 4) c' /\ m (Plus (Chr blank_digit)) (last a :: blank a :: X) c (fun s c => m it3 s c fin) = Some (tail a ++ newline :: r, (3, blank a :: x a ++ gap1 a ++ y a ++ gap2 a ++ z a) :: c' ++ c)).
  rewrite X_eq. change (blank a :: x_int a ++ x_mark a :: x_rest a ++ gap1 a ++ y a ++ gap2 a ++ z a ++ tail a ++ newline :: r) with (([blank a] ++ x_int a) ++ x_mark a :: x_rest a ++ gap1 a ++ y a ++ gap2 a ++ z a ++ tail a ++ newline :: r).
  rewrite plus_class; [|constructor; [exact L|cbn [app]; constructor; [now apply space_bd|eapply all_imp; [exact digit_bd|exact XI]]]|now apply mark_bd].
  rewrite longest_app. rewrite longest_none.
  2: { intros u1 u2 E. apply triple_fail. destruct u2 as [|d u2]; [now apply mark_space|]. cbn. apply digit_no_space. rewrite E in XI. apply Forall_app in XI. destruct XI as [_ XI]. exact (Forall_inv XI). }
  cbn [orelse longest app].
  assert (F0 : m it3 (x_int a ++ x_mark a :: x_rest a ++ gap1 a ++ y a ++ gap2 a ++ z a ++ tail a ++ newline :: r) c fin = None).
  { apply triple_fail. destruct (x_int a) as [|d u] eqn:E; [now apply mark_space|]. cbn. apply digit_no_space. exact (Forall_inv XI). }
  rewrite F0. cbn [orelse]. rewrite <- X_eq. unfold X.
  destruct (triple_match (blank a) (x a) (gap1 a) (y a) (gap2 a) (z a) (tail a ++ newline :: r) c fin (fun c' => (tail a ++ newline :: r, (3, blank a :: x a ++ gap1 a ++ y a ++ gap2 a ++ z a) :: c' ++ c)))
    as (c' & C4 & E); auto using all_of, stop_tail. exists c'. split; [exact C4|exact E].
Qed.
Lemma atom_match : exists c, re_match atom_re (atom_text a ++ newline :: r) = Some (tail a ++ newline :: r, c) /\ group 2 c = Some (name a) /\
  group 3 c = Some (blank a :: x a ++ gap1 a ++ y a ++ gap2 a ++ z a).
Proof.
  pose proof Reg as (K & NS & S & NN & N & BW & SW & L & B & _). destruct x_all as (XF & XN & XI & M).
  set (c1 := [(2, name a); (1, record a)]). destruct (at_last c1) as (c' & C4 & E4). exists ((3, blank a :: x a ++ gap1 a ++ y a ++ gap2 a ++ z a) :: c' ++ c1).
  assert (E3 : m (Seq (Star (Chr blank_alnum)) (Seq (Plus (Chr blank_digit)) it3)) (between a ++ last a :: blank a :: X) c1 fin = Some (tail a ++ newline :: r, (3, blank a :: x a ++ gap1 a ++ y a ++ gap2 a ++ z a) :: c' ++ c1)).
  { change (m (Star (Chr blank_alnum)) (between a ++ last a :: blank a :: X) c1 (fun s c => K4 c s) = Some (tail a ++ newline :: r, (3, blank a :: x a ++ gap1 a ++ y a ++ gap2 a ++ z a) :: c' ++ c1)).
    rewrite X_eq. replace (between a ++ last a :: blank a :: x_int a ++ x_mark a :: x_rest a ++ gap1 a ++ y a ++ gap2 a ++ z a ++ tail a ++ newline :: r)
      with ((between a ++ [last a; blank a] ++ x_int a) ++ x_mark a :: x_rest a ++ gap1 a ++ y a ++ gap2 a ++ z a ++ tail a ++ newline :: r) by (rewrite <- !app_assoc; reflexivity).
    rewrite star_class; [| |now apply mark_ba].
    - rewrite longest_app, longest_app. rewrite (longest_none (x_int a)) by (intros u1 u2 E; exact (inside_x u1 u2 c1 E)). cbn [orelse].
      rewrite <- X_eq. cbn [longest app]. rewrite at_x, at_blank, E4. reflexivity.
    - apply Forall_app. split; [apply all_of, BW|]. constructor; [apply bd_ba, L|]. constructor; [apply bd_ba, space_bd, B|]. eapply all_imp; [exact digit_ba|exact XI]. }
  assert (E2 : m (Seq (Group 2 (Plus (Chr letter))) (Seq (Star (Chr blank_alnum)) (Seq (Plus (Chr blank_digit)) it3))) (name a ++ between a ++ last a :: blank a :: X) [(1, record a)] fin
     = Some (tail a ++ newline :: r, (3, blank a :: x a ++ gap1 a ++ y a ++ gap2 a ++ z a) :: c' ++ c1)).
  { set (T := name a ++ between a ++ last a :: blank a :: X).
    change (m (Plus (Chr letter)) T [(1, record a)] (fun s' c' => m (Seq (Star (Chr blank_alnum)) (Seq (Plus (Chr blank_digit)) it3)) s' ((2, firstn (length T - length s') T) :: c') fin)
     = Some (tail a ++ newline :: r, (3, blank a :: x a ++ gap1 a ++ y a ++ gap2 a ++ z a) :: c' ++ c1)).
    unfold T at 1. destruct (name a) as [|n0 n] eqn:En; [congruence|]. cbn [app]. rewrite plus_class; [|apply all_of, N|].
    - apply longest_some. unfold T. rewrite taken. exact E3.
    - apply stops_of in SW. destruct (between a); exact SW. }
  assert (E1 : m (Seq (Plus (Chr blank_digit)) (Seq (Group 2 (Plus (Chr letter))) (Seq (Star (Chr blank_alnum)) (Seq (Plus (Chr blank_digit)) it3)))) (serial a ++ name a ++ between a ++ last a :: blank a :: X) [(1, record a)] fin
     = Some (tail a ++ newline :: r, (3, blank a :: x a ++ gap1 a ++ y a ++ gap2 a ++ z a) :: c' ++ c1)).
  { destruct (serial a) as [|s0 ss] eqn:Es; [congruence|]. cbn [app].
    change (m (Plus (Chr blank_digit)) (s0 :: ss ++ name a ++ between a ++ last a :: blank a :: X) [(1, record a)] (fun s c => m (Seq (Group 2 (Plus (Chr letter))) (Seq (Star (Chr blank_alnum)) (Seq (Plus (Chr blank_digit)) it3))) s c fin)
     = Some (tail a ++ newline :: r, (3, blank a :: x a ++ gap1 a ++ y a ++ gap2 a ++ z a) :: c' ++ c1)).
    rewrite plus_class; [|apply all_of, S|].
    - apply longest_some. exact E2.
    - apply stops_app; [exact NN|]. apply (stops_first letter); auto using letter_no_bd, all_of. }
  split.
  - set (T := atom_text a ++ newline :: r).
    assert (ET : T = record a ++ serial a ++ name a ++ between a ++ last a :: blank a :: X) by (unfold T, atom_text, X; rewrite <- !app_assoc; reflexivity).
    set (F := fun s' c' => m (Seq (Plus (Chr blank_digit)) (Seq (Group 2 (Plus (Chr letter))) (Seq (Star (Chr blank_alnum)) (Seq (Plus (Chr blank_digit)) it3)))) s' ((1, firstn (length T - length s') T) :: c') fin).
    change (orelse (m (Lit ATOM) T [] F) (m (Lit HETATM) T [] F) = Some (tail a ++ newline :: r, (3, blank a :: x a ++ gap1 a ++ y a ++ gap2 a ++ z a) :: c' ++ c1)).
    assert (EF : F (serial a ++ name a ++ between a ++ last a :: blank a :: X) [] = Some (tail a ++ newline :: r, (3, blank a :: x a ++ gap1 a ++ y a ++ gap2 a ++ z a) :: c' ++ c1)).
    { unfold F. rewrite ET, taken. exact E1. }
    destruct K as [K|K].
    + assert (M1 : m (Lit ATOM) T [] F = F (serial a ++ name a ++ between a ++ last a :: blank a :: X) []) by (rewrite ET at 1; rewrite K; apply lit_match; discriminate).
      rewrite M1, EF. reflexivity.
    + assert (M1 : m (Lit HETATM) T [] F = F (serial a ++ name a ++ between a ++ last a :: blank a :: X) []) by (rewrite ET at 1; rewrite K; apply lit_match; discriminate).
      assert (M0 : m (Lit ATOM) T [] F = None) by (rewrite ET at 1; rewrite K; reflexivity). rewrite M0, M1. exact EF.
  - split; [|reflexivity]. unfold group. cbn [find fst Nat.eqb]. rewrite (find_skip c' c1) by exact C4. reflexivity.
Qed.
End Rec.
Lemma fourth_space a : regular a -> all is_space (gap1 a) /\ all is_space (gap2 a) /\ all float_char (x a) /\ all float_char (y a) /\ all float_char (z a) /\
  gap1 a <> [] /\ gap2 a <> [] /\ x a <> [] /\ y a <> [] /\ z a <> [] /\ is_space (blank a) = true.
Proof.
  intros R. destruct (x_all a R) as (XF & XN & _). destruct R as (_ & _ & _ & _ & _ & _ & _ & _ & B & _ & _ & _ & N1 & G1 & NY & Y & N2 & G2 & NZ & Z & _). repeat split; auto using all_of.
Qed.
Lemma plain_float q : all float_char q -> Forall (fun c => is_space c = false) q.
Proof. apply Forall_impl. exact float_no_space. Qed.
Lemma split_number g q t : all is_space g -> all float_char q -> q <> [] -> t = [] \/ (exists b t', t = b :: t' /\ is_space b = true) -> split_ws [] (g ++ q ++ t) = q :: split_ws [] t.
Proof.
  intros G Q NQ T. rewrite split_ws_blank by (apply Forall_forall; exact (proj1 (Forall_forall _ _) G)). destruct T as [-> |(b & t' & -> & Hb)].
  - rewrite app_nil_r. rewrite split_ws_last; [reflexivity|now apply plain_float|exact NQ].
  - rewrite split_ws_item; [|now apply plain_float|exact Hb|exact NQ]. cbn [app split_ws]. rewrite Hb. reflexivity.
Qed.
Lemma split_triple a : regular a -> split_ws [] (blank a :: x a ++ gap1 a ++ y a ++ gap2 a ++ z a) = [x a; y a; z a].
Proof.
  intros R. destruct (fourth_space a R) as (G1 & G2 & X & Y & Z & N1 & N2 & NX & NY & NZ & B).
  assert (H : forall g t, all is_space g -> g <> [] -> g ++ t = [] \/ (exists b t', g ++ t = b :: t' /\ is_space b = true)).
  { intros [|b g] t G N; [congruence|]. right. exists b, (g ++ t). split; [reflexivity|exact (Forall_inv G)]. }
  change (blank a :: x a ++ gap1 a ++ y a ++ gap2 a ++ z a) with ([blank a] ++ x a ++ gap1 a ++ y a ++ gap2 a ++ z a).
  rewrite split_number; auto; [|now repeat constructor]. f_equal. rewrite split_number; auto. f_equal.
  rewrite <- (app_nil_r (z a)). rewrite split_number; auto. now rewrite app_nil_r.
Qed.
(** The whole file. *)
Lemma file_match ls : Forall good ls -> forall fuel, length (file_text ls) < fuel ->
  map (fun c => (match group 2 c with Some n => n | None => [] end, match group 3 c with Some t => split_ws [] t | None => [] end)) (re_finditer fuel atom_re (file_text ls))
  = map (fun a => (name a, [x a; y a; z a])) (atoms ls).
Proof.
  induction 1 as [|l ls Hl _ IH]; intros fuel L.
  - destruct fuel; [lia|]. reflexivity.
  - unfold file_text in *. cbn [flat_map] in *. rewrite <- app_assoc in *. cbn [app] in *. destruct l as [a|t].
    + cbn [line_text good] in *. destruct (atom_match a (flat_map (fun l => line_text l ++ [newline]) ls) Hl) as (c & E & G2 & G3). destruct fuel as [|f]; [lia|].
      cbn [re_finditer]. rewrite E. cbn [map]. rewrite G2, G3, split_triple by exact Hl.
      unfold atoms. cbn [flat_map app map]. f_equal.
      destruct (quiet_skip (tail a) (flat_map (fun l => line_text l ++ [newline]) ls)) with (fuel := f) as (f' & L' & ->).
      * destruct Hl as (_ & _ & _ & _ & _ & _ & _ & _ & _ & _ & _ & _ & _ & _ & _ & _ & _ & _ & _ & _ & _ & T). exact T.
      * destruct Hl as (K & _). assert (0 < length (record a)) by (destruct K as [-> | ->]; cbn; lia). rewrite app_length in L. unfold atom_text in L. rewrite !app_length in L. rewrite app_length. cbn [length] in *. lia.
      * now apply IH.
    + cbn [line_text good] in *. destruct (quiet_skip t (flat_map (fun l => line_text l ++ [newline]) ls) Hl fuel L) as (f' & L' & ->). unfold atoms. cbn [flat_map app]. now apply IH.
Qed.
Lemma data_match ls : Forall good ls -> coords_data (file_text ls) = map (fun a => (name a, [x a; y a; z a])) (atoms ls).
Proof. intros H. unfold coords_data. apply file_match; [exact H|lia]. Qed.
(** The CRYST1 record. *)
Definition number_ok (gx : pstr * pstr) : Prop := fst gx <> [] /\ all is_space (fst gx) /\ snd gx <> [] /\ all float_char (snd gx).
Lemma numbers_match {A} l : forall s c (k : pstr -> caps -> option A) (V : A -> Prop), l <> [] -> Forall number_ok l -> stops float_char s ->
  (forall c', exists v, k s (c' ++ c) = Some v /\ V v) -> exists v, m (Times (length l) (Group 2 (Seq (Plus (Chr is_space)) float_re))) (numbers_text l ++ s) c k = Some v /\ V v.
Proof.
  induction l as [|[g q] l IH]; [congruence|]. intros s c k V _ F S H. pose proof (Forall_inv F) as (Ng & G & Nq & Q). cbn [fst snd] in *.
  assert (SQ : stops is_space q) by (apply (stops_first float_char); auto using float_no_space). unfold numbers_text. cbn [flat_map fst snd]. rewrite <- !app_assoc.
  destruct l as [|gx l].
  - destruct (H [(2, g ++ q)]) as (v & E & Hv). exists v. split; [|exact Hv]. cbn [length Times flat_map app]. apply item_match; auto.
  - set (L := gx :: l) in *. change (Times (length ((g, q) :: L)) (Group 2 (Seq (Plus (Chr is_space)) float_re))) with (Seq (Group 2 (Seq (Plus (Chr is_space)) float_re)) (Times (length L) (Group 2 (Seq (Plus (Chr is_space)) float_re)))).
    destruct (IH s ((2, g ++ q) :: c) k V ltac:(discriminate) (Forall_inv_tail F) S) as (v & E & Hv).
    { intros c'. destruct (H (c' ++ [(2, g ++ q)])) as (v & E & Hv). exists v. split; [|exact Hv]. rewrite <- app_assoc in E. exact E. }
    exists v. split; [|exact Hv].
    change (m (Group 2 (Seq (Plus (Chr is_space)) float_re)) (g ++ q ++ numbers_text L ++ s) c (fun s c => m (Times (length L) (Group 2 (Seq (Plus (Chr is_space)) float_re))) s c k) = Some v).
    apply item_match; auto. unfold L. destruct gx as [g2 q2]. pose proof (Forall_inv (Forall_inv_tail F)) as (N2 & G2 & _). cbn [fst snd] in *. unfold numbers_text. cbn [flat_map fst snd].
    rewrite <- !app_assoc. apply stops_app; [exact N2|]. apply (stops_first is_space); auto using space_no_float.
Qed.
Lemma split_numbers l : Forall number_ok l -> split_ws [] (numbers_text l) = map snd l.
Proof.
  induction 1 as [|[g q] l (Ng & G & Nq & Q) F IH]; [reflexivity|]. cbn [fst snd] in *. unfold numbers_text. cbn [flat_map fst snd map]. fold (numbers_text l). rewrite <- app_assoc.
  rewrite split_number; auto; [now rewrite IH|]. destruct F as [|[g2 q2] l (N2 & G2 & _)]; [now left|]. right. cbn [fst] in *. destruct g2 as [|b g2]; [congruence|].
  unfold numbers_text. cbn [flat_map fst snd app]. eexists _, _. split; [reflexivity|]. exact (Forall_inv G2).
Qed.
Lemma not_newline_split s : exists u t, s = u ++ t /\ all not_newline u /\ stops not_newline t.
Proof.
  induction s as [|c s (u & t & -> & U & T)]; [exists [], []; repeat split; constructor|]. destruct (not_newline c) eqn:E.
  - exists (c :: u), t. repeat split; [now constructor|exact T].
  - exists [], (c :: u ++ t). repeat split; [constructor|exact E].
Qed.
Lemma rest_match s c : exists t, m (Star (Chr not_newline)) s c (fun s c => Some (s, c)) = Some (t, c).
Proof.
  destruct (not_newline_split s) as (u & t & -> & U & T). exists t. rewrite star_class by assumption. now apply longest_some.
Qed.
Lemma cryst_match sp b q l s : all is_space sp -> sp <> [] -> length l = 5 -> Forall number_ok (([b], q) :: l) -> stops float_char s ->
  exists r, re_match cryst_re (CRYST1 ++ sp ++ numbers_text (([b], q) :: l) ++ s) = Some r /\ group 1 (snd r) = Some (numbers_text (([b], q) :: l)).
Proof.
  intros SP NS L F S. set (NT := numbers_text (([b], q) :: l)).
  set (it := Group 2 (Seq (Plus (Chr is_space)) float_re)). set (fin := fun (s : pstr) (c : caps) => Some (s, c)).
  set (K := fun T s' c' => m (Star (Chr not_newline)) s' ((1, firstn (length T - length s') T) :: c') fin).
  assert (E1 : exists r, m (Times 6 it) (NT ++ s) [] (K (NT ++ s)) = Some r /\ group 1 (snd r) = Some NT).
  { replace 6 with (length (([b], q) :: l)) by (cbn [length]; now rewrite L). apply (numbers_match (([b], q) :: l) s [] (K (NT ++ s)) (fun r => group 1 (snd r) = Some NT)); [discriminate|exact F|exact S|].
    intros c'. unfold K. rewrite taken. destruct (rest_match s ((1, NT) :: c' ++ [])) as (t & E). exists (t, (1, NT) :: c' ++ []). split; [exact E|reflexivity]. }
  destruct E1 as (r & E1 & G). exists r. split; [|exact G].
  unfold re_match, cryst_re.
  change (m (Lit (text "CRYST1")) (text "CRYST1" ++ sp ++ NT ++ s) [] (fun s c => m (Plus (Chr is_space)) s c (fun s c => m (Times 6 it) s c (K s))) = Some r).
  rewrite lit_match by discriminate. destruct sp as [|a sp]; [congruence|].
  unfold NT in *. unfold numbers_text in *. cbn [flat_map fst snd app] in *. fold (numbers_text l) in *.
  pose proof (Forall_inv F) as (_ & B & Nq & Q). cbn [fst snd] in *.
  replace (a :: sp ++ b :: (q ++ numbers_text l) ++ s) with (a :: (sp ++ [b]) ++ (q ++ numbers_text l) ++ s) by (rewrite <- app_assoc; reflexivity).
  assert (SQ : stops is_space ((q ++ numbers_text l) ++ s)) by (rewrite <- app_assoc; apply stops_app; [exact Nq|]; apply (stops_first float_char); auto using float_no_space).
  rewrite plus_class; [|constructor; [exact (Forall_inv SP)|apply Forall_app; split; [exact (Forall_inv_tail SP)|exact B]]|exact SQ].
  rewrite longest_app. cbn [longest].
  assert (Fl : m (Times 6 it) ((q ++ numbers_text l) ++ s) [] (K ((q ++ numbers_text l) ++ s)) = None).
  { set (T := (q ++ numbers_text l) ++ s) in *. change (m (Plus (Chr is_space)) T [] (fun s0 c0 => m float_re s0 c0 (fun s' c' => m (Times 5 it) s' ((2, firstn (length T - length s') T) :: c') (K T))) = None). now apply plus_fail. }
  rewrite Fl. cbn [orelse app]. rewrite E1. reflexivity.
Qed.
Lemma cryst_fail s : is_prefix CRYST1 s = false -> re_match cryst_re s = None.
Proof.
  intros H. unfold re_match, cryst_re.
  change (m (Lit (text "CRYST1")) s [] (fun s c => m (Seq (Plus (Chr is_space)) (Seq (Group 1 (Times 6 (Group 2 (Seq (Plus (Chr is_space)) float_re)))) (Star (Chr not_newline)))) s c (fun s c => Some (s, c))) = None).
  apply lit_fail; [discriminate|exact H].
Qed.
Lemma cryst_skip t r : ~ occurs CRYST1 t -> re_search cryst_re (t ++ newline :: r) = re_search cryst_re r.
Proof.
  induction t as [|c t IH]; intros Q.
  - cbn [app re_search]. now rewrite cryst_fail.
  - cbn [app re_search]. rewrite cryst_fail.
    + cbn [orelse]. apply IH. intros (u & v & ->). apply Q. exists (c :: u), v. reflexivity.
    + change (c :: t ++ newline :: r) with ((c :: t) ++ newline :: r). rewrite prefix_stop by (apply no_newline; auto).
      destruct (is_prefix CRYST1 (c :: t)) eqn:E; [|reflexivity]. exfalso. apply Q. apply is_prefix_spec in E. destruct E as (v & E). rewrite E. now exists [], v.
Qed.
Lemma cryst_none t : ~ occurs CRYST1 t -> re_search cryst_re t = None.
Proof.
  induction t as [|c t IH]; intros Q; [reflexivity|]. cbn [re_search]. rewrite cryst_fail.
  - apply IH. intros (u & v & ->). apply Q. exists (c :: u), v. reflexivity.
  - destruct (is_prefix CRYST1 (c :: t)) eqn:E; [|reflexivity]. exfalso. apply Q. apply is_prefix_spec in E. destruct E as (v & E). rewrite E. now exists [], v.
Qed.
Lemma search_here r s v : re_match r s = Some v -> re_search r s = Some v.
Proof. intros H. destruct s; cbn [re_search]; now rewrite H. Qed.
