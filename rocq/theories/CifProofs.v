From Coq Require Import Ascii String List Arith Bool Lia.
From Verif Require Import Comb ArrayIO Regex RegexProofs PdbProofs Cif CifSpec.
Import ListNotations.
Local Open Scope list_scope.
Local Notation length := List.length.

Lemma run_split (p : ascii -> bool) s : exists u t, s = u ++ t /\ all p u /\ stops p t.
Proof.
  induction s as [|c s (u & t & -> & U & T)]; [exists [], []; repeat split; constructor|]. destruct (p c) eqn:E.
  - exists (c :: u), t. repeat split; [now constructor|exact T].
  - exists [], (c :: u ++ t). repeat split; [constructor|exact E].
Qed.
Lemma run_unique (p : ascii -> bool) u t u' t' : u ++ t = u' ++ t' -> all p u -> all p u' -> stops p t -> stops p t' -> u = u' /\ t = t'.
Proof.
  revert u'. induction u as [|a u IH]; intros u' E U U' T T'.
  - destruct u' as [|b u']; [split; [reflexivity|exact E]|]. cbn in E. subst t. cbn in T. rewrite (Forall_inv U') in T. discriminate.
  - destruct u' as [|b u'].
    + cbn in E. subst t'. cbn in T'. rewrite (Forall_inv U) in T'. discriminate.
    + injection E as -> E. destruct (IH u' E (Forall_inv_tail U) (Forall_inv_tail U') T T') as [-> ->]. split; reflexivity.
Qed.
Lemma made_all p s : made_of p s <-> all p s.
Proof. unfold made_of, all. now rewrite Forall_forall. Qed.
Lemma stop_iff p s : (forall c r, s = c :: r -> p c = false) <-> stops p s.
Proof. destruct s as [|c s]; cbn; split; intros H; auto; [discriminate|exact (H c s eq_refl)|now intros ? ? [= <- <-]]. Qed.

(** Greedy star of a class with a continuation that always succeeds. *)
Lemma star_any {A} p s c (k : pstr -> caps -> option A) : exists u t, s = u ++ t /\ all p u /\ stops p t /\ m (Star (Chr p)) s c k = longest u t (fun s => k s c).
Proof. destruct (run_split p s) as (u & t & -> & U & T). exists u, t. repeat split; auto. now apply star_class. Qed.

Lemma symbol_match e rest : e <> [] -> all letter e -> stops letter rest -> first_group symbol_re (e ++ rest) = Some e.
Proof.
  intros NE E S. destruct e as [|a e]; [congruence|]. unfold first_group, re_match, symbol_re.
  set (k2 := fun s (c : caps) => Some (s, c)).
  assert (H : exists t c, m (Group 2 (Star (Chr (fun c => digit c || sign c)))) rest [(1, a :: e)] k2 = Some (t, (2, c) :: [(1, a :: e)])).
  { cbn [m]. change (exists t c, m (Star (Chr (fun c => digit c || sign c))) rest [(1, a :: e)] (fun s' c' => k2 s' ((2, firstn (length rest - length s') rest) :: c')) = Some (t, (2, c) :: [(1, a :: e)])).
    destruct (star_any (fun c => digit c || sign c) rest [(1, a :: e)] (fun s' c' => k2 s' ((2, firstn (length rest - length s') rest) :: c'))) as (u & t & -> & U & T & ->).
    exists t, u. apply longest_some. rewrite taken. reflexivity. }
  destruct H as (t & c & H).
  change (match m (Plus (Chr letter)) (a :: e ++ rest) [] (fun s' c' => m (Group 2 (Star (Chr (fun c => digit c || sign c)))) s' ((1, firstn (length (a :: e ++ rest) - length s') (a :: e ++ rest)) :: c') k2) with Some (_, c) => group 1 c | None => None end = Some (a :: e)).
  rewrite plus_class by assumption. rewrite (longest_some e rest _ (t, (2, c) :: [(1, a :: e)])); [reflexivity|].
  change (a :: e ++ rest) with ((a :: e) ++ rest). rewrite taken. exact H.
Qed.
Lemma symbol_fail t : stops letter t -> first_group symbol_re t = None.
Proof.
  intros S. unfold first_group, re_match, symbol_re. set (k := fun s (c : caps) => Some (s, c)).
  change (match m (Plus (Chr letter)) t [] (fun s' c' => m (Group 2 (Star (Chr (fun c => digit c || sign c)))) s' ((1, firstn (length t - length s') t) :: c') k) with Some (_, c) => group 1 c | None => None end = None).
  now rewrite plus_fail.
Qed.
Lemma symbol_iff t e : cif_clear_atom_symbol t = Some e <-> element t e.
Proof.
  unfold cif_clear_atom_symbol, element. destruct (run_split letter t) as (u & r & -> & U & S). destruct u as [|a u].
  - cbn [app]. rewrite symbol_fail by exact S. split; [discriminate|]. intros (NE & E & rest & -> & _). exfalso. destruct e as [|b e]; [congruence|]. cbn in S. rewrite (E b (or_introl eq_refl)) in S. discriminate.
  - rewrite symbol_match by (assumption || discriminate). split.
    + intros [= <-]. split; [discriminate|]. split; [now apply made_all|]. exists r. split; [reflexivity|now apply stop_iff].
    + intros (NE & E & rest & EQ & S'). apply made_all in E. apply stop_iff in S'. destruct (run_unique letter _ _ _ _ EQ U E S S') as [<- _]. reflexivity.
Qed.

Lemma bracket_match n rest : n <> [] -> all float_char n -> first_group bracket_re (n ++ "("%char :: rest) = Some n.
Proof.
  intros NE F. unfold first_group, re_match, bracket_re. set (T := n ++ "("%char :: rest).
  set (b2 := Group 2 (Seq (Chr (Ascii.eqb "(")) (Star (Chr (fun c => negb (Ascii.eqb c "010")))))). set (fin := fun s (c : caps) => Some (s, c)).
  assert (H : exists t c, m b2 ("("%char :: rest) [(1, n)] fin = Some (t, (2, c) :: [(1, n)])).
  { change (exists t c, m (Star (Chr (fun c => negb (Ascii.eqb c "010")))) rest [(1, n)] (fun s' c' => fin s' ((2, firstn (length ("("%char :: rest) - length s') ("("%char :: rest)) :: c')) = Some (t, (2, c) :: [(1, n)])).
    match goal with |- exists t c, m _ _ _ ?k = _ => destruct (star_any (fun c => negb (Ascii.eqb c "010")) rest [(1, n)] k) as (u & t & -> & U & S & ->) end.
    exists t. eexists. apply longest_some. reflexivity. }
  destruct H as (t & c & H).
  change (match m float_re T [] (fun s' c' => m b2 s' ((1, firstn (length T - length s') T) :: c') fin) with Some (_, c) => group 1 c | None => None end = Some n).
  unfold T. rewrite (float_match n ("("%char :: rest) [] _ (t, (2, c) :: [(1, n)])); [reflexivity|exact NE|exact F|reflexivity|]. rewrite taken. exact H.
Qed.
Lemma orelse_some {A} (x y : option A) v : orelse x y = Some v -> x = Some v \/ y = Some v.
Proof. destruct x; cbn; auto. Qed.
Lemma longest_inv {A} u s (f : pstr -> option A) v : longest u s f = Some v -> exists u1 u2, u = u1 ++ u2 /\ f (u2 ++ s) = Some v.
Proof.
  induction u as [|a u IH]; cbn [longest]; intros H; [exists [], []; split; [reflexivity|exact H]|]. apply orelse_some in H as [H|H].
  - destruct (IH H) as (u1 & u2 & -> & E). exists (a :: u1), u2. split; [reflexivity|exact E].
  - exists [], (a :: u). split; [reflexivity|exact H].
Qed.
Lemma star_inv {A} p s c (k : pstr -> caps -> option A) v : m (Star (Chr p)) s c k = Some v -> exists u t, s = u ++ t /\ all p u /\ k t c = Some v.
Proof.
  destruct (star_any p s c k) as (u & t & -> & U & T & ->). intros H. apply longest_inv in H as (u1 & u2 & -> & E). exists u1, (u2 ++ t). apply Forall_app in U as [U _]. repeat split; auto. now rewrite app_assoc.
Qed.
Lemma plus_inv {A} p s c (k : pstr -> caps -> option A) v : m (Plus (Chr p)) s c k = Some v -> exists u t, s = u ++ t /\ u <> [] /\ all p u /\ k t c = Some v.
Proof.
  destruct s as [|a s]; [discriminate|]. unfold Plus. change (m (Seq (Chr p) (Star (Chr p))) (a :: s) c k) with (if p a then m (Star (Chr p)) s c k else None). destruct (p a) eqn:E; [|discriminate].
  intros H. apply star_inv in H as (u & t & -> & U & H). exists (a :: u), t. repeat split; [discriminate|now constructor|exact H].
Qed.
Lemma float_inv {A} s c (k : pstr -> caps -> option A) v : m float_re s c k = Some v -> exists u t, s = u ++ t /\ u <> [] /\ all float_char u /\ k t c = Some v.
Proof.
  intros H. change (m (Star (Chr sign)) s c (fun s c => m (Plus (Chr float_char)) s c k) = Some v) in H. apply star_inv in H as (u & t & -> & U & H).
  apply plus_inv in H as (u' & t' & -> & NE & U' & H). exists (u ++ u'), t'. rewrite app_assoc. repeat split; [intros E; apply app_eq_nil in E as [_ E]; contradiction| |exact H].
  apply Forall_app. split; [|exact U']. revert U. apply Forall_impl. intros a Ha. unfold float_char. rewrite Ha. now rewrite orb_true_r.
Qed.
Lemma bracket_inv t n : first_group bracket_re t = Some n -> exists m rest, m <> [] /\ all float_char m /\ t = m ++ "("%char :: rest.
Proof.
  unfold first_group, re_match, bracket_re. set (b2 := Group 2 (Seq (Chr (Ascii.eqb "(")) (Star (Chr (fun c => negb (Ascii.eqb c "010")))))). set (fin := fun s (c : caps) => Some (s, c)).
  change (m (Seq (Group 1 float_re) b2) t [] fin) with (m float_re t [] (fun s' c' => m b2 s' ((1, firstn (length t - length s') t) :: c') fin)).
  destruct (m float_re t [] _) as [r|] eqn:E; [|discriminate]. intros _. apply float_inv in E as (u & s & -> & NE & U & H). destruct s as [|a s]; [discriminate|].
  unfold b2 in H. cbn [m] in H. destruct (Ascii.eqb "(" a) eqn:Ea; [|discriminate]. apply Ascii.eqb_eq in Ea. subst a. exists u, s. auto.
Qed.
Lemma open_not_float : float_char "(" = false. Proof. reflexivity. Qed.
Lemma in_bracket t : existsb (Ascii.eqb "(") t = true <-> In "("%char t.
Proof. rewrite existsb_exists. split; [intros (c & H & E); apply Ascii.eqb_eq in E; now subst|]. intros H. exists "("%char. split; [exact H|reflexivity]. Qed.
Lemma number_iff {A} (parse : pstr -> option A) t v : cif_str2float parse t = Some v <-> exists n, denotes t n /\ parse n = Some v.
Proof.
  unfold cif_str2float. destruct (existsb (Ascii.eqb "(") t) eqn:B.
  - apply in_bracket in B. destruct (first_group bracket_re t) as [n|] eqn:E.
    + destruct (bracket_inv t n E) as (n' & rest & NE & F & ->). rewrite bracket_match in E by assumption. injection E as <-. split.
      * intros H. exists n'. split; [|exact H]. right. split; [exact NE|]. split; [now apply made_all|]. now exists rest.
      * intros (n & [[_ N]|(N & M & r & EQ)] & H); [contradiction|]. apply made_all in M. destruct (run_unique float_char _ _ _ _ EQ F M) as [<- _]; [reflexivity|reflexivity|exact H].
    + split; [discriminate|]. intros (n & [[_ N]|(N & M & r & ->)] & H); [contradiction|]. apply made_all in M. rewrite bracket_match in E by assumption. discriminate.
  - split.
    + intros H. exists t. split; [|exact H]. left. split; [reflexivity|]. intros I. apply in_bracket in I. congruence.
    + intros (n & [[-> _]|(_ & _ & r & ->)] & H); [exact H|]. exfalso. assert (I : In "("%char (n ++ "("%char :: r)) by (apply in_or_app; right; now left). apply in_bracket in I. congruence.
Qed.
