From Coq Require Import Ascii String List Arith Bool Lia Reals.
From Verif Require Import Comb CombProofs Template TemplateProofs ArrayIO Grep GrepProofs Regex RegexProofs PdbProofs MatdynFreqProofs Lammps LammpsProofs PwOut PwOutSpec PwOutProofs Cp2k Cp2kProofs Modes ModesSpec.
Import ListNotations.
Local Open Scope list_scope.
Local Open Scope nat_scope.
Local Notation length := List.length.

(** ** What a match implies *)
Lemma orelse_some {A} (x y : option A) v : orelse x y = Some v -> x = Some v \/ (x = None /\ y = Some v).
Proof. destruct x; cbn; intros H; [now left|now right]. Qed.
Lemma m_suffix {A} r : forall s c (k : pstr -> caps -> option A) v, m r s c k = Some v -> exists u s' c', s = u ++ s' /\ k s' c' = Some v.
Proof.
  induction r as [p| |x IHx y IHy|x IHx y IHy|x IHx|n x IHx]; intros s c k v H.
  - destruct s as [|a s]; [discriminate H|]. cbn [m] in H. destruct (p a); [|discriminate H]. now exists [a], s, c.
  - now exists [], s, c.
  - rewrite seq_m in H. apply IHx in H as (u & s1 & c1 & -> & H). apply IHy in H as (u2 & s2 & c2 & -> & H). exists (u ++ u2), s2, c2. now rewrite app_assoc.
  - change (orelse (m x s c k) (m y s c k) = Some v) in H. apply orelse_some in H as [H|[_ H]]; [exact (IHx _ _ _ _ H)|exact (IHy _ _ _ _ H)].
  - rewrite star_loop in H. revert H. generalize (length s). intros fuel. revert s c. induction fuel as [|f IH]; intros s c H; cbn [loop] in H; apply orelse_some in H as [H|[_ H]]; try discriminate H; try (now exists [], s, c).
    apply IHx in H as (u & s1 & c1 & -> & H). destruct (length s1 <? length (u ++ s1)); [|discriminate H]. fold (loop x k) in H. apply IH in H as (u2 & s2 & c2 & -> & H). exists (u ++ u2), s2, c2. now rewrite app_assoc.
  - change (m x s c (fun s' c' => k s' ((n, firstn (length s - length s') s) :: c')) = Some v) in H. apply IHx in H as (u & s1 & c1 & -> & H). now exists u, s1, ((n, firstn (length (u ++ s1) - length s1) (u ++ s1)) :: c1).
Qed.
Lemma chr_inv {A} a s c (k : pstr -> caps -> option A) v : m (Lit [a]) s c k = Some v -> exists t, s = a :: t /\ k t c = Some v.
Proof. destruct s as [|b s]; cbn; [discriminate|]. destruct (Ascii.eqb_spec a b); [subst|discriminate]. intros H. now exists s. Qed.
Lemma any_chr_inv {A} x a r s c (k : pstr -> caps -> option A) v : m (Seq x (Seq (Lit [a]) r)) s c k = Some v -> exists u t c', s = u ++ a :: t /\ m r t c' k = Some v.
Proof. rewrite seq_m. intros H. apply m_suffix in H as (u & s' & c' & -> & H). rewrite seq_m in H. apply chr_inv in H as (t & -> & H). now exists u, t, c'. Qed.
(** .* stops at the last place where the rest matches *)
Lemma dots_unique {A} r p s c (k : pstr -> caps -> option A) v : m r s c k = Some v -> (forall u1 u2, u1 <> [] -> s = u1 ++ u2 -> m r u2 c k = None) -> m (Seq dots r) (p ++ s) c k = Some v.
Proof.
  intros H N. rewrite seq_m, dots_m, longest_app. replace (longest s [] (fun s => m r s c k)) with (Some v); [reflexivity|]. symmetry. destruct s as [|a s]; [exact H|]. cbn [longest]. rewrite longest_none; [cbn [orelse]; now rewrite app_nil_r|].
  intros u1 u2 E. rewrite app_nil_r. apply (N (a :: u1)); [discriminate|]. cbn [app]. now rewrite E.
Qed.
Lemma group_unique {A} n r t s c (k : pstr -> caps -> option A) v : m r s ((n, t) :: c) k = Some v -> (forall u1 u2 c', u1 <> [] -> s = u1 ++ u2 -> m r u2 c' k = None) -> m (Seq (Group n dots) r) (t ++ s) c k = Some v.
Proof.
  intros H N. change (m dots (t ++ s) c (fun s' c' => m r s' ((n, firstn (length (t ++ s) - length s') (t ++ s)) :: c') k) = Some v).
  rewrite dots_m, longest_app. set (f := fun s' => _). assert (F : f s = Some v) by (unfold f; now rewrite taken). replace (longest s [] f) with (Some v); [reflexivity|]. symmetry. destruct s as [|a s]; [exact F|]. cbn [longest]. rewrite longest_none; [cbn [orelse]; now rewrite app_nil_r|].
  intros u1 u2 E. rewrite app_nil_r. unfold f. apply (N (a :: u1)); [discriminate|]. cbn [app]. now rewrite E.
Qed.
Lemma group_end {A} n t c (k : pstr -> caps -> option A) v : k [] ((n, t) :: c) = Some v -> m (Group n dots) t c k = Some v.
Proof.
  intros H. change (m dots t c (fun s' c' => k s' ((n, firstn (length t - length s') t) :: c')) = Some v). rewrite dots_m. apply longest_some. cbn [length]. now rewrite Nat.sub_0_r, firstn_all.
Qed.
Lemma last_split (a : ascii) u t B T : u ++ a :: t = B ++ a :: T -> ~ In a B -> ~ In a T -> u = B /\ t = T.
Proof.
  revert B. induction u as [|x u IH]; intros [|b B] E NB NT; cbn [app] in E.
  - injection E as ->. now split.
  - exfalso. injection E as -> _. apply NB. now left.
  - exfalso. injection E as -> E. apply NT. rewrite <- E. apply in_or_app. right. now left.
  - injection E as -> E. destruct (IH B E) as [-> ->]; [intros I; apply NB; now right|exact NT|now split].
Qed.
Lemma sed_some r l t rest c : m r l [] (fun s c => Some (s, c)) = Some (rest, (1, t) :: c) -> sed_1 r l = t ++ rest.
Proof. intros H. unfold sed_1, re_match. now rewrite H. Qed.
Lemma trailing t b : all is_space b -> forall acc, split_ws acc (t ++ b) = split_ws acc t.
Proof.
  intros B. induction t as [|c t IH]; intros acc; cbn [app split_ws].
  - destruct acc as [|x acc]; [rewrite <- (app_nil_r b); now rewrite split_ws_blank|]. destruct b as [|c b]; [reflexivity|]. cbn [split_ws]. rewrite (Forall_inv B). f_equal. rewrite <- (app_nil_r b). rewrite split_ws_blank by exact (Forall_inv_tail B). reflexivity.
  - destruct (is_space c); [destruct acc; now rewrite IH|apply IH].
Qed.
Ltac noin := let I := fresh in intros I; repeat (apply in_app_or in I as [I|I]); try (cbn in I; intuition discriminate).
(** ** The lines *)
Lemma eq_gap (g T u1 u2 : pstr) (H : forall c, In c g -> c = " "%char) (NT : ~ In "="%char T) {A} r c (k : pstr -> caps -> option A) : u1 <> [] -> text "q" ++ g ++ text "=" ++ T = u1 ++ u2 ->
  m (Seq (Lit (text "q")) (Seq gap (Seq (Lit (text "=")) r))) u2 c k = None.
Proof.
  intros NE E. destruct (m _ u2 c k) eqn:M; [exfalso|reflexivity]. rewrite seq_m in M. apply chr_inv in M as (u3 & -> & M). apply any_chr_inv in M as (w & z & c' & -> & _).
  destruct u1 as [|x u1]; [congruence|]. injection E as _ E. change (g ++ "="%char :: T = u1 ++ "q"%char :: w ++ "="%char :: z) in E. replace (u1 ++ "q"%char :: w ++ "="%char :: z) with ((u1 ++ "q"%char :: w) ++ "="%char :: z) in E by (now rewrite <- app_assoc).
  symmetry in E. apply last_split in E as [E _]; [|intros I; now apply H in I|exact NT]. assert (I : In "q"%char g) by (rewrite <- E; apply in_or_app; right; now left). now apply H in I.
Qed.
Lemma sed_q p g t : (forall c, In c g -> c = " "%char) -> ~ In "="%char t -> sed_1 q_re (p ++ text "q" ++ g ++ text "=" ++ t) = t.
Proof.
  intros H NT. rewrite (sed_some q_re _ t [] []); [apply app_nil_r|]. unfold q_re. apply dots_unique; [|intros u1 u2 NE E; now apply (eq_gap g t u1 u2 H NT)].
  rewrite seq_m, lit_match by discriminate. rewrite seq_m. apply star_some; [now apply blank_space|reflexivity|]. rewrite seq_m, lit_match by discriminate. now apply group_end.
Qed.
Lemma sed_dq p g a t b : (forall c, In c (g ++ a ++ b) -> c = " "%char) -> without (text "=()") t -> sed_1 dq_re (p ++ text "q" ++ g ++ text "=" ++ a ++ text "(" ++ t ++ text ")" ++ b) = t ++ b.
Proof.
  intros H NT. assert (HG : forall c, In c g -> c = " "%char) by (intros c I; apply H, in_or_app; now left). assert (HA : forall c, In c a -> c = " "%char) by (intros c I; apply H, in_or_app; right; apply in_or_app; now left).
  assert (HB : forall c, In c b -> c = " "%char) by (intros c I; apply H, in_or_app; right; apply in_or_app; now right).
  apply (sed_some dq_re _ t b []). unfold dq_re. apply dots_unique.
  - rewrite seq_m, lit_match by discriminate. rewrite seq_m. apply star_some; [now apply blank_space|reflexivity|]. rewrite seq_m, lit_match by discriminate. apply dots_unique.
    + rewrite seq_m, lit_match by discriminate. apply group_unique; [rewrite lit_match by discriminate; reflexivity|].
      intros u1 u2 c' NE E. destruct (m _ u2 c' _) eqn:M; [exfalso|reflexivity]. apply chr_inv in M as (z & -> & _). destruct u1 as [|x u1]; [congruence|]. injection E as _ E. assert (I : In ")"%char b) by (rewrite E; apply in_or_app; right; now left). now apply HB in I.
    + intros u1 u2 NE E. destruct (m _ u2 [] _) eqn:M; [exfalso|reflexivity]. rewrite seq_m in M. apply chr_inv in M as (z & -> & _). destruct u1 as [|x u1]; [congruence|]. injection E as _ E.
      assert (I : In "("%char (t ++ text ")" ++ b)) by (change (text ")") with [")"%char]; cbn [app]; rewrite E; apply in_or_app; right; now left). apply in_app_or in I as [I|I]; [apply (NT "("%char); [cbn; tauto|exact I]|]. destruct I as [I|I]; [discriminate I|now apply HB in I].
  - intros u1 u2 NE E. apply (eq_gap g (a ++ text "(" ++ t ++ text ")" ++ b) u1 u2 HG); [|exact NE|exact E]. intros I. repeat (apply in_app_or in I as [I|I]); [now apply HA in I|cbn in I; intuition discriminate|apply (NT "="%char); [cbn; tauto|exact I]|cbn in I; intuition discriminate|now apply HB in I].
Qed.
Lemma sed_vec g t h : (forall c, In c (g ++ h) -> c = " "%char) -> sed_1 vec_re (g ++ text "(" ++ t ++ text ")" ++ h) = t ++ h.
Proof.
  intros H. assert (HG : forall c, In c g -> c = " "%char) by (intros c I; apply H, in_or_app; now left). assert (HH : forall c, In c h -> c = " "%char) by (intros c I; apply H, in_or_app; now right).
  apply (sed_some vec_re _ t h []). unfold vec_re. rewrite seq_m. apply star_some; [now apply blank_space|reflexivity|]. rewrite seq_m, lit_match by discriminate. apply group_unique; [rewrite lit_match by discriminate; reflexivity|].
  intros u1 u2 c' NE E. destruct (m _ u2 c' _) eqn:M; [exfalso|reflexivity]. apply chr_inv in M as (z & -> & _). destruct u1 as [|x u1]; [congruence|]. injection E as _ E. assert (I : In ")"%char h) by (rewrite E; apply in_or_app; right; now left). now apply HH in I.
Qed.
(** A suffix of a :: B ++ a :: T that begins with a, in which another a follows *)
Lemma sed_omega p i x u t v : without (text "o=[") (i ++ x ++ u ++ t ++ v) ->
  sed_1 omega_re (p ++ text "omega" ++ i ++ text "=" ++ x ++ text "[" ++ u ++ text "=" ++ t ++ text "[" ++ v) = t.
Proof.
  intros W. assert (NO : forall c s, In c (text "o=[") -> In s [i; x; u; t; v] -> ~ In c s).
  { intros c s C S1 I. apply (W c C). cbn in S1. destruct S1 as [<- |[<- |[<- |[<- |[<- |[]]]]]]; repeat (apply in_or_app; (now left) || right); try exact I. }
  assert (EQ : forall s, In s [i; x; u; t; v] -> ~ In "="%char s) by (intros s; apply NO; cbn; tauto). assert (BR : forall s, In s [i; x; u; t; v] -> ~ In "["%char s) by (intros s; apply NO; cbn; tauto). assert (OO : forall s, In s [i; x; u; t; v] -> ~ In "o"%char s) by (intros s; apply NO; cbn; tauto).
  rewrite (sed_some omega_re _ t [] []); [apply app_nil_r|]. unfold omega_re. apply dots_unique.
  - rewrite seq_m, lit_match by discriminate. apply dots_unique.
    + rewrite seq_m, lit_match by discriminate. apply dots_unique.
      * rewrite seq_m, lit_match by discriminate. apply dots_unique.
        -- rewrite seq_m, lit_match by discriminate. apply group_unique.
           ++ rewrite seq_m. apply (star_some is_space [] (text "[" ++ v)); [constructor|reflexivity|]. rewrite seq_m, lit_match by discriminate. rewrite dots_m. now apply longest_some.
           ++ intros u1 u2 c' NE E. destruct (m _ u2 c' _) eqn:M; [exfalso|reflexivity]. apply any_chr_inv in M as (w & z & c2 & -> & _). destruct u1 as [|y u1]; [congruence|]. injection E as _ E. apply (BR v); [cbn; tauto|]. rewrite E. apply in_or_app. right. apply in_or_app. right. now left.
        -- intros u1 u2 NE E. destruct (m _ u2 [] _) eqn:M; [exfalso|reflexivity]. rewrite seq_m in M. apply chr_inv in M as (z & -> & _). destruct u1 as [|y u1]; [congruence|]. injection E as _ E.
           assert (I : In "="%char (t ++ text "[" ++ v)) by (change (text "[") with ["["%char]; cbn [app]; rewrite E; apply in_or_app; right; now left). apply in_app_or in I as [I|[I|I]]; [|discriminate I|]; eapply EQ; try exact I; cbn; tauto.
      * intros u1 u2 NE E. destruct (m _ u2 [] _) eqn:M; [exfalso|reflexivity]. rewrite seq_m in M. apply chr_inv in M as (z & -> & M). apply any_chr_inv in M as (w & z2 & c' & -> & _). destruct u1 as [|y u1]; [congruence|]. injection E as _ E.
        change (u ++ "="%char :: t ++ "["%char :: v = u1 ++ "["%char :: w ++ "="%char :: z2) in E. replace (u ++ "="%char :: t ++ "["%char :: v) with ((u ++ "="%char :: t) ++ "["%char :: v) in E by (now rewrite <- app_assoc). symmetry in E. apply last_split in E as [_ E].
        -- apply (EQ v); [cbn; tauto|]. rewrite <- E. apply in_or_app. right. now left.
        -- intros I. apply in_app_or in I as [I|[I|I]]; [|discriminate I|]; eapply BR; try exact I; cbn; tauto.
        -- apply BR. cbn; tauto.
    + intros u1 u2 NE E. destruct (m _ u2 [] _) eqn:M; [exfalso|reflexivity]. rewrite seq_m in M. apply chr_inv in M as (z & -> & M). apply any_chr_inv in M as (w & z2 & c' & -> & M). apply any_chr_inv in M as (w2 & z3 & c2 & -> & _). destruct u1 as [|y u1]; [congruence|]. injection E as _ E.
      change (x ++ "["%char :: u ++ "="%char :: t ++ "["%char :: v = u1 ++ "="%char :: w ++ "["%char :: w2 ++ "="%char :: z3) in E. replace (x ++ "["%char :: u ++ "="%char :: t ++ "["%char :: v) with ((x ++ "["%char :: u) ++ "="%char :: t ++ "["%char :: v) in E by (now rewrite <- app_assoc). symmetry in E. apply last_split in E as [_ E].
      * assert (I : In "="%char (t ++ "["%char :: v)) by (rewrite <- E; apply in_or_app; right; right; apply in_or_app; right; now left). apply in_app_or in I as [I|[I|I]]; [|discriminate I|]; eapply EQ; try exact I; cbn; tauto.
      * intros I. apply in_app_or in I as [I|[I|I]]; [|discriminate I|]; eapply EQ; try exact I; cbn; tauto.
      * intros I. apply in_app_or in I as [I|[I|I]]; [|discriminate I|]; eapply EQ; try exact I; cbn; tauto.
  - intros u1 u2 NE E. destruct (m _ u2 [] _) eqn:M; [exfalso|reflexivity]. rewrite seq_m in M. destruct (is_prefix (text "omega") u2) eqn:P; [|now rewrite (lit_fail (text "omega")) in M by (discriminate || exact P)].
    apply prefix_in in P. destruct u1 as [|y u1]; [congruence|]. injection E as _ E. assert (I : In "o"%char (text "mega" ++ i ++ text "=" ++ x ++ text "[" ++ u ++ text "=" ++ t ++ text "[" ++ v)) by (change (text "mega" ++ i ++ text "=" ++ x ++ text "[" ++ u ++ text "=" ++ t ++ text "[" ++ v) with (text "mega" ++ (i ++ text "=" ++ x ++ text "[" ++ u ++ text "=" ++ t ++ text "[" ++ v)); cbn [app text list_ascii_of_string] in *; rewrite E; apply in_or_app; now right).
    repeat (apply in_app_or in I as [I|I]); try (cbn in I; intuition discriminate); eapply OO; try exact I; cbn; tauto.
Qed.
(** ** Which lines are found *)
Lemma assigns_iff l : q_line l = true <-> assigns_q l.
Proof.
  unfold q_line. rewrite order_iff. cbn [chain]. split.
  - intros (a & t & -> & b & c & -> & _). now exists a, b, c.
  - intros (a & b & c & ->). exists a, (b ++ text "=" ++ c). split; [reflexivity|]. now exists b, c.
Qed.
Lemma opens_iff l : vec_line l = true <-> opens l.
Proof.
  unfold vec_line. split.
  - intros H. destruct (eat_split l) as (g & G & E). destruct (eat_blanks l) as [|c t] eqn:F; [discriminate H|]. apply Ascii.eqb_eq in H as ->. exists g, t. now split.
  - intros (g & t & -> & G). rewrite (eat_all g (text "(" ++ t)) by (exact G || reflexivity). reflexivity.
Qed.
Lemma dq_is_q l : dq_line l = true -> q_line l = true.
Proof. intros H. apply order_iff in H as (a & t & -> & b & c & -> & _). apply assigns_iff. now exists a, b, c. Qed.
Lemma not_true b : b <> true -> b = false. Proof. now destruct b. Qed.
Lemma other_facts l : no_data l -> q_line l = false /\ vec_line l = false /\ omega_line l = false /\ dq_line l = false.
Proof.
  intros (A & B & C). assert (Q : q_line l = false) by (apply not_true; intros H; now apply A, assigns_iff). repeat split; [exact Q|apply not_true; intros H; now apply B, opens_iff|now apply no_text|].
  apply not_true. intros H. apply dq_is_q in H. congruence.
Qed.
Lemma q_facts paren l q : says_q paren l q -> q_line l = true /\ vec_line l = false /\ omega_line l = false /\ (paren = true -> dq_line l = true) /\ words (sed_1 (if paren then dq_re else q_re) l) = q.
Proof.
  intros (p & g & a & t & b & E & H & W & Q & NO & NW). assert (HG : forall c, In c g -> c = " "%char) by (intros c I; apply H, in_or_app; now left).
  split; [apply assigns_iff; exists p, g; destruct paren; eexists; exact E|]. split; [apply not_true; intros F; now apply NO, opens_iff|]. split; [now apply no_text|]. split.
  - intros ->. apply order_iff. exists p, (g ++ text "=" ++ a ++ text "(" ++ t ++ text ")" ++ b). split; [exact E|]. exists g, (a ++ text "(" ++ t ++ text ")" ++ b). split; [reflexivity|]. exists a, (t ++ text ")" ++ b). split; [reflexivity|exact I].
  - rewrite E. destruct paren.
    + rewrite sed_dq by assumption. unfold words. rewrite trailing; [exact Q|]. apply blank_space. intros c I. apply H, in_or_app. right. apply in_or_app. now right.
    + rewrite sed_q; [exact Q|exact HG|]. apply W. cbn. tauto.
Qed.
Lemma no_q l : ~ In "q"%char l -> q_line l = false.
Proof. intros N. apply not_true. intros H. apply assigns_iff in H as (a & b & c & ->). apply N. apply in_or_app. right. now left. Qed.
Lemma omega_facts l f : says_omega l f -> q_line l = false /\ vec_line l = false /\ omega_line l = true /\ dq_line l = false /\ words (sed_1 omega_re l) = [f].
Proof.
  intros (p & i & x & u & g & h & v & -> & H & NE & FS & W). assert (HP : forall c, In c p -> c = " "%char) by (intros c I; apply H, in_or_app; now left).
  assert (HG : forall c, In c g -> c = " "%char) by (intros c I; apply H, in_or_app; right; apply in_or_app; now left). assert (HH : forall c, In c h -> c = " "%char) by (intros c I; apply H, in_or_app; right; apply in_or_app; now right).
  assert (W2 : forall c, In c (text "oq=[") -> forall s, In s [i; x; u; f; v] -> ~ In c s).
  { intros c C s S1 I. apply (W c C). cbn in S1. destruct S1 as [<- |[<- |[<- |[<- |[<- |[]]]]]]; repeat (apply in_or_app; (now left) || right); try exact I. }
  assert (Q : q_line (p ++ text "omega" ++ i ++ text "=" ++ x ++ text "[" ++ u ++ text "=" ++ g ++ f ++ h ++ text "[" ++ v) = false).
  { apply no_q. intros I. repeat (apply in_app_or in I as [I|I]); try (now apply HP in I || now apply HG in I || now apply HH in I); try (cbn in I; intuition discriminate); revert I; apply W2; cbn; tauto. }
  split; [exact Q|]. split; [unfold vec_line; rewrite eat_all by (exact HP || reflexivity); reflexivity|]. split; [apply yes_text; eexists p, _; reflexivity|].
  split; [apply not_true; intros D; apply dq_is_q in D; congruence|].
  replace (g ++ f ++ h ++ text "[" ++ v) with ((g ++ f ++ h) ++ text "[" ++ v) by (now rewrite <- !app_assoc). rewrite sed_omega.
  - apply words_padded; [now apply blank_space|now apply blank_space|exact NE|]. apply Forall_forall. exact FS.
  - intros c C I. assert (C2 : In c (text "oq=[")) by (cbn in C |- *; tauto).
    assert (NB : forall s, (forall c, In c s -> c = " "%char) -> ~ In c s) by (intros s HS J; apply HS in J as ->; cbn in C; intuition discriminate).
    repeat (apply in_app_or in I as [I|I]); try (revert I; apply NB; assumption); revert I; apply (W2 c C2); cbn; tauto.
Qed.
Lemma vec_facts l v : says_vec l v -> q_line l = false /\ vec_line l = true /\ omega_line l = false /\ dq_line l = false /\ words (sed_1 vec_re l) = flat v.
Proof.
  intros (g & t & h & -> & H & W & L & E). assert (HG : forall c, In c g -> c = " "%char) by (intros c I; apply H, in_or_app; now left). assert (HH : forall c, In c h -> c = " "%char) by (intros c I; apply H, in_or_app; now right).
  assert (N : forall c, In c (text "oq=") -> ~ In c (g ++ text "(" ++ t ++ text ")" ++ h)).
  { intros c C I. assert (NB : forall s, (forall c, In c s -> c = " "%char) -> ~ In c s) by (intros s HS J; apply HS in J as ->; cbn in C; intuition discriminate).
    repeat (apply in_app_or in I as [I|I]); try (revert I; apply NB; assumption); try (cbn in I, C; intuition congruence). revert I. apply W. cbn in C |- *. tauto. }
  assert (Q : q_line (g ++ text "(" ++ t ++ text ")" ++ h) = false) by (apply no_q, N; cbn; tauto). split; [exact Q|]. split; [apply opens_iff; exists g, (t ++ text ")" ++ h); now split|].
  split; [apply contains_first, N; cbn; tauto|]. split; [apply not_true; intros D; apply dq_is_q in D; congruence|].
  rewrite sed_vec by exact H. unfold words. rewrite trailing by (now apply blank_space). exact E.
Qed.
Definition qs_of := flat_map (fun i => match i with IQ q => [q] | _ => [] end).
Definition freqs_of := flat_map (fun i => match i with IOmega f => [f] | _ => [] end).
Definition vecs_of := flat_map (fun i => match i with IVec v => [v] | _ => [] end).
Lemma listing_all paren is ls : listing paren is ls ->
  map (fun l => words (sed_1 (if paren then dq_re else q_re) l)) (List.filter (if paren then dq_line else q_line) ls) = qs_of is /\
  map (fun l => words (sed_1 vec_re l)) (List.filter vec_line ls) = map flat (vecs_of is) /\ List.filter vec_line (List.filter (fun l => negb (q_line l)) ls) = List.filter vec_line ls /\
  map (fun l => words (sed_1 omega_re l)) (List.filter omega_line ls) = map (fun f => [f]) (freqs_of is).
Proof.
  induction 1 as [|l is ls O _ (A & B & C & D)|l i is ls S1 _ (A & B & C & D)]; [destruct paren; repeat split| |].
  - destruct (other_facts l O) as (F1 & F2 & F3 & F4). cbn [List.filter]. rewrite F1, F2, F3. cbn [negb List.filter]. rewrite F2. replace ((if paren then dq_line else q_line) l) with false by (destruct paren; congruence). now repeat split.
  - destruct i as [q|f|v]; cbn [says] in S1; cbn [qs_of freqs_of vecs_of flat_map app].
    + destruct (q_facts paren l q S1) as (F1 & F2 & F3 & F4 & F5). cbn [List.filter]. rewrite F1, F2, F3. cbn [negb List.filter]. replace ((if paren then dq_line else q_line) l) with true by (destruct paren; [symmetry; now apply F4|congruence]). cbn [map]. rewrite F5, A. now repeat split.
    + destruct (omega_facts l f S1) as (F1 & F2 & F3 & F4 & F5). cbn [List.filter]. rewrite F1, F2, F3. cbn [negb List.filter map]. rewrite F2. replace ((if paren then dq_line else q_line) l) with false by (destruct paren; congruence). rewrite F5, D. now repeat split.
    + destruct (vec_facts l v S1) as (F1 & F2 & F3 & F4 & F5). cbn [List.filter]. rewrite F1, F2, F3. cbn [negb List.filter map]. rewrite F2. replace ((if paren then dq_line else q_line) l) with false by (destruct paren; congruence). cbn [map]. rewrite F5, B, C. now repeat split.
Qed.
Lemma vecs_three paren is ls : listing paren is ls -> Forall (fun v => length v = 3) (vecs_of is).
Proof. induction 1 as [|l is ls O _ IH|l i is ls S1 _ IH]; [constructor|exact IH|]. destruct i as [q|f|v]; cbn [vecs_of flat_map app]; [exact IH|exact IH|]. constructor; [|exact IH]. destruct S1 as (g & t & h & _ & _ & _ & L & _). exact L. Qed.
(** ** Numbers *)
Section NUM.
Variable parse : pstr -> option R.
Definition flat_v (v : list (R * R)) : list R := flat_map (fun z => [fst z; snd z]) v.
Lemma flat_reads v x : Forall2 (reads_c parse) v x -> reads1 parse (flat v) (flat_v x).
Proof. induction 1 as [|z y v x [A B] _ IH]; [constructor|]. cbn [flat flat_v flat_map app]. constructor; [exact A|]. now constructor. Qed.
Lemma complex_ok v : length v = 3 -> complex_row (flat_v v) = Some v.
Proof. destruct v as [|[a1 a2] [|[b1 b2] [|[c1 c2] [|]]]]; try discriminate. reflexivity. Qed.
Lemma complex_all vs : Forall (fun v => length v = 3) vs -> opt_map complex_row (map flat_v vs) = Some vs.
Proof. induction 1 as [|v vs L _ IH]; [reflexivity|]. cbn [map opt_map]. now rewrite (complex_ok v L), IH. Qed.
Lemma arr2_any n lines ts xs : n <> 0 -> ts <> [] -> map words lines = ts -> reads2 parse ts xs -> Forall (fun t => length t = n) ts -> arr2d_from_txt parse lines = Some (Some xs).
Proof. intros N NE E H F. unfold arr2d_from_txt. rewrite (blank_words lines ts n N NE E F). now rewrite (load_ok parse lines ts xs n N E H F). Qed.
Lemma vectors_ok lines vs xs : vs <> [] -> Forall (fun v => length v = 3) vs -> map (fun l => words (sed_1 vec_re l)) lines = map flat vs -> Forall2 (Forall2 (reads_c parse)) vs xs -> vectors parse lines = Some xs.
Proof.
  intros NE L E H. unfold vectors. rewrite (arr2_any 6 (map (sed_1 vec_re) lines) (map flat vs) (map flat_v xs)); [|discriminate|now destruct vs|now rewrite map_map| |].
  - apply complex_all. clear - L H. induction H as [|v x vs xs X _ IH]; [constructor|]. inversion L; subst. constructor; [rewrite <- (f2_len X); assumption|auto].
  - clear - H. induction H as [|v x vs xs X _ IH]; [constructor|]. constructor; [now apply flat_reads|exact IH].
  - apply Forall_forall. intros t I. apply in_map_iff in I as (v & <- & I). rewrite Forall_forall in L. specialize (L v I). destruct v as [|? [|? [|? [|]]]]; try discriminate L. reflexivity.
Qed.
Lemma words_read lines ts xs : map words lines = ts -> reads1 parse (concat ts) xs -> fromstring parse lines = Some xs.
Proof. intros E H. unfold fromstring. change (map (split_ws []) lines) with (map words lines). rewrite E. now apply opt_reads. Qed.
Lemma single_concat {A} (l : list A) : concat (map (fun f => [f]) l) = l.
Proof. induction l as [|a l IH]; [reflexivity|]. cbn. now rewrite IH. Qed.
Lemma freqs_ok paren is ls xs : listing paren is ls -> reads1 parse (freqs_of is) xs -> frequencies parse ls = Some xs.
Proof. intros L H. destruct (listing_all paren is ls L) as (_ & _ & _ & D). unfold frequencies. apply (words_read _ (map (fun f => [f]) (freqs_of is))); [rewrite map_map; exact D|]. now rewrite single_concat. Qed.
End NUM.
(** ** The items of a file *)
Lemma of_modes ms : qs_of (flat_map mode_items ms) = [] /\ freqs_of (flat_map mode_items ms) = map m_freq ms /\ vecs_of (flat_map mode_items ms) = concat (map m_vecs ms).
Proof.
  assert (V : forall vs, qs_of (map IVec vs) = [] /\ freqs_of (map IVec vs) = [] /\ vecs_of (map IVec vs) = vs) by (induction vs as [|v vs (A & B & C)]; [repeat split|]; cbn [map qs_of freqs_of vecs_of flat_map app] in *; now rewrite A, B, C).
  induction ms as [|x ms (A & B & C)]; [repeat split|]. cbn [flat_map map concat]. unfold qs_of, freqs_of, vecs_of in *. rewrite !flat_map_app, A, B, C. unfold mode_items. cbn [flat_map app]. destruct (V (m_vecs x)) as (-> & -> & ->). now repeat split.
Qed.
Lemma of_q q : qs_of (q_items q) = [q_coords q] /\ freqs_of (q_items q) = map m_freq (q_modes q) /\ vecs_of (q_items q) = concat (map m_vecs (q_modes q)).
Proof. unfold q_items. destruct (of_modes (q_modes q)) as (A & B & C). cbn [qs_of freqs_of vecs_of flat_map app] in *. now rewrite A, B, C. Qed.
Lemma of_qs qs : qs_of (flat_map q_items qs) = map q_coords qs /\ freqs_of (flat_map q_items qs) = concat (map (fun q => map m_freq (q_modes q)) qs) /\ vecs_of (flat_map q_items qs) = concat (map (fun q => concat (map m_vecs (q_modes q))) qs).
Proof.
  induction qs as [|q qs (A & B & C)]; [repeat split|]. cbn [flat_map map concat]. unfold qs_of, freqs_of, vecs_of in *. rewrite !flat_map_app, A, B, C. destruct (of_q q) as (D & E & F). unfold qs_of, freqs_of, vecs_of in D, E, F. rewrite D, E, F. now repeat split.
Qed.
Lemma of_star star is : qs_of (map IQ star ++ is) = star ++ qs_of is /\ freqs_of (map IQ star ++ is) = freqs_of is /\ vecs_of (map IQ star ++ is) = vecs_of is.
Proof. induction star as [|s star (A & B & C)]; [repeat split|]. cbn [map app qs_of freqs_of vecs_of flat_map] in *. now rewrite A, B, C. Qed.
