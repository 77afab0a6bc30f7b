(** Proofs for C84. *)
From Coq Require Import Ascii String List Bool Arith ZArith QArith Lia.
From Flocq Require Import BinarySingleNaN.
From Verif Require Import Comb CombProofs ArrayIO ArrayIOProofs Decimal TextOut TextOutSpec TextOutProofs P_TextOut Species SpeciesSpec SpeciesProofs P_Species LammpsOutProofs PwIn PwInSpec.
Import ListNotations.
Local Open Scope list_scope.
Local Open Scope nat_scope.
Local Notation length := List.length.

(** ** Lines of the template *)
Lemma lines_nonempty t : lines t <> [].
Proof. induction t as [|c t IH]; [discriminate|]. cbn [lines]. destruct (Ascii.eqb c "010"); [discriminate|]. destruct (lines t); [congruence|discriminate]. Qed.
Lemma lines_app a b : lines (a ++ nl ++ b) = lines a ++ lines b.
Proof.
  induction a as [|c a IH]; [reflexivity|]. cbn [app lines]. rewrite IH. destruct (Ascii.eqb c "010"); [reflexivity|]. pose proof (lines_nonempty a). destruct (lines a); [congruence|reflexivity].
Qed.
Definition seg_val (env : string -> option pstr) (s : seg) : pstr := match s with T s => text s | F k => match env k with Some v => v | None => [] end end.
Definition seg_ok (env : string -> option pstr) (s : seg) : Prop := match s with T _ => True | F k => env k <> None end.
Lemma fill_val env l : Forall (seg_ok env) l -> fill env l = Some (concat (map (seg_val env) l)).
Proof. induction 1 as [|[s|k] l H F IH]; [reflexivity| |]; cbn [fill map concat seg_val]; rewrite IH; [reflexivity|]. cbn [seg_ok] in H. destruct (env k); [reflexivity|congruence]. Qed.
Lemma fill_lines_val env ls : Forall (Forall (seg_ok env)) ls -> exists t, fill_lines env ls = Some t /\ (ls <> [] -> lines t = concat (map (fun l => lines (concat (map (seg_val env) l))) ls)).
Proof.
  induction 1 as [|l ls H F IH]; [now exists []|]. destruct ls as [|l' ls].
  - exists (concat (map (seg_val env) l)). split; [now apply fill_val|]. intros _. cbn [map concat]. now rewrite app_nil_r.
  - destruct IH as (t & E & L). exists (concat (map (seg_val env) l) ++ nl ++ t). cbn [fill_lines] in E |- *. rewrite E, fill_val by exact H. split; [reflexivity|]. intros _. rewrite lines_app. rewrite L by discriminate. reflexivity.
Qed.
(** ** Lines between lines *)
Lemma after_skip title pre ls : ~ In (text title) pre -> after (text title) (pre ++ text title :: ls) = ls.
Proof.
  induction pre as [|l pre IH]; intros N; cbn [app after]; [destruct (list_eq_dec ascii_dec (text title) (text title)); [reflexivity|congruence]|].
  destruct (list_eq_dec ascii_dec l (text title)) as [E|E]; [exfalso; apply N; now left|]. apply IH. intros H. apply N. now right.
Qed.
Lemma upto_stop pre ls stop : ~ In stop pre -> upto stop (pre ++ stop :: ls) = pre.
Proof.
  induction pre as [|l pre IH]; intros N; cbn [app upto]; [destruct (list_eq_dec ascii_dec stop stop); [reflexivity|congruence]|].
  destruct (list_eq_dec ascii_dec l stop) as [E|E]; [exfalso; apply N; now left|]. f_equal. apply IH. intros H. apply N. now right.
Qed.
Lemma firstn_here {A} (a b : list A) n : length a = n -> firstn n (a ++ b) = a.
Proof. intros <-. rewrite firstn_app, Nat.sub_diag, firstn_all. cbn. apply app_nil_r. Qed.
(** ** Species *)
Lemma gap_tab : gap tab. Proof. split; [discriminate|]. split; [|intros H; repeat (destruct H as [H|H]; [discriminate|]); exact H]. intros c H. repeat (destruct H as [<- |H]; [reflexivity|]). destruct H. Qed.
Lemma species_text s m p : word s -> word m -> word p -> species_line (s ++ tab ++ m ++ tab ++ p) (s, (m, p)) /\ one_line (s ++ tab ++ m ++ tab ++ p).
Proof.
  intros S M P. split.
  - unfold species_line. cbn [fst snd]. change (s ++ tab ++ m ++ tab ++ p) with (join tab [s; m; p]). apply split_words; [apply gap_tab|]. apply Forall_cons; [exact S|]. apply Forall_cons; [exact M|]. apply Forall_cons; [exact P|apply Forall_nil].
  - apply one_app; [now apply word_line|]. apply one_app; [intros [H|[]]; discriminate H|]. apply one_app; [now apply word_line|]. apply one_app; [intros [H|[]]; discriminate H|now apply word_line].
Qed.
Lemma atspec_lines symbols mass ps : Forall word symbols -> Forall word mass -> Forall word ps -> length mass = length symbols -> length ps = length symbols -> symbols <> [] ->
  exists t, atspec_str symbols mass ps = Some t /\ Forall2 species_line (lines t) (combine symbols (combine mass ps)) /\ length (lines t) = length symbols.
Proof.
  intros S M P LM LP NE. unfold atspec_str. rewrite LM, LP, !Nat.eqb_refl. cbn [andb]. eexists. split; [reflexivity|].
  assert (FW : Forall (fun smp => word (fst smp) /\ word (fst (snd smp)) /\ word (snd (snd smp))) (combine symbols (combine mass ps))).
  { apply Forall_forall. intros [s [m p]] H. cbn [fst snd]. pose proof (in_combine_l _ _ _ _ H) as A. apply in_combine_r in H. pose proof (in_combine_l _ _ _ _ H) as B. apply in_combine_r in H. rewrite Forall_forall in S, M, P. auto. }
  assert (LC : length (combine symbols (combine mass ps)) = length symbols) by (rewrite !combine_length; lia).
  rewrite lines_join.
  - split; [|now rewrite map_length]. clear LC. induction FW as [|[s [m p]] l (A & B & C) F IH]; [constructor|]. cbn [map fst snd]. constructor; [|exact IH]. now apply species_text.
  - destruct (combine symbols (combine mass ps)); [destruct symbols; [congruence|discriminate LC]|discriminate].
  - apply Forall_forall. intros l H. apply in_map_iff in H as ([s [m p]] & <- & H). rewrite Forall_forall in FW. destruct (FW _ H) as (A & B & C). cbn [fst snd] in *. now apply species_text.
Qed.
(** ** k-points *)
Lemma ints_line z : integers (join (text " ") (map show_int z)) z /\ one_line (join (text " ") (map show_int z)).
Proof.
  assert (W : Forall word (map show_int z)) by (apply Forall_forall; intros w H; apply in_map_iff in H as (n & <- & _); apply show_word). split.
  - unfold integers. rewrite split_words by (apply gap_blank || exact W). clear W. induction z; constructor; [apply read_show|assumption].
  - apply one_join; [apply gap_blank|]. eapply Forall_impl; [|exact W]. intros w. apply word_line.
Qed.
Lemma zeros_after z : join (text " ") (map show_int z) ++ text " 0 0 0" = match z with [] => text " 0 0 0" | _ => join (text " ") (map show_int (z ++ [0; 0; 0]%Z)) end.
Proof.
  destruct z as [|a z]; [reflexivity|]. revert a. induction z as [|b z IH]; intros a; [reflexivity|]. specialize (IH b). cbn [map app] in IH |- *.
  change (join (text " ") (show_int a :: show_int b :: map show_int z)) with (show_int a ++ text " " ++ join (text " ") (show_int b :: map show_int z)).
  change (join (text " ") (show_int a :: show_int b :: map show_int (z ++ [0; 0; 0]%Z))) with (show_int a ++ text " " ++ join (text " ") (show_int b :: map show_int (z ++ [0; 0; 0]%Z))). rewrite <- IH. now rewrite <- !app_assoc.
Qed.
Lemma ints_zeros z : integers (join (text " ") (map show_int z) ++ text " 0 0 0") (z ++ [0; 0; 0]%Z) /\ one_line (join (text " ") (map show_int z) ++ text " 0 0 0").
Proof.
  rewrite zeros_after. destruct z as [|a z]; [|apply ints_line]. split; [unfold integers; vm_compute; repeat constructor|]. intros H. repeat (destruct H as [H|H]; [discriminate|]). exact H.
Qed.
(** ** Pseudopotentials *)
Lemma find_first (s p : pstr) l : find (fun q => is_prefix s q) l = Some p <-> first_with s p l.
Proof.
  induction l as [|q l IH]; cbn [find]; [split; [discriminate|intros ([|] & b & E & _); discriminate E]|]. destruct (is_prefix s q) eqn:P.
  - apply is_prefix_spec in P as [t ->]. split; [intros [= <-]; exists [], l; split; [reflexivity|]; split; [now exists t|]; intros ? ? []|].
    intros ([|x a] & b & E & _ & N); injection E as <- E; [reflexivity|]. exfalso. apply (N (s ++ t) t); [now left|reflexivity].
  - assert (NP : forall t, q <> s ++ t) by (intros t ->; assert (X : is_prefix s (s ++ t) = true) by (apply is_prefix_spec; eauto); congruence). rewrite IH. split; intros (a & b & E & T & N).
    + exists (q :: a), b. rewrite E. split; [reflexivity|]. split; [exact T|]. intros q' t [<- |H]; [apply NP|now apply N].
    + destruct a as [|x a]; injection E as <- E; [destruct T as [t T]; now apply NP in T|]. exists a, b. split; [exact E|]. split; [exact T|]. intros q' t H. apply N. now right.
Qed.
Lemma pick_all l u r : concat (map (pick l) u) = r -> length r = length u -> Forall2 (fun s p => first_with s p l) u r.
Proof.
  intros <-. assert (LE : forall v, length (concat (map (pick l) v)) <= length v).
  { induction v as [|s v IH]; [reflexivity|]. cbn [map concat]. rewrite app_length. assert (length (pick l s) <= 1) by (unfold pick; destruct (find _ l); cbn; lia). cbn [length]. lia. }
  induction u as [|s u IH]; intros L; [constructor|]. cbn [map concat] in *. rewrite app_length in L. specialize (LE u). unfold pick in *. destruct (find (fun p => is_prefix s p) l) as [p|] eqn:E; cbn [length app] in *; [|lia].
  constructor; [now apply find_first|]. apply IH. lia.
Qed.
Lemma pick_make l u r : Forall2 (fun s p => first_with s p l) u r -> concat (map (pick l) u) = r.
Proof. induction 1 as [|s p u r H F IH]; [reflexivity|]. cbn [map concat]. apply find_first in H. unfold pick at 1. rewrite H. cbn [app]. now rewrite IH. Qed.
(** Sorted symbols with their files in the same order. *)
Lemma not_before_prefix s s' f : symbol s -> symbol s' -> before s s' -> file_of s f -> forall t, f <> s' ++ t.
Proof.
  intros (c & u & -> & C & U) (c' & u' & -> & C' & U') B (d & r & -> & D) t E.
  destruct (Nat.lt_trichotomy (length u) (length u')) as [L|[L|L]].
  - cbn [app] in E. injection E as <- E. apply (f_equal (fun l => nth_error l (length u))) in E. rewrite nth_error_app2, Nat.sub_diag in E by lia. cbn [nth_error] in E. rewrite nth_error_app1 in E by lia. symmetry in E. apply nth_error_In, U' in E. congruence.
  - apply before_leb in B as [_ N]. apply N. cbn [app] in E. injection E as <- E. f_equal. apply (f_equal (firstn (length u))) in E. rewrite firstn_app, firstn_all, Nat.sub_diag in E. cbn [firstn] in E. rewrite L, firstn_app, firstn_all, Nat.sub_diag in E. cbn [firstn] in E. now rewrite !app_nil_r in E.
  - apply before_leb in B as [B N]. cbn [app] in E. injection E as <- E. assert (X : exists v, u = u' ++ v).
    { exists (skipn (length u') u). apply (f_equal (firstn (length u'))) in E. rewrite firstn_app in E. replace (length u' - length u) with 0 in E by lia. cbn [firstn] in E. rewrite firstn_app, firstn_all, Nat.sub_diag in E. cbn [firstn] in E. rewrite !app_nil_r in E. rewrite <- E at 1. now rewrite firstn_skipn. }
    destruct X as [v ->]. destruct v as [|x v]; [rewrite app_nil_r in L; lia|]. apply N. apply leb_antisym; [exact B|]. apply (proj1 (before_leb (c :: u') (c :: u' ++ x :: v) (or_introl (ex_intro _ x (ex_intro _ v eq_refl))))).
Qed.
Lemma own_files u fs : ascending u -> Forall symbol u -> Forall2 file_of u fs -> Forall2 (fun s p => first_with s p fs) u fs.
Proof.
  assert (G : forall u fs, ascending u -> Forall symbol u -> Forall2 file_of u fs -> forall prefs, (forall s f, In s u -> In f prefs -> forall t, f <> s ++ t) -> Forall2 (fun s p => first_with s p (prefs ++ fs)) u fs).
  { clear. intros u fs AS SY F. induction F as [|s f u fs H F IH]; intros prefs N; [constructor|]. destruct AS as [A AS]. inversion SY as [|? ? S SY']; subst. constructor.
    - exists prefs, fs. split; [reflexivity|]. split; [destruct H as (d & t & -> & _); eauto|]. intros q t Hq. apply (N s q); [now left|exact Hq].
    - replace (prefs ++ f :: fs) with ((prefs ++ [f]) ++ fs) by now rewrite <- app_assoc. apply IH; try assumption. intros s' f' Hs Hf t. apply in_app_or in Hf as [Hf|[<- |[]]]; [apply N; [now right|exact Hf]|].
      rewrite Forall_forall in SY'. exact (not_before_prefix s s' f S (SY' s' Hs) (A s' Hs) H t). }
  intros A S F. apply (G u fs A S F []). intros s f _ [].
Qed.
