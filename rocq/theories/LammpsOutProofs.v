From Coq Require Import Ascii String List Bool Arith ZArith QArith Reals Lia Lra.
From Flocq Require Import BinarySingleNaN.
From Verif Require Import Comb CombProofs ArrayIO ArrayIOProofs Decimal DecimalProofs P_Decimal TextOut TextOutSpec TextOutProofs P_TextOut Species SpeciesSpec SpeciesProofs P_Species LammpsOut LammpsOutSpec.
Import ListNotations.
Local Open Scope list_scope.
Local Open Scope nat_scope.
Local Notation length := List.length.

Ltac literal := match goal with |- word _ => split; [discriminate|let x := fresh in let Hx := fresh in intros x Hx; repeat (destruct Hx as [<- |Hx]; [reflexivity|]); destruct Hx] | |- one_line _ => let I := fresh in intros I; repeat (destruct I as [I|I]; [discriminate|]); exact I end.
Lemma word_then w c t : word w -> is_space c = true -> split_ws [] (w ++ c :: t) = w :: split_ws [] t.
Proof. intros W C. rewrite split_ws_item; [reflexivity|now apply word_plain|exact C|exact (proj1 W)]. Qed.
Lemma word_blank w t : word w -> split_ws [] (w ++ text " " ++ t) = w :: split_ws [] t.
Proof. intros W. now apply (word_then w " "%char). Qed.
Lemma word_last w : word w -> split_ws [] w = [w].
Proof. intros W. apply split_ws_last; [now apply word_plain|exact (proj1 W)]. Qed.
Lemma blanks_then b t : (forall c, In c b -> is_space c = true) -> split_ws [] (b ++ t) = split_ws [] t.
Proof. intros B. apply split_ws_blank. apply Forall_forall. exact B. Qed.
Lemma pad_blank n c : In c (repeat " "%char n) -> is_space c = true.
Proof. intros H. apply repeat_spec in H. now subst. Qed.
Lemma row_padded row : row <> [] -> split_ws [] (join four (map fmt23 row)) = map (fmt_e 16) row.
Proof.
  intros NE. assert (W : forall v, word (fmt_e 16 v)) by (intros v; apply (fmt_prints 16 (le_n _))). induction row as [|v row IH]; [congruence|]. destruct row as [|v' row].
  - cbn [map join]. unfold fmt23. rewrite blanks_then by apply pad_blank. now apply word_last.
  - cbn [map] in *. change (join four (fmt23 v :: fmt23 v' :: map fmt23 row)) with (fmt23 v ++ four ++ join four (fmt23 v' :: map fmt23 row)). unfold fmt23 at 1. rewrite <- app_assoc.
    rewrite blanks_then by apply pad_blank. change four with (" "%char :: text "   "). cbn [app]. rewrite word_then; [|apply W|reflexivity]. f_equal.
    rewrite blanks_then by (intros c H; repeat (destruct H as [<- |H]; [reflexivity|]); destruct H). apply IH. discriminate.
Qed.
Lemma row_padded_line row : one_line (join four (map fmt23 row)).
Proof.
  apply one_join; [literal|]. apply Forall_forall. intros l H. apply in_map_iff in H as (v & <- & _). unfold fmt23. apply one_app; [intros I; apply repeat_spec in I; discriminate|]. apply word_line, (fmt_prints 16 (le_n _)).
Qed.
Definition atom_text (i t : nat) (row : list float64) : pstr := show_nat (i + 1) ++ text " " ++ show_nat t ++ text " " ++ join four (map (fun v => fmt23 (fixed eps13 v)) row).
Lemma atom_text_is i t row : row <> [] -> atom_is (atom_text i t row) (i + 1) t (map (fixed eps13) row) /\ one_line (atom_text i t row).
Proof.
  intros NE. unfold atom_text. rewrite <- (map_map (fixed eps13) fmt23). split.
  - exists (map (fmt_e 16) (map (fixed eps13) row)). split; [|apply row_numbers, (fmt_prints 16 (le_n _))]. unfold words. rewrite word_blank by apply show_word. rewrite word_blank by apply show_word. rewrite row_padded; [reflexivity|]. now destruct row.
  - repeat (apply one_app; [apply show_line || literal|]). apply row_padded_line.
Qed.
Lemma opt_map_map {A B C} (h : B -> C) (f : A -> option B) l : opt_map (fun a => option_map h (f a)) l = option_map (map h) (opt_map f l).
Proof. induction l as [|a l IH]; [reflexivity|]. cbn. rewrite IH. destruct (f a); cbn; [|reflexivity]. now destruct (opt_map f l). Qed.
Lemma combine_nth_error {A B} (l : list A) (r : list B) i a b : nth_error l i = Some a -> nth_error r i = Some b -> nth_error (combine l r) i = Some (a, b).
Proof. revert r i. induction l as [|x l IH]; intros [|y r] [|i]; cbn; try discriminate; [congruence|apply IH]. Qed.
Lemma enum_map {A B} (f : nat * A -> B) l k i : nth_error (map f (combine (seq k (length l)) l)) i = option_map (fun a => f (k + i, a)) (nth_error l i).
Proof.
  revert k i. induction l as [|a l IH]; intros k [|i]; cbn [length seq combine map nth_error option_map]; try reflexivity; [now rewrite Nat.add_0_r|]. rewrite IH. destruct (nth_error l i); [|reflexivity]. cbn. do 2 f_equal. now rewrite Nat.add_succ_r.
Qed.
(** The atoms, with their types. *)
Lemma atoms_text k symbols coords t : typat symbols = Some t -> length coords = length symbols ->
  opt_map (fun '(i, (s, row)) => option_map (fun q => show_nat (i + 1) ++ text " " ++ show_nat q ++ text " " ++ join four (map (fun v => fmt23 (fixed eps13 v)) row) ++ nl) (lookup (order symbols) s)) (combine (seq k (length symbols)) (combine symbols coords)) =
  Some (map (fun l => l ++ nl) (map (fun '(i, (q, row)) => atom_text i q row) (combine (seq k (length t)) (combine t coords)))).
Proof.
  unfold typat. generalize (order symbols) as d. intros d T. apply opt_map_forall in T. revert k coords. induction T as [|s n sy t E T IH]; intros k [|row coords] L; try discriminate L; [reflexivity|].
  cbn [length seq combine opt_map map]. rewrite E. cbn [option_map]. rewrite IH by (cbn in L; congruence). f_equal. f_equal. unfold atom_text. now rewrite <- !app_assoc.
Qed.
Lemma masses_text k g u ms : opt_map mass_of u = Some ms ->
  opt_map (fun '(i, s) => option_map (fun m => show_nat (i + 1) ++ text " " ++ g m ++ nl) (mass_of s)) (combine (seq k (length u)) u) =
  Some (map (fun l => l ++ nl) (map (fun '(i, m) => show_nat (i + 1) ++ text " " ++ g m) (combine (seq k (length ms)) ms))).
Proof.
  intros T. apply opt_map_forall in T. revert k. induction T as [|s n sy t E T IH]; intros k; [reflexivity|]. cbn [length seq combine opt_map map]. rewrite E. cbn [option_map]. rewrite IH. f_equal. f_equal. now rewrite <- !app_assoc.
Qed.
Lemma f2_length {A B} (P : A -> B -> Prop) l m : Forall2 P l m -> length l = length m.
Proof. induction 1; cbn; congruence. Qed.
Lemma struct_data head g14 g symbols x xy y xz yz z coords t ms :
  one_line head -> (forall v, word (g14 v)) -> (forall m, word (g m)) -> Forall (fun r => r <> []) coords -> length coords = length symbols ->
  typat symbols = Some t -> mass_unique symbols = Some ms ->
  exists txt, struct_str head g14 g symbols x xy y xz yz z coords = Some txt /\
    data_file (length symbols) (ntypat symbols) (g14 x) (g14 y) (g14 z) (g14 (fixed eps13 xy)) (g14 (fixed eps13 xz)) (g14 (fixed eps13 yz)) t (map (map (fixed eps13)) coords) (map g ms) (lines txt).
Proof.
  intros HL H14 Hg NR L T M. rewrite unique_masses in M. pose proof T as T2. unfold typat in T2. apply opt_map_forall, f2_length in T2. pose proof M as M2. apply opt_map_forall, f2_length in M2.
  unfold struct_str. rewrite (atoms_text 0 symbols coords t T L), (masses_text 0 g _ ms M), L, Nat.eqb_refl.
  set (atoms := map (fun '(i, (k, row)) => atom_text i k row) (combine (seq 0 (length t)) (combine t coords))). set (mss := map (fun '(i, m) => show_nat (i + 1) ++ text " " ++ g m) (combine (seq 0 (length ms)) ms)).
  assert (LC : length (combine t coords) = length t) by (rewrite combine_length; lia).
  assert (OA : Forall one_line atoms).
  { apply Forall_forall. intros l H. apply in_map_iff in H as ([i [k row]] & <- & H). apply in_combine_r in H. apply in_combine_r in H. rewrite Forall_forall in NR. apply atom_text_is. now apply NR. }
  assert (OM : Forall one_line mss).
  { apply Forall_forall. intros l H. apply in_map_iff in H as ([i m] & <- & H). repeat (apply one_app; [apply show_line || literal|]). apply word_line, Hg. }
  eexists. split; [reflexivity|].
  exists head, (show_nat (length symbols) ++ text " atoms"), (show_nat (length (symbols_unique symbols)) ++ text " atom types"), (text "0.0 " ++ g14 x ++ text " xlo xhi"), (text "0.0 " ++ g14 y ++ text " ylo yhi"), (text "0.0 " ++ g14 z ++ text " zlo zhi"),
    (join (text " ") (map (fun v => g14 (fixed eps13 v)) [xy; xz; yz]) ++ text " xy xz yz"), atoms, mss.
  assert (G14 : forall v, one_line (g14 v)) by (intros v; apply word_line, H14).
  split.
  { rewrite <- !app_assoc. rewrite lines_cons by exact HL. f_equal. change (nl ++ ?q) with ([] ++ nl ++ q). rewrite (lines_cons []) by literal. f_equal.
    rewrite (app_assoc (show_nat (length symbols))). rewrite lines_cons by (apply one_app; [apply show_line|literal]). f_equal.
    rewrite (app_assoc (show_nat (length (symbols_unique symbols)))). rewrite lines_cons by (apply one_app; [apply show_line|literal]). f_equal.
    change (nl ++ ?q) with ([] ++ nl ++ q). rewrite (lines_cons []) by literal. f_equal.
    rewrite (app_assoc (g14 x)), (app_assoc (text "0.0 ")). rewrite lines_cons by (apply one_app; [literal|apply one_app; [apply G14|literal]]). f_equal.
    rewrite (app_assoc (g14 y)), (app_assoc (text "0.0 ")). rewrite lines_cons by (apply one_app; [literal|apply one_app; [apply G14|literal]]). f_equal.
    rewrite (app_assoc (g14 z)), (app_assoc (text "0.0 ")). rewrite lines_cons by (apply one_app; [literal|apply one_app; [apply G14|literal]]). f_equal.
    rewrite (app_assoc (join _ _)). rewrite lines_cons by (apply one_app; [apply one_join; [literal|repeat constructor; apply G14]|literal]). f_equal.
    change (nl ++ text "Atoms" ++ ?q) with ([] ++ nl ++ text "Atoms" ++ q). rewrite (lines_cons []) by literal. f_equal. rewrite lines_cons by literal. f_equal. change (nl ++ concat ?a ++ ?q) with ([] ++ nl ++ concat a ++ q). rewrite (lines_cons []) by literal. f_equal.
    rewrite lines_many by exact OA. f_equal. change (nl ++ text "Masses" ++ ?q) with ([] ++ nl ++ text "Masses" ++ q). rewrite (lines_cons []) by literal. f_equal. rewrite lines_cons by literal. f_equal.
    change (nl ++ concat ?a) with ([] ++ nl ++ concat a). rewrite (lines_cons []) by literal. f_equal. rewrite <- (app_nil_r (concat _)). now rewrite lines_many by exact OM. }
  assert (BX : forall v a b, word a -> word b -> words (text "0.0 " ++ g14 v ++ text " " ++ a ++ text " " ++ b) = [text "0.0"; g14 v; a; b]).
  { intros v a b A B. unfold words. change (text "0.0 " ++ ?q) with (text "0.0" ++ text " " ++ q). rewrite word_blank by literal. rewrite word_blank by apply H14. rewrite word_blank by exact A. now rewrite word_last. }
  split. { unfold words. change (text " atoms") with (text " " ++ text "atoms"). rewrite word_blank by apply show_word. now rewrite word_last by literal. }
  split. { unfold words. change (text " atom types") with (text " " ++ text "atom" ++ text " " ++ text "types"). rewrite word_blank by apply show_word. rewrite word_blank by literal. now rewrite word_last by literal. }
  split. { apply (BX x (text "xlo") (text "xhi")); literal. } split. { apply (BX y (text "ylo") (text "yhi")); literal. } split. { apply (BX z (text "zlo") (text "zhi")); literal. }
  split. { cbn [map join]. unfold words. rewrite <- !app_assoc. rewrite !word_blank by apply H14. change (text " xy xz yz") with (text " " ++ text "xy xz yz"). rewrite word_blank by apply H14. reflexivity. }
  split. { unfold atoms. rewrite map_length, combine_length, seq_length. lia. }
  split; [congruence|]. split; [now rewrite map_length|]. split.
  { intros i l k row Hl Hk Hr. rewrite nth_error_map in Hr. destruct (nth_error coords i) as [r|] eqn:Er; [|discriminate]. injection Hr as <-.
    unfold atoms in Hl. rewrite <- LC in Hl. rewrite enum_map in Hl. rewrite (combine_nth_error t coords i k r Hk Er) in Hl. cbn [option_map Nat.add] in Hl. injection Hl as <-. apply atom_text_is.
    rewrite Forall_forall in NR. apply NR. eapply nth_error_In. exact Er. }
  split. { unfold mss, ntypat. rewrite map_length, combine_length, seq_length. lia. }
  split. { rewrite map_length. unfold ntypat. lia. }
  intros i l m Hl Hm. rewrite nth_error_map in Hm. destruct (nth_error ms i) as [w|] eqn:Em; [|discriminate]. injection Hm as <-. unfold mss in Hl. rewrite enum_map, Em in Hl. cbn [option_map Nat.add] in Hl.
  assert (E : l = show_nat (i + 1) ++ text " " ++ g w) by congruence. rewrite E. unfold words. rewrite word_blank by apply show_word. now rewrite word_last by apply Hg.
Qed.
