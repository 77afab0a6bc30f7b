(** C92: convergence tables *)
From Coq Require Import Ascii String List Reals Lra Lia.
From Verif Require Import Comb ArrayIO ConvTable ConvTableSpec SpeciesProofs.
Import ListNotations.
Local Open Scope list_scope.
Local Open Scope R_scope.
Local Notation length := List.length.

Lemma next_length l : length (next_diff l) = length l.
Proof. induction l as [|a [|b t] IH]; [reflexivity|reflexivity|]. cbn [next_diff length] in *. now rewrite IH. Qed.
Lemma next_nth l : forall i, (i < length l)%nat -> nth i (next_diff l) 0 = step Next l i.
Proof.
  induction l as [|a [|b t] IH]; intros i L; cbn [length] in L; [lia| |].
  - assert (i = 0)%nat by lia. subst. reflexivity.
  - destruct i as [|i]; [reflexivity|]. cbn [next_diff nth]. rewrite IH by (cbn [length]; lia). unfold step. cbn [length]. change (nth (S (S i)) (a :: b :: t) 0) with (nth (S i) (b :: t) 0). change (nth (S i) (a :: b :: t) 0) with (nth i (b :: t) 0).
    destruct (Nat.ltb_spec (S i) (S (length t))), (Nat.ltb_spec (S (S i)) (S (S (length t)))); try lia; reflexivity.
Qed.
Lemma last_at (a : R) t : last t a = nth (length t) (a :: t) 0.
Proof. revert a. induction t as [|b t IH]; intros a; [reflexivity|]. change (last (b :: t) a) with (match t with [] => b | _ => last t a end). destruct t as [|c t]; [reflexivity|]. rewrite (IH a). reflexivity. Qed.
Lemma diff_spec m l : m <> Unknown -> l <> [] -> exists d, diff m l = Some d /\ length d = length l /\ forall i, (i < length l)%nat -> nth i d 0 = step m l i.
Proof.
  intros M N. destruct l as [|a t]; [contradiction|]. destruct m; [| |contradiction]; eexists; (split; [reflexivity|]).
  - split; [apply next_length|]. intros i L. now apply next_nth.
  - split; [now rewrite map_length|]. intros i L. rewrite (nth_indep _ 0 (last t a - 0)) by (rewrite map_length; exact L). rewrite (map_nth (fun y => last t a - y)). unfold step. rewrite last_at. cbn [length]. replace (S (length t) - 1)%nat with (length t) by lia. reflexivity.
Qed.
Lemma diff_none m l : diff m l = None <-> m = Unknown \/ l = [].
Proof. destruct l, m; cbn; split; intros H; try discriminate H; auto; destruct H; try discriminate; auto. Qed.
Section C92.
Variable X : Type.
Variable sfmt : X -> pstr.
Variable ffmt : R -> pstr.
Notation conv_table := (conv_table X sfmt ffmt).
Lemma columns_values yy n : values yy n -> columns yy = Some (params yy).
Proof.
  intros (P & N & H). destruct yy as [l|[|r rows]]; [reflexivity|now contradiction N|]. cbn in *. replace (forallb _ rows) with true; [reflexivity|]. symmetry. apply forallb_forall. intros q I. apply Nat.eqb_eq. rewrite (H q (or_intror I)), (H r (or_introl eq_refl)). reflexivity.
Qed.
Lemma columns_some yy cols : columns yy = Some cols -> exists n, cols <> [] /\ (forall l, In l cols -> length l = n) /\ (n <> 0%nat -> cols = params yy).
Proof.
  destruct yy as [l|[|r rows]]; cbn; intros E.
  - injection E as <-. exists (length l). split; [discriminate|]. split; [intros q [<-|[]]; reflexivity|reflexivity].
  - injection E as <-. exists 0%nat. split; [discriminate|]. split; [intros q [<-|[]]; reflexivity|]. intros N. now contradiction N.
  - destruct (forallb _ rows) eqn:F; [|discriminate E]. injection E as <-. exists (length r). split; [discriminate|]. split; [|reflexivity]. rewrite forallb_forall in F. intros q [<-|I]; [reflexivity|]. now apply Nat.eqb_eq, F.
Qed.
Lemma all_diffs m cols n : m <> Unknown -> (0 < n)%nat -> (forall l, In l cols -> length l = n) ->
  exists dyy, opt_map (diff m) cols = Some dyy /\ Forall2 (fun l d => length d = n /\ forall i, (i < n)%nat -> nth i d 0 = step m l i) cols dyy.
Proof.
  intros M P. induction cols as [|l cols IH]; intros H; [exists []; split; [reflexivity|constructor]|]. destruct IH as (dyy & E & F); [intros q I; apply H; now right|]. assert (L : length l = n) by (apply H; now left).
  destruct (diff_spec m l M) as (d & D & LD & ND); [intros ->; cbn in L; lia|]. exists (d :: dyy). cbn. rewrite D, E. split; [reflexivity|]. constructor; [|exact F]. rewrite L in *. auto.
Qed.
Lemma entries_spec orig absdiff m i n cols dyy : (i < n)%nat -> (forall l, In l cols -> length l = n) -> Forall2 (fun l d => length d = n /\ forall i, (i < n)%nat -> nth i d 0 = step m l i) cols dyy ->
  exists r, entries orig i (map (maybe_abs absdiff) dyy) cols = Some r /\ concat (map ffmt r) = concat (map (fun l => if orig then ffmt (shown m absdiff l i) ++ ffmt (nth i l 0) else ffmt (shown m absdiff l i)) cols).
Proof.
  intros L H F. induction F as [|l d cols dyy (LD & ND) F IH]; [exists []; split; reflexivity|]. destruct IH as (r & E & C); [intros q I; apply H; now right|]. assert (LL : length l = n) by (apply H; now left). cbn [map entries].
  assert (A : nth_error (maybe_abs absdiff d) i = Some (shown m absdiff l i)).
  { unfold maybe_abs, shown. rewrite <- (ND i L). destruct absdiff; [apply map_nth_error|]; apply nth_error_nth'; lia. }
  rewrite A, (nth_error_nth' l 0) by lia. rewrite E. eexists. split; [reflexivity|]. destruct orig; cbn; rewrite C; [now rewrite app_assoc|reflexivity].
Qed.
Lemma body_spec orig absdiff m n cols dyy : (forall l, In l cols -> length l = n) -> Forall2 (fun l d => length d = n /\ forall i, (i < n)%nat -> nth i d 0 = step m l i) cols dyy ->
  forall xx k, (k + length xx <= n)%nat -> body X sfmt ffmt orig k xx (map (maybe_abs absdiff) dyy) cols =
    Some (concat (map (fun p => row sfmt ffmt m orig absdiff cols (fst p) (snd p)) (combine xx (seq k (length xx))))).
Proof.
  intros H F. induction xx as [|x xx IH]; intros k L; [reflexivity|]. cbn [length] in L. cbn [body length seq combine map concat fst snd]. destruct (entries_spec orig absdiff m k n cols dyy) as (r & E & C); [lia|exact H|exact F|]. rewrite E, IH by lia. unfold line, row. now rewrite C.
Qed.
(** One line per entry of xx: the entry, then for each parameter the distance to the next or last
    value, with its value beside it if orig. *)
Theorem C92_table xx yy n m orig absdiff : m <> Unknown -> values yy n -> (length xx <= n)%nat ->
  conv_table xx yy m orig absdiff = Some (concat (map (fun p => row sfmt ffmt m orig absdiff (params yy) (fst p) (snd p)) (combine xx (seq 0 (length xx))))).
Proof.
  intros M V L. unfold ConvTable.conv_table. rewrite (columns_values yy n V). destruct V as (P & N & H). destruct (all_diffs m (params yy) n M P H) as (dyy & E & F). rewrite E. apply (body_spec orig absdiff m n); [exact H|exact F|lia].
Qed.
(** It raises exactly if the mode is unknown, there are no values, the parameters have different
    numbers of values, or fewer values than entries in xx. *)
Theorem C92_raises xx yy m orig absdiff : conv_table xx yy m orig absdiff = None <-> m = Unknown \/ ~ exists n, values yy n /\ (length xx <= n)%nat.
Proof.
  split.
  - intros E. destruct m; [right|right|now left]; intros (n & V & L); rewrite (C92_table xx yy n _ orig absdiff) in E; try discriminate; auto.
  - unfold ConvTable.conv_table. intros H. destruct (columns yy) as [cols|] eqn:C; [|reflexivity]. destruct (columns_some yy cols C) as (n & N & LN & PN). destruct H as [->|H].
    + destruct cols as [|l cols]; [contradiction|]. cbn. replace (diff Unknown l) with (@None (list R)) by (symmetry; apply diff_none; now left). reflexivity.
    + destruct (Nat.eq_dec n 0) as [->|NZ].
      * destruct cols as [|l cols]; [contradiction|]. cbn. replace (diff m l) with (@None (list R)); [reflexivity|]. symmetry. apply diff_none. right. apply length_zero_iff_nil, LN. now left.
      * destruct (opt_map (diff m) cols) as [dyy|] eqn:E; [|reflexivity]. assert (LX : (n < length xx)%nat).
        { destruct (le_lt_dec (length xx) n) as [LE|LT]; [|exact LT]. exfalso. apply H. exists n. split; [|exact LE]. split; [lia|]. rewrite <- (PN NZ). split; [exact N|exact LN]. }
        destruct cols as [|l cols]; [contradiction|]. cbn in E. destruct (diff m l) as [d|]; [|discriminate E]. destruct (opt_map (diff m) cols) as [ds|]; [|discriminate E]. injection E as <-.
        assert (LL := LN l (or_introl eq_refl)). clear - LL LX. cbn [map]. assert (G : forall xx k, (k <= n)%nat -> (n < k + length xx)%nat -> body X sfmt ffmt orig k xx (maybe_abs absdiff d :: map (maybe_abs absdiff) ds) (l :: cols) = None).
        { clear xx LX. induction xx as [|x xx IH]; intros k K L; cbn [length] in L; [lia|]. cbn [body]. destruct (Nat.eq_dec k n) as [->|NK].
          - cbn [entries]. replace (nth_error l n) with (@None R) by (symmetry; apply nth_error_None; lia). destruct (nth_error (maybe_abs absdiff d) n); reflexivity.
          - rewrite IH by lia. destruct (entries _ _ _ _); reflexivity. }
        apply G; lia.
Qed.
(** As many lines as entries in xx *)
Lemma newlines_app a b : newlines (a ++ b) = (newlines a + newlines b)%nat.
Proof. apply count_occ_app. Qed.
Theorem C92_lines xx yy n m orig absdiff st : (forall x, newlines (sfmt x) = 0%nat) -> (forall r, newlines (ffmt r) = 0%nat) -> values yy n -> conv_table xx yy m orig absdiff = Some st -> newlines st = length xx.
Proof.
  intros S0 F0 V E. destruct (le_lt_dec (length xx) n) as [L|L].
  2:{ exfalso. assert (Z : conv_table xx yy m orig absdiff = None); [|congruence]. apply C92_raises. right. intros (n' & (P & N & H) & L'). destruct V as (P2 & _ & H2). destruct (params yy) as [|l ps]; [contradiction|]. specialize (H l (or_introl eq_refl)). specialize (H2 l (or_introl eq_refl)). lia. }
  assert (M : m <> Unknown) by (intros ->; assert (Z : conv_table xx yy Unknown orig absdiff = None) by (apply C92_raises; now left); congruence).
  rewrite (C92_table xx yy n m orig absdiff M V L) in E. injection E as <-. clear L. generalize 0%nat. induction xx as [|x xx IH]; intros k; [reflexivity|]. cbn [length seq combine map concat fst snd]. rewrite newlines_app, IH. unfold row. rewrite !newlines_app, S0.
  assert (Z : forall ps, newlines (concat (map (fun l => if orig then ffmt (shown m absdiff l k) ++ ffmt (nth k l 0) else ffmt (shown m absdiff l k)) ps)) = 0%nat).
  { induction ps as [|l ps IHp]; [reflexivity|]. cbn [map concat]. rewrite newlines_app, IHp. destruct orig; rewrite ?newlines_app, !F0; reflexivity. }
  rewrite Z. reflexivity.
Qed.
(** A constant added to all values of a parameter changes nothing unless the values are printed. *)
Theorem C92_shift l c m absdiff xx : (length xx <= length l)%nat -> conv_table xx (One (map (fun y => y + c) l)) m false absdiff = conv_table xx (One l) m false absdiff.
Proof.
  intros L. assert (D : m = Unknown \/ m <> Unknown) by (destruct m; [right; discriminate|right; discriminate|now left]). destruct D as [->|M]; [destruct l; reflexivity|]. destruct l as [|a t]; [reflexivity|]. set (u := a :: t) in *.
  assert (V : values (One u) (length u)) by (split; [cbn; lia|split; [discriminate|intros q [<-|[]]; reflexivity]]).
  assert (V' : values (One (map (fun y => y + c) u)) (length u)) by (split; [cbn; lia|split; [discriminate|intros q [<-|[]]; apply map_length]]).
  rewrite (C92_table xx _ _ m false absdiff M V L), (C92_table xx _ _ m false absdiff M V' L). do 2 f_equal. apply map_ext_in. intros (x, i) I. cbn [fst snd]. apply in_combine_r, in_seq in I.
  assert (MN : forall k, (k < length u)%nat -> nth k (map (fun y => y + c) u) 0 = nth k u 0 + c) by (intros k K; rewrite (nth_indep _ 0 (0 + c)) by (rewrite map_length; exact K); apply (map_nth (fun y => y + c))).
  assert (E : step m (map (fun y => y + c) u) i = step m u i).
  { unfold step. rewrite map_length. destruct m; [| |contradiction].
    - destruct (Nat.ltb_spec (S i) (length u)); [|reflexivity]. rewrite !MN by lia. ring.
    - rewrite !MN by (unfold u in *; cbn [length] in *; lia). ring. }
  unfold row, shown. cbn [params map concat]. now rewrite E.
Qed.
End C92.
(** Steps of 'next' add up to those of 'last'. *)
Theorem C92_telescope l i : (i < length l)%nat -> step Last l i = rsum (fun k => step Next l (i + k)) (length l - i).
Proof.
  intros L. assert (G : forall n, (i + n < length l)%nat -> rsum (fun k => step Next l (i + k)) n = nth (i + n) l 0 - nth i l 0).
  { induction n as [|n IH]; intros H; cbn [rsum]; [rewrite Nat.add_0_r; ring|]. rewrite IH by lia. unfold step. destruct (Nat.ltb_spec (S (i + n)) (length l)); [|lia]. replace (i + S n)%nat with (S (i + n)) by lia. ring. }
  destruct (length l - i)%nat as [|n] eqn:E; [lia|]. cbn [rsum]. rewrite G by lia. unfold step. destruct (Nat.ltb_spec (S (i + n)) (length l)); [lia|]. replace (length l - 1)%nat with (i + n)%nat by lia. ring.
Qed.
(** The last value is its own limit: with as many values as lines the last line shows zero. *)
Theorem C92_last m absdiff l : l <> [] -> shown m absdiff l (length l - 1) = 0.
Proof.
  intros N. assert (E : step m l (length l - 1) = 0).
  { unfold step. destruct l as [|a l]; [contradiction|]. cbn [length]. destruct m; [|ring|]; (destruct (Nat.ltb_spec (S (S (length l) - 1)) (S (length l))); [lia|reflexivity]). }
  unfold shown. rewrite E. destruct absdiff; [apply Rabs_R0|reflexivity].
Qed.
Theorem C92_absolute m l i : 0 <= shown m true l i.
Proof. apply Rabs_pos. Qed.
(** With more values than entries in xx the differences refer to values which are not shown. *)
Theorem C92_hidden_refuted X (sfmt : X -> pstr) ffmt x a b : conv_table X sfmt ffmt [x] (One [a; b]) Last true false = Some (sfmt x ++ (ffmt (b - a) ++ ffmt a) ++ ["010"%char]).
Proof. cbn. unfold line. cbn. rewrite !app_nil_r. reflexivity. Qed.
(** The table of the documentation, with numbers shown by their integer part *)
Definition show_up (r : R) : pstr := " "%char :: show_int (up r - 1).
Example C92_case : values (Many [[-300; -310; -312]; [3; 2; 1]]) 3 /\ map (step Last [-300; -310; -312]) [0%nat; 1%nat; 2%nat] = [-312 - -300; -312 - -310; -312 - -312] /\
  conv_table pstr (fun x => x) show_up [text "2 2 2"%string; text "4 4 4"%string; text "8 8 8"%string] (Many [[-300; -310; -312]; [3; 2; 1]]) Last false false =
  Some (text "2 2 2"%string ++ show_up (-312 - -300) ++ show_up (1 - 3) ++ ["010"%char] ++ text "4 4 4"%string ++ show_up (-312 - -310) ++ show_up (1 - 2) ++ ["010"%char] ++ text "8 8 8"%string ++ show_up (-312 - -312) ++ show_up (1 - 1) ++ ["010"%char]).
Proof. split; [split; [lia|split; [discriminate|intros l [<-|[<-|[]]]; reflexivity]]|]. split; [reflexivity|]. unfold conv_table. cbn -[show_up text]. unfold line. cbn -[show_up text]. rewrite !app_nil_r. now rewrite <- !app_assoc. Qed.
Print Assumptions C92_table.
Print Assumptions C92_raises.
Print Assumptions C92_lines.
Print Assumptions C92_shift.
Print Assumptions C92_telescope.
Print Assumptions C92_last.
Print Assumptions C92_absolute.
Print Assumptions C92_hidden_refuted.
