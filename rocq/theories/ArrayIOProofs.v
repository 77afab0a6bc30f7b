From Coq Require Import Ascii String List ZArith Bool Arith Lia DecimalString DecimalZ DecimalPos DecimalNat.
From Verif Require Import Comb CombProofs Traj TrajSpec TrajProofs Nd NdSpec NdProofs ArrayIO ArrayIOSpec.
Import ListNotations.
Local Open Scope list_scope.
Local Open Scope nat_scope.
Local Notation length := List.length.

(** ** Integers as text *)
Definition digitish (c : ascii) : Prop := is_space c = false /\ c <> "#"%char.
Lemma uint_chars d : Forall digitish (list_ascii_of_string (NilEmpty.string_of_uint d)).
Proof. induction d; cbn; constructor; try assumption; split; try reflexivity; discriminate. Qed.
Lemma nil_digits d : Forall digitish (list_ascii_of_string (NilZero.string_of_uint d)).
Proof. destruct d; try apply uint_chars. cbn. constructor; [split; [reflexivity|discriminate]|constructor]. Qed.
Lemma show_chars z : Forall digitish (show_int z).
Proof.
  unfold show_int, text. destruct (Z.to_int z); cbn; [apply nil_digits|]. constructor; [split; [reflexivity|discriminate]|apply nil_digits].
Qed.
Lemma show_nonempty z : show_int z <> [].
Proof. unfold show_int, text. destruct (Z.to_int z) as [d|d]; cbn; [|discriminate]. destruct d; cbn; discriminate. Qed.
Lemma read_show z : read_int (show_int z) = Some z.
Proof.
  unfold read_int, show_int, text. rewrite string_of_list_ascii_of_string. rewrite NilZero.isi.
  - rewrite DecimalZ.of_to. reflexivity.
  - destruct z; cbn; try discriminate. intros E. injection E as E. apply (f_equal Pos.of_uint) in E. rewrite DecimalPos.Unsigned.of_to in E. discriminate.
  - destruct z; cbn; try discriminate. intros E. injection E as E. apply (f_equal Pos.of_uint) in E. rewrite DecimalPos.Unsigned.of_to in E. discriminate.
Qed.
Lemma opt_map_all {A B} (f : A -> option B) (g : A -> B) l : (forall x, In x l -> f x = Some (g x)) -> opt_map f l = Some (map g l).
Proof. induction l as [|x l IH]; intros H; [reflexivity|]. cbn. rewrite H by (left; reflexivity). rewrite IH by (intros; apply H; right; assumption). reflexivity. Qed.

(** ** Words *)
Definition word (s : pstr) : Prop := s <> [] /\ Forall digitish s.
Lemma word_show z : word (show_int z). Proof. split; [apply show_nonempty|apply show_chars]. Qed.
Lemma split_words items : Forall word items -> split_ws [] (join (text " ") items) = items.
Proof.
  intros H. assert (E : str2seq (seq2str items [" "%char]) None = Some items).
  { apply str2seq_seq2str_default. eapply Forall_impl; [|exact H]. intros x [H1 H2]. split; [assumption|]. eapply Forall_impl; [|exact H2]. intros c [C _]. exact C. }
  injection E as E. exact E.
Qed.
Definition no_hash (s : pstr) : Prop := Forall (fun c => c <> hash) s.
Lemma join_no_hash items : Forall word items -> no_hash (join (text " ") items).
Proof.
  induction 1 as [|x xs [_ Hx] H IH]; [constructor|]. assert (X : no_hash x) by (eapply Forall_impl; [|exact Hx]; intros c [_ C]; exact C).
  destruct xs as [|y ys]; [exact X|]. cbn [join]. apply Forall_app; split; [exact X|]. apply Forall_app; split; [|exact IH].
  constructor; [discriminate|constructor].
Qed.
Lemma cut_none s : no_hash s -> cut_at (Ascii.eqb hash) s = None.
Proof. induction 1 as [|c s H1 H2 IH]; [reflexivity|]. cbn [cut_at]. destruct (Ascii.eqb_spec hash c); [congruence|]. rewrite IH. reflexivity. Qed.
Lemma uncomment_words items : Forall word items -> split_ws [] (uncomment (join (text " ") items)) = items.
Proof. intros H. unfold uncomment. rewrite cut_none by (apply join_no_hash; assumption). apply split_words. assumption. Qed.

(** ** strip *)
Definition ends_solid (s : pstr) : Prop := (forall c, hd_error s = Some c -> is_space c = false) /\ (forall c, hd_error (rev s) = Some c -> is_space c = false).
Lemma lstrip_solid s : (forall c, hd_error s = Some c -> is_space c = false) -> lstrip s = s.
Proof. destruct s as [|c s]; [reflexivity|]. intros H. cbn. rewrite (H c eq_refl). reflexivity. Qed.
Lemma strip_solid s : ends_solid s -> strip s = s.
Proof. intros [H1 H2]. unfold strip. rewrite (lstrip_solid s H1), (lstrip_solid (rev s) H2). apply rev_involutive. Qed.
Lemma hd_error_app {B} (a b : list B) : a <> [] -> hd_error (a ++ b) = hd_error a.
Proof. destruct a; [congruence|reflexivity]. Qed.
Lemma solid_app a b : a <> [] -> b <> [] -> (forall c, hd_error a = Some c -> is_space c = false) ->
  (forall c, hd_error (rev b) = Some c -> is_space c = false) -> ends_solid (a ++ b).
Proof.
  intros A B H1 H2. split; [rewrite hd_error_app by assumption; exact H1|]. rewrite rev_app_distr, hd_error_app; [exact H2|].
  intros E. apply B. rewrite <- (rev_involutive b), E. reflexivity.
Qed.
Lemma word_ends s : word s -> ends_solid s.
Proof.
  intros [_ H]. split; intros c E.
  - destruct s; [discriminate|]. injection E as <-. inversion H as [|? ? [Hx _] ?]. exact Hx.
  - assert (I : In c s). { apply in_rev. destruct (rev s); [discriminate|]. injection E as <-. left; reflexivity. }
    rewrite Forall_forall in H. apply H in I. apply I.
Qed.
Lemma join_nonempty items : items <> [] -> Forall word items -> join (text " ") items <> [].
Proof.
  intros NE H. destruct H as [|x xs [Hx _] H]; [congruence|]. destruct xs; [exact Hx|]. cbn [join]. destruct x; [congruence|discriminate].
Qed.
Lemma join_cons x y ys : join (text " ") (x :: y :: ys) = x ++ (" "%char :: join (text " ") (y :: ys)).
Proof. reflexivity. Qed.
Lemma join_ends items : Forall word items -> ends_solid (join (text " ") items).
Proof.
  induction 1 as [|x xs Hx H IH]; [split; discriminate|]. destruct xs as [|y ys]; [apply word_ends; exact Hx|].
  rewrite join_cons. pose proof (join_nonempty (y :: ys) ltac:(discriminate) H) as NE. set (J := join (text " ") (y :: ys)) in *.
  apply solid_app; [apply Hx|discriminate|apply word_ends; exact Hx|]. cbn [rev]. rewrite hd_error_app; [apply IH|].
  intros E. apply NE. rewrite <- (rev_involutive J), E. reflexivity.
Qed.

(** ** The header *)
Lemma filter_no_hash s : no_hash s -> List.filter (fun c => negb (Ascii.eqb c hash)) s = s.
Proof. induction 1 as [|c s H1 H2 IH]; [reflexivity|]. cbn [List.filter]. destruct (Ascii.eqb_spec c hash); [contradiction|]. cbn. rewrite IH. reflexivity. Qed.
Lemma config_header V W : config_loop [text "[array]"; text "shape = " ++ V; text "axis = " ++ W; []] None [] =
  Some [(text "array", None); (text "array", Some (text "shape", strip (" "%char :: V))); (text "array", Some (text "axis", strip (" "%char :: W)))].
Proof. reflexivity. Qed.
Lemma strip_blank s : ends_solid s -> strip (" "%char :: s) = s.
Proof. intros H. unfold strip. cbn [lstrip is_space]. change (is_space " "%char) with true. cbv iota. exact (strip_solid s H). Qed.

(** a line of data: some text, not commented out *)
Definition data_line (l : pstr) : Prop := commented (strip l) = false /\ strip l <> [].
Lemma data_words items : items <> [] -> Forall word items -> data_line (join (text " ") items).
Proof.
  intros NE H. unfold data_line. rewrite strip_solid by (apply join_ends; assumption). split; [|apply join_nonempty; assumption].
  pose proof (join_no_hash items H) as N. destruct (join (text " ") items); [reflexivity|]. cbn. inversion N; subst. destruct (Ascii.eqb_spec a hash); [contradiction|reflexivity].
Qed.
Definition empty_line (l : pstr) : Prop := l = [].

Section Header.
Variables (sh : list nat) (axis : Z).
Hypothesis NE : sh <> [].
Let V := seq2str (map (fun n => show_int (Z.of_nat n)) sh) (text " ").
Let Vw : Forall word (map (fun n => show_int (Z.of_nat n)) sh).
Proof. apply Forall_forall. intros x H. apply in_map_iff in H. destruct H as (n & <- & _). apply word_show. Qed.
Let Vn : map (fun n => show_int (Z.of_nat n)) sh <> []. Proof. destruct sh; [congruence|discriminate]. Qed.

Lemma header_stripped : map strip (header_lines sh axis) = [text "# [array]"; text "# shape = " ++ V; text "# axis = " ++ show_int axis; text "#"].
Proof.
  unfold header_lines. cbn [map]. fold V. rewrite (strip_solid (text "# shape = " ++ V)), (strip_solid (text "# axis = " ++ show_int axis)); [reflexivity| |].
  - apply solid_app; [discriminate|apply show_nonempty|intros c E; injection E as <-; reflexivity|apply word_ends, word_show].
  - apply solid_app; [discriminate|apply join_nonempty; assumption|intros c E; injection E as <-; reflexivity|apply join_ends; assumption].
Qed.
Lemma read_header_lines data : Forall (fun l => data_line l \/ empty_line l) data ->
  exists cfg, read_header (header_lines sh axis ++ data) = Some cfg /\
    config_get cfg (text "array") (text "shape") = Some V /\ config_get cfg (text "array") (text "axis") = Some (show_int axis).
Proof.
  intros D. assert (NC : forall l, In l data -> commented (strip l) = false).
  { intros l H. rewrite Forall_forall in D. destruct (D l H) as [[H1 _]| ->]; [exact H1|reflexivity]. }
  unfold read_header. replace (nth_error (header_lines sh axis ++ data) maxlines) with (nth_error data 16) by reflexivity.
  assert (C1 : match nth_error data 16 with Some l => commented (strip l) | None => false end = false).
  { destruct (nth_error data 16) eqn:E; [|reflexivity]. apply NC. eapply nth_error_In. exact E. }
  rewrite C1. replace (firstn maxlines (header_lines sh axis ++ data)) with (header_lines sh axis ++ firstn 16 data) by reflexivity.
  rewrite map_app, header_stripped, filter_app.
  replace (List.filter commented (map strip (firstn 16 data))) with (@nil pstr).
  2:{ symmetry. assert (F : forall l, In l (firstn 16 data) -> In l data) by (intros l H; rewrite <- (firstn_skipn 16 data); apply in_or_app; left; exact H).
      induction (firstn 16 data) as [|l r IH]; [reflexivity|]. cbn [map List.filter]. rewrite NC by (apply F; left; reflexivity). apply IH. intros; apply F; right; assumption. }
  rewrite app_nil_r.
  assert (FC : forall a b c d : pstr, List.filter commented ["#"%char :: a; "#"%char :: b; "#"%char :: c; "#"%char :: d] = ["#"%char :: a; "#"%char :: b; "#"%char :: c; "#"%char :: d]) by reflexivity.
  change (List.filter commented [text "# [array]"; text "# shape = " ++ V; text "# axis = " ++ show_int axis; text "#"]) with
    (List.filter commented ["#"%char :: text " [array]"; "#"%char :: (text " shape = " ++ V); "#"%char :: (text " axis = " ++ show_int axis); "#"%char :: []]).
  rewrite FC. cbn [map].
  assert (HH : forall x, List.filter (fun c => negb (Ascii.eqb c hash)) ("#"%char :: x) = List.filter (fun c => negb (Ascii.eqb c hash)) x) by reflexivity.
  rewrite !HH. rewrite (filter_no_hash (text " shape = " ++ V)), (filter_no_hash (text " axis = " ++ show_int axis)).
  2:{ apply Forall_app; split; [repeat constructor; discriminate|]. eapply Forall_impl; [|apply show_chars]. intros c [_ C]; exact C. }
  2:{ apply Forall_app; split; [repeat constructor; discriminate|]. apply join_no_hash. exact Vw. }
  change (text " shape = " ++ V) with (" "%char :: (text "shape = " ++ V)). change (text " axis = " ++ show_int axis) with (" "%char :: (text "axis = " ++ show_int axis)).
  rewrite (strip_blank (text "shape = " ++ V)), (strip_blank (text "axis = " ++ show_int axis)).
  2:{ apply solid_app; [discriminate|apply show_nonempty|intros c E; injection E as <-; reflexivity|apply word_ends, word_show]. }
  2:{ apply solid_app; [discriminate|apply join_nonempty; assumption|intros c E; injection E as <-; reflexivity|apply join_ends; assumption]. }
  change (strip (List.filter (fun c => negb (Ascii.eqb c hash)) (text " [array]"))) with (text "[array]"). change (List.filter (fun c => negb (Ascii.eqb c hash)) []) with (@nil ascii). change (strip []) with (@nil ascii).
  rewrite config_header. eexists. split; [reflexivity|]. rewrite (strip_blank V), (strip_blank (show_int axis)); [|apply word_ends, word_show|apply join_ends; exact Vw].
  split; reflexivity.
Qed.
Lemma read_shape : opt_map read_int (split_ws [] V) = Some (map Z.of_nat sh).
Proof.
  unfold V, seq2str. rewrite split_words by exact Vw. clear. induction sh as [|n l IH]; [reflexivity|]. cbn [map opt_map]. rewrite read_show, IH. reflexivity.
Qed.
Lemma read_axis : read_int (strip (show_int axis)) = Some axis.
Proof. rewrite strip_solid by apply word_ends, word_show. apply read_show. Qed.
End Header.

(** ** Data *)
Section Data.
Context {A : Type}.
Variables (fmt : A -> pstr) (parse : pstr -> option A) (junk : list nat -> A).
Hypothesis R : readable fmt parse.

Definition lines_of (rows : list (list A)) : list pstr := map (fun r => join (text " ") (map fmt r)) rows.
Lemma fmt_word x : word (fmt x).
Proof. destruct (R x) as (_ & NE & C). split; [assumption|]. apply Forall_forall. exact C. Qed.
Lemma fmt_words r : Forall word (map fmt r).
Proof. apply Forall_forall. intros s H. apply in_map_iff in H. destruct H as (x & <- & _). apply fmt_word. Qed.
Lemma parse_row r : opt_map parse (map fmt r) = Some r.
Proof. induction r as [|x r IH]; [reflexivity|]. cbn. destruct (R x) as [-> _]. rewrite IH. reflexivity. Qed.
Lemma parse_rows rows : opt_map (opt_map parse) (map (map fmt) rows) = Some rows.
Proof. induction rows as [|x r IH]; [reflexivity|]. cbn. rewrite parse_row, IH. reflexivity. Qed.

Lemma data_or_empty rows : Forall (fun l => data_line l \/ empty_line l) (lines_of rows).
Proof.
  apply Forall_forall. intros l H. apply in_map_iff in H. destruct H as (r & <- & _). destruct r as [|x r]; [right; reflexivity|].
  left. apply data_words; [discriminate|apply fmt_words].
Qed.

Lemma header_no_words sh axis : map (fun l => split_ws [] (uncomment l)) (header_lines sh axis) = [[]; []; []; []].
Proof. reflexivity. Qed.
(** the words of the file *)
Lemma words_of head rows : map (fun l => split_ws [] (uncomment l)) head = map (fun _ => []) head -> Forall (fun r => r <> []) rows ->
  List.filter (fun l => match l with [] => false | _ => true end) (map (fun l => split_ws [] (uncomment l)) (head ++ lines_of rows)) = map (map fmt) rows.
Proof.
  intros Hh NE. rewrite map_app, filter_app, Hh.
  replace (List.filter (fun l : list pstr => match l with [] => false | _ => true end) (map (fun _ : pstr => []) head)) with (@nil (list pstr))
    by (clear; induction head; [reflexivity|assumption]).
  cbn [app]. unfold lines_of. rewrite map_map. induction NE as [|r rows Hr NE IH]; [reflexivity|]. cbn [map List.filter].
  rewrite uncomment_words by apply fmt_words. destruct r as [|x r]; [congruence|]. cbn [map]. f_equal. exact IH.
Qed.

Lemma loadtxt_rows head rows C : map (fun l => split_ws [] (uncomment l)) head = map (fun _ => []) head ->
  rows <> [] -> 0 < C -> Forall (fun r => length r = C) rows ->
  exists x, loadtxt parse junk (head ++ lines_of rows) = Some (squeeze2 (length rows) C (fun i j => nth j (nth i rows []) x)).
Proof.
  intros Hh NE HC L. unfold loadtxt. rewrite words_of; [|assumption|]. 2:{ eapply Forall_impl; [|exact L]. intros r Hr ->. cbn in Hr. lia. }
  rewrite parse_rows. destruct rows as [|r0 rows]; [congruence|]. inversion L as [|? ? L0 L1]; subst.
  destruct r0 as [|x r0]; [cbn in HC; lia|]. exists x. 
  replace (forallb (fun r => length r =? length (x :: r0)) ((x :: r0) :: rows)) with true; [reflexivity|].
  symmetry. apply forallb_forall. intros r Hr. apply Nat.eqb_eq. rewrite Forall_forall in L. apply L. exact Hr.
Qed.

(** the rows of a two-dimensional array *)
Definition rows_of (r c : nat) (f : nat -> nat -> A) : list (list A) := map (fun i => map (f i) (seq 0 c)) (seq 0 r).
Lemma rows_len r c f : length (rows_of r c f) = r. Proof. unfold rows_of. rewrite map_length, seq_length. reflexivity. Qed.
Lemma rows_width r c f : Forall (fun x => length x = c) (rows_of r c f).
Proof. apply Forall_forall. intros x H. apply in_map_iff in H. destruct H as (i & <- & _). rewrite map_length, seq_length. reflexivity. Qed.
Lemma map_seq_nth {B} (f : nat -> B) n i d : i < n -> nth i (map f (seq 0 n)) d = f i.
Proof. intros H. rewrite (nth_indep _ d (f 0)) by (rewrite map_length, seq_length; exact H). rewrite map_nth, seq_nth by exact H. reflexivity. Qed.
Lemma rows_nth r c f i j x : i < r -> j < c -> nth j (nth i (rows_of r c f) []) x = f i j.
Proof. intros H1 H2. unfold rows_of. rewrite (map_seq_nth (fun i => map (f i) (seq 0 c))) by exact H1. apply map_seq_nth. exact H2. Qed.

Lemma savetxt_1d (a : arr A) n : shape a = [n] -> savetxt fmt a = Some (lines_of (rows_of n 1 (fun i _ => at_ a [i]))).
Proof. intros S. unfold savetxt. rewrite S. f_equal. unfold lines_of, rows_of. rewrite map_map. reflexivity. Qed.
Lemma savetxt_2d (a : arr A) r c : shape a = [r; c] -> savetxt fmt a = Some (lines_of (rows_of r c (fun i j => at_ a [i; j]))).
Proof.
  intros S. unfold savetxt. rewrite S. f_equal. unfold lines_of, rows_of. rewrite map_map. apply map_ext. intros i. rewrite map_map. reflexivity.
Qed.

(** readtxt, up to the data *)
Lemma some_data head rows : length head <= 4 -> rows <> [] -> Forall (fun r => r <> []) rows ->
  List.filter (fun l => negb (commented l) && match l with [] => false | _ => true end) (map strip (firstn maxlines (head ++ lines_of rows))) <> [].
Proof.
  intros Hh NE F. destruct rows as [|r rows]; [congruence|]. inversion F as [|? ? Hr _]; subst.
  assert (D : data_line (join (text " ") (map fmt r))) by (apply data_words; [destruct r; [congruence|discriminate]|apply fmt_words]).
  destruct D as [D1 D2]. intros E.
  assert (I : In (strip (join (text " ") (map fmt r))) (map strip (firstn maxlines (head ++ lines_of (r :: rows))))).
  { apply in_map. rewrite firstn_app. apply in_or_app. right. destruct (maxlines - length head) eqn:M; [unfold maxlines in M; lia|]. left. reflexivity. }
  assert (J : In (strip (join (text " ") (map fmt r))) []).
  { rewrite <- E. apply filter_In. split; [exact I|]. rewrite D1. destruct (strip (join (text " ") (map fmt r))); [congruence|reflexivity]. }
  destruct J.
Qed.
Lemma no_data sh axis rows : sh <> [] -> Forall (fun r => r = []) rows -> forall head, head = header_lines sh axis \/ head = [] ->
  List.filter (fun l => negb (commented l) && match l with [] => false | _ => true end) (map strip (firstn maxlines (head ++ lines_of rows))) = [].
Proof.
  intros NS F head Hh.
  assert (K : forall l, In l (head ++ lines_of rows) -> commented (strip l) = true \/ l = []).
  { intros l H. apply in_app_or in H. destruct H as [H|H].
    - destruct Hh as [-> | ->]; [left|destruct H].
      assert (I : In (strip l) (map strip (header_lines sh axis))) by (apply in_map; exact H). rewrite header_stripped in I by exact NS.
      destruct I as [<-|[<-|[<-|[<-|[]]]]]; reflexivity.
    - right. apply in_map_iff in H. destruct H as (r & <- & Hr). rewrite Forall_forall in F. rewrite (F r Hr). reflexivity. }
  assert (K' : forall l, In l (firstn maxlines (head ++ lines_of rows)) -> commented (strip l) = true \/ l = []).
  { intros l H. apply K. rewrite <- (firstn_skipn maxlines (head ++ lines_of rows)). apply in_or_app. left. exact H. }
  induction (firstn maxlines (head ++ lines_of rows)) as [|l r IH]; [reflexivity|]. cbn [map List.filter].
  destruct (K' l (or_introl eq_refl)) as [->| ->]; cbn; apply IH; intros; apply K'; right; assumption.
Qed.

(** What readtxt does with a file of writetxt (or with the arguments given). *)
Lemma readtxt_info sh axis header ax s rows : sh <> [] -> length sh <= 3 -> source_info sh axis header ax s ->
  let head := if header then header_lines sh axis else [] in
  let z := if (axis =? -1)%Z then (Z.of_nat (length sh) - 1)%Z else axis in
  (rows <> [] -> Forall (fun r => r <> []) rows ->
   readtxt parse junk (head ++ lines_of rows) ax s =
   match loadtxt parse junk (head ++ lines_of rows) with
   | None => None | Some a => if length sh <=? 2 then Some a else arr2d_to_3d junk a (map Z.of_nat sh) z end) /\
  (Forall (fun r => r = []) rows -> readtxt parse junk (head ++ lines_of rows) ax s = Some (Array [0] junk)).
Proof.
  intros NS L3 SI head z.
  assert (HL : length head <= 4) by (unfold head; destruct header; cbn; lia).
  assert (HH : head = header_lines sh axis \/ head = []) by (unfold head; destruct header; auto).
  pose proof (fun h => read_header_lines sh axis NS (lines_of rows) h) as RH. specialize (RH (data_or_empty rows)).
  assert (INFO : forall (X : Type) (K : Z -> list Z -> X) (e : X),
    match (match ax, s with Some z, Some s => Some (z, s) | _, _ =>
      match read_header (head ++ lines_of rows) with
      | None => None
      | Some cfg =>
        match (match s with Some s => Some s
               | None => match config_get cfg (text "array") (text "shape") with
                         | Some v => opt_map read_int (split_ws [] v) | None => None end end),
              (match ax with Some z => Some z
               | None => match config_get cfg (text "array") (text "axis") with Some v => read_int (strip v) | None => None end end) with
        | Some s, Some z => Some (z, s)
        | _, _ => None
        end
      end end) with None => e | Some (z, s) => K z s end = K axis (map Z.of_nat sh)).
  { intros X K e. destruct SI as [(-> & AX & S)|(-> & ->)]; [|reflexivity]. unfold head.
    destruct RH as (cfg & -> & -> & ->). rewrite read_shape, read_axis by assumption.
    destruct AX as [-> | ->], S as [-> | ->]; reflexivity. }
  unfold readtxt. split.
  - intros NE F. rewrite INFO. rewrite map_length. replace (3 <? length sh) with false by (symmetry; apply Nat.ltb_ge; exact L3).
    pose proof (some_data head rows HL NE F) as SD.
    destruct (List.filter _ (map strip (firstn maxlines (head ++ lines_of rows)))); [congruence|]. reflexivity.
  - intros F. rewrite INFO. rewrite map_length. replace (3 <? length sh) with false by (symmetry; apply Nat.ltb_ge; exact L3).
    rewrite (no_data sh axis rows NS F head HH). reflexivity.
Qed.
End Data.

(** ** Three dimensions *)
Lemma remove_insert {B} (x : B) : forall k l, k <= length l -> remove k (insert k x l) = l.
Proof. induction k as [|k IH]; intros [|y l] H; cbn in *; try lia; try reflexivity. rewrite IH by lia. reflexivity. Qed.
Lemma index_len sh i : index_of sh i -> length i = length sh.
Proof. induction 1; cbn; congruence. Qed.
Lemma remove_len {B} : forall k (l : list B), k < length l -> length (remove k l) = length l - 1.
Proof. induction k as [|k IH]; intros [|y l] H; cbn in *; try lia. rewrite IH by lia. lia. Qed.
Lemma setitem_int {A} (a : arr A) k ind b : k < length (shape a) -> ind < nth k (shape a) 0 ->
  exists r, setitem a (replace k (IInt (Z.of_nat ind)) (repeat full (length (shape a)))) b = Some r /\ shape r = shape a /\
    (forall p, index_of (remove k (shape a)) p -> at_ r (insert k ind p) = b p) /\
    (forall i, nth k i 0 <> ind -> at_ r i = at_ a i).
Proof.
  intros Hk Hi. destruct (view_int (Z.of_nat ind) ind k (shape a) Hk) as (f & V & F); [split; [exact Hi|left; reflexivity]|].
  unfold setitem. rewrite V. eexists. split; [reflexivity|]. destruct (put_loop f b (indices (remove k (shape a))) a) as (S & O & P).
  split; [exact S|].
  assert (LP : forall p, index_of (remove k (shape a)) p -> k <= length p) by (intros p Hp; rewrite (index_len _ _ Hp), remove_len by exact Hk; lia).
  split.
  - intros p Hp. rewrite <- (F p Hp). apply P; [apply indices_in; exact Hp|]. intros q Hq E. apply indices_in in Hq. rewrite (F q Hq), (F p Hp) in E.
    apply (f_equal (remove k)) in E. rewrite !remove_insert in E by (apply LP; assumption). exact E.
  - intros i N. apply O. intros p Hp <-. apply indices_in in Hp. rewrite (F p Hp), nth_insert in N by (apply LP; exact Hp). congruence.
Qed.
Lemma insert_remove {B} (d : B) : forall k l, k < length l -> insert k (nth k l d) (remove k l) = l.
Proof. induction k as [|k IH]; intros [|y l] H; cbn in *; try lia; try reflexivity. rewrite IH by lia. reflexivity. Qed.
Lemma index_remove : forall k sh i, index_of sh i -> k < length sh -> index_of (remove k sh) (remove k i) /\ nth k i 0 < nth k sh 0.
Proof.
  induction k as [|k IH]; intros sh i H L; destruct H as [|x n i sh H1 H2]; cbn in *; try lia; [split; assumption|].
  destruct (IH sh i H2 ltac:(lia)) as [E1 E2]. split; [constructor; assumption|exact E2].
Qed.

Lemma chunk_view {A} (a : arr A) r c (ind : nat) (c0 : Z) : shape a = [r; c] -> (0 <= c0)%Z -> ((Z.of_nat ind + 1) * c0 <= Z.of_nat r)%Z ->
  exists ch, getitem a [ISlice (Slice (Some (Z.of_nat ind * c0)%Z) (Some ((Z.of_nat ind + 1) * c0)%Z) None); full] = Some ch /\
    forall p q, at_ ch [p; q] = at_ a [ind * Z.to_nat c0 + p; q].
Proof.
  intros S H0 H1. unfold getitem. rewrite S. cbn [view full slice_indices step start stop]. change (1 =? 0)%Z with false. change (1 <? 0)%Z with false. cbv iota.
  eexists. split; [reflexivity|]. intros p q. cbn [at_ hd tl]. unfold clip.
  destruct (Z.ltb_spec (Z.of_nat ind * c0) 0); [nia|]. f_equal. f_equal; [|f_equal; cbn [start stop step]; change (1 <? 0)%Z with false; cbv iota; lia].
  cbn [start stop step]. change (1 <? 0)%Z with false. cbv iota. destruct (Z.ltb_spec (Z.of_nat ind * c0) 0); [lia|]. rewrite Z.min_r by nia. nia.
Qed.

Definition set_loop {A} (a2 : arr A) (axis c0 : Z) (acc : option (arr A)) (ind : nat) : option (arr A) :=
  match acc, set_item (repeat full 3) axis (IInt (Z.of_nat ind)),
        getitem a2 [ISlice (Slice (Some (Z.of_nat ind * c0)%Z) (Some ((Z.of_nat ind + 1) * c0)%Z) None); full] with
  | Some arr3d, Some sl, Some chunk => setitem arr3d sl (at_ chunk)
  | _, _, _ => None
  end.

(** Cut along axis k, glued along axis k. *)
Lemma glue {A} (a2 junk : arr A) sh axis k c0 c1 (g : nat -> list nat -> A) : length sh = 3 -> axis_is 3 axis k ->
  remove k sh = [c0; c1] -> shape a2 = [c0 * nth k sh 0; c1] -> shape junk = sh ->
  (forall ind p q, ind < nth k sh 0 -> p < c0 -> q < c1 -> at_ a2 [ind * c0 + p; q] = g ind [p; q]) ->
  forall m, m <= nth k sh 0 -> exists r, fold_left (set_loop a2 axis (Z.of_nat c0)) (seq 0 m) (Some junk) = Some r /\ shape r = sh /\
    forall i, index_of sh i -> nth k i 0 < m -> at_ r i = g (nth k i 0) (remove k i).
Proof.
  intros L3 AX RM S2 SJ G. induction m as [|m IH]; intros Hm.
  - exists junk. split; [reflexivity|]. split; [exact SJ|]. intros; lia.
  - destruct (IH ltac:(lia)) as (r & E & Sr & V). rewrite seq_S, fold_left_app, E. cbn [Nat.add fold_left]. unfold set_loop.
    pose proof AX as [Hk _]. apply norm_axis_some in AX. unfold set_item. rewrite repeat_length, AX.
    destruct (chunk_view a2 _ _ m (Z.of_nat c0) S2) as (ch & -> & Vc); [lia|nia|]. rewrite Nat2Z.id in Vc.
    destruct (setitem_int r k m (at_ ch)) as (r' & E' & S' & V1 & V2); [rewrite Sr; lia|rewrite Sr; lia|]. rewrite Sr in E', S', V1. rewrite L3 in E'.
    exists r'. split; [exact E'|]. split; [exact S'|]. intros i Hi Hlt. destruct (Nat.eq_dec (nth k i 0) m) as [Em|Nm].
    + pose proof (index_len _ _ Hi) as Li. destruct (index_remove k sh i Hi ltac:(lia)) as [Hr _]. rewrite <- (insert_remove 0 k i) at 1 by lia. rewrite Em.
      rewrite V1 by exact Hr. rewrite RM in Hr.
      assert (EX : exists p q, remove k i = [p; q] /\ p < c0 /\ q < c1).
      { clear - Hr. inversion Hr as [|p ? ? ? Hp Hq]; subst. inversion Hq as [|q ? ? ? Hq1 Hq2]; subst. inversion Hq2; subst. eauto. }
      destruct EX as (p & q & -> & Hp & Hq). rewrite Vc. apply G; [lia|assumption|assumption].
    + rewrite V2 by exact Nm. apply V; [exact Hi|lia].
Qed.

Section Three.
Context {A : Type}.
Variables (fmt : A -> pstr) (parse : pstr -> option A) (junk : list nat -> A).
Hypothesis R : readable fmt parse.

Lemma rows_of_ext r c (f g : nat -> nat -> A) : (forall i j, i < r -> j < c -> f i j = g i j) -> rows_of r c f = rows_of r c g.
Proof.
  intros H. unfold rows_of. apply map_ext_in. intros i Hi. apply in_seq in Hi. apply map_ext_in. intros j Hj. apply in_seq in Hj. apply H; lia.
Qed.
Lemma concat_nth {B} (F : nat -> list B) c0 d : (forall i, length (F i) = c0) -> forall n s ind p, ind < n -> p < c0 ->
  nth (ind * c0 + p) (concat (map F (seq s n))) d = nth p (F (s + ind)) d.
Proof.
  intros L. induction n as [|n IH]; intros s ind p H1 H2; [lia|]. cbn [seq map concat]. destruct ind as [|ind].
  - cbn [Nat.mul Nat.add]. rewrite app_nth1 by (rewrite L; exact H2). f_equal. f_equal. lia.
  - rewrite app_nth2 by (rewrite L; nia). rewrite L. replace (S ind * c0 + p - c0) with (ind * c0 + p) by nia.
    rewrite IH by lia. f_equal. f_equal. lia.
Qed.
Lemma concat_len {B} (F : nat -> list B) c0 : (forall i, length (F i) = c0) -> forall n s, length (concat (map F (seq s n))) = c0 * n.
Proof. intros L. induction n as [|n IH]; intros s; cbn [seq map concat]; [cbn; lia|]. rewrite app_length, IH, L. lia. Qed.

Definition all_rows (a : arr A) (k c0 c1 n : nat) : list (list A) :=
  concat (map (fun ind => rows_of c0 c1 (fun i j => at_ a (insert k ind [i; j]))) (seq 0 n)).
Lemma writetxt_3d (a : arr A) axis k c0 c1 header : length (shape a) = 3 -> axis_is 3 axis k -> remove k (shape a) = [c0; c1] ->
  writetxt fmt a axis header = Some ((if header then header_lines (shape a) axis else []) ++ lines_of fmt (all_rows a k c0 c1 (nth k (shape a) 0))).
Proof.
  intros L3 AX RM. unfold writetxt. rewrite L3. pose proof AX as AX'. apply norm_axis_some in AX'. rewrite AX'.
  rewrite (opt_map_all _ (fun ind => lines_of fmt (rows_of c0 c1 (fun i j => at_ a (insert k ind [i; j]))))).
  - f_equal. f_equal. unfold all_rows, lines_of. rewrite concat_map, map_map. reflexivity.
  - intros ind Hi. apply in_seq in Hi. destruct (slicetake_int a axis k (Z.of_nat ind) ind) as (r & -> & S & V); [rewrite L3; exact AX|split; [lia|left; reflexivity]|].
    rewrite RM in S. rewrite (savetxt_2d fmt r c0 c1 S). f_equal. f_equal. apply rows_of_ext. intros i j Hi1 Hj1. apply V. rewrite S. repeat constructor; assumption.
Qed.

Lemma all_rows_width a k c0 c1 n : Forall (fun r => length r = c1) (all_rows a k c0 c1 n).
Proof.
  apply Forall_forall. intros r H. apply in_concat in H. destruct H as (l & Hl & Hr). apply in_map_iff in Hl. destruct Hl as (ind & <- & _).
  pose proof (rows_width c0 c1 (fun i j => at_ a (insert k ind [i; j]))) as W. rewrite Forall_forall in W. apply W. exact Hr.
Qed.
Lemma all_rows_len a k c0 c1 n : length (all_rows a k c0 c1 n) = c0 * n.
Proof. apply concat_len. intros i. apply rows_len. Qed.

(** the axis readtxt works with *)
Lemma pick_axis sh axis k : length sh = 3 -> axis_is 3 axis k -> axis <> (-1)%Z ->
  exists l r, slice_list (Slice None (Some axis) None) (map Z.of_nat sh) = Some l /\ slice_list (Slice (Some (axis + 1)%Z) None None) (map Z.of_nat sh) = Some r /\
    l ++ r = map Z.of_nat (remove k sh) /\ item_list axis (map Z.of_nat sh) = Some (Z.of_nat (nth k sh 0)).
Proof.
  intros L3 [Hk AX] NE. destruct sh as [|n0 [|n1 [|n2 [|]]]]; try discriminate. 
  destruct k as [|[|[|k]]]; [| | |lia]; destruct AX as [-> | ->]; cbn in NE |- *; try congruence; eexists _, _; repeat split; reflexivity.
Qed.

Lemma arr3_back (a2 : arr A) sh axis k c0 c1 (g : nat -> list nat -> A) : length sh = 3 -> axis_is 3 axis k -> axis <> (-1)%Z ->
  remove k sh = [c0; c1] -> shape a2 = [c0 * nth k sh 0; c1] ->
  (forall ind p q, ind < nth k sh 0 -> p < c0 -> q < c1 -> at_ a2 [ind * c0 + p; q] = g ind [p; q]) ->
  exists r, arr2d_to_3d junk a2 (map Z.of_nat sh) axis = Some r /\ shape r = sh /\ forall i, index_of sh i -> at_ r i = g (nth k i 0) (remove k i).
Proof.
  intros L3 AX NE RM S2 G. unfold arr2d_to_3d. rewrite S2, map_length, L3. cbn [Nat.eqb negb].
  destruct (pick_axis sh axis k L3 AX NE) as (l & r & -> & -> & Elr & ->). rewrite Elr, RM. cbn [map].
  replace (Z.eqb (Z.of_nat (c0 * nth k sh 0)) (Z.mul (Z.of_nat c0) (Z.of_nat (nth k sh 0)))) with true by (symmetry; apply Z.eqb_eq; lia). rewrite Z.eqb_refl. cbn [andb].
  replace (existsb (fun z => (z <? 0)%Z) (map Z.of_nat sh)) with false.
  2:{ symmetry. apply not_true_iff_false. intros X. apply existsb_exists in X. destruct X as (z & Hz & X). apply in_map_iff in Hz. destruct Hz as (n & <- & _). apply Z.ltb_lt in X. lia. }
  rewrite Nat2Z.id. replace (map Z.to_nat (map Z.of_nat sh)) with sh by (rewrite map_map; rewrite <- (map_id sh) at 1; apply map_ext; intros; rewrite Nat2Z.id; reflexivity).
  destruct (glue a2 (Array sh junk) sh axis k c0 c1 g L3 AX RM S2 eq_refl G (nth k sh 0) (le_n _)) as (r' & E & S & V).
  exists r'. split; [exact E|]. split; [exact S|]. intros i Hi. apply V; [exact Hi|]. apply index_remove; [exact Hi|]. pose proof AX as [Hk _]. lia.
Qed.

Lemma squeeze_big r c (f : nat -> nat -> A) : 2 <= r -> 2 <= c -> squeeze2 r c f = Array [r; c] (fun i => f (nth 0 i 0) (nth 1 i 0)).
Proof. intros H1 H2. destruct r as [|[|r]]; [lia|lia|]. destruct c as [|[|c]]; [lia|lia|]. reflexivity. Qed.
Lemma squeeze_small r c (f : nat -> nat -> A) : 1 <= r -> 1 <= c -> r = 1 \/ c = 1 -> length (shape (squeeze2 r c f)) <= 1.
Proof. intros H1 H2 H. destruct r as [|[|r]]; [lia| |]; (destruct c as [|[|c]]; [lia| |]); cbn; lia. Qed.
End Three.
