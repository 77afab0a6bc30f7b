(** C101: arrays in files given by name or as open file *)
From Coq Require Import Ascii String List ZArith Bool Arith Lia.
From Verif Require Import Comb Traj Nd NdSpec NdProofs ArrayIO ArrayIOSpec ArrayIOProofs P_ArrayIO FileNames FileNamesSpec.
Import ListNotations.
Local Open Scope list_scope.
Local Open Scope nat_scope.
Local Notation length := List.length.

Lemma set_len w i h : i < length (hs w) -> length (hs (set_h w i h)) = length (hs w).
Proof. intros L. cbn [set_h hs]. rewrite app_length, firstn_length. cbn [length]. rewrite skipn_length. lia. Qed.
Lemma set_same w i h : i < length (hs w) -> nth_error (hs (set_h w i h)) i = Some h.
Proof. intros L. cbn [set_h hs]. rewrite nth_error_app2 by (rewrite firstn_length; lia). rewrite firstn_length, Nat.min_l by lia. now rewrite Nat.sub_diag. Qed.
Lemma set_other w i h k : i < length (hs w) -> k <> i -> nth_error (hs (set_h w i h)) k = nth_error (hs w) k.
Proof.
  intros L N. cbn [set_h hs]. rewrite <- (firstn_skipn i (hs w)) at 3. destruct (Nat.lt_ge_cases k i).
  - rewrite !nth_error_app1 by (rewrite firstn_length; lia). reflexivity.
  - rewrite !nth_error_app2 by (rewrite firstn_length; lia). rewrite firstn_length, Nat.min_l by lia. destruct (skipn i (hs w)) as [|x r] eqn:E; [assert (K := skipn_length i (hs w)); rewrite E in K; cbn in K; lia|].
    assert (SK : skipn (S i) (hs w) = r). { clear - E. revert i E. induction (hs w) as [|y l IH]; intros [|i] E; [discriminate|discriminate|cbn in *; congruence|exact (IH i E)]. }
    rewrite SK. destruct (k - i) as [|m] eqn:EK; [lia|reflexivity].
Qed.
Lemma lt_some w i h : nth_error (hs w) i = Some h -> i < length (hs w). Proof. intros E. apply nth_error_Some. congruence. Qed.
Lemma set_open w i h h' : nth_error (hs w) i = Some h -> h_open h' = h_open h -> forall k, is_open (set_h w i h') k <-> is_open w k.
Proof.
  intros E O k. assert (L := lt_some _ _ _ E). unfold is_open. destruct (Nat.eq_dec k i) as [->|N]; [|now rewrite set_other]. rewrite set_same by exact L. rewrite E. split; intros (x & X & P); injection X as <-; [exists h|exists h']; split; congruence.
Qed.
Lemma close_closed w i : i < length (hs w) -> disk (close w i) = disk w /\ length (hs (close w i)) = length (hs w) /\ ~ is_open (close w i) i /\ forall k, k <> i -> nth_error (hs (close w i)) k = nth_error (hs w) k.
Proof.
  intros L. unfold close. destruct (nth_error (hs w) i) as [h|] eqn:E; [|apply nth_error_None in E; lia]. split; [reflexivity|]. split; [now apply set_len|]. split; [|intros k N; now apply set_other]. unfold is_open. rewrite set_same by exact L. intros (x & X & P). injection X as <-. discriminate.
Qed.
Lemma add_other w h k : k < length (hs w) -> nth_error (hs (fst (add_h w h))) k = nth_error (hs w) k. Proof. intros L. cbn. now rewrite nth_error_app1. Qed.
Lemma add_new w h : nth_error (hs (fst (add_h w h))) (length (hs w)) = Some h. Proof. cbn. rewrite nth_error_app2 by lia. now rewrite Nat.sub_diag. Qed.
Lemma open_shape w fn w1 i : open_name w fn = Some (w1, i) -> exists h, w1 = fst (add_h w h) /\ i = length (hs w) /\ h_open h = true /\ h_pos h = 0.
Proof.
  unfold open_name. destruct (disk w fn) as [f|]; [|discriminate]. intros E. injection E as <- <-. eexists. split; [reflexivity|]. split; [reflexivity|]. destruct (ends_gz fn), f as [[|]|]; now split.
Qed.

(** ** The decorator, for every function that only reads *)
Section Decorator.
Context {T : Type} (func : world -> nat -> option T * world).
Hypothesis RO : reads_only func.
(** A file given by name: after a normal return nothing is open that was not open before, all other file
    objects and the files are as they were. *)
Theorem C101_by_name w fn v w' : open_and_close func w (inl fn) = (Some v, w') ->
  disk w' = disk w /\ (forall k, is_open w' k <-> is_open w k) /\ (forall k, k < length (hs w) -> nth_error (hs w') k = nth_error (hs w) k) /\
  exists w1, open_name w fn = Some (w1, length (hs w)) /\ fst (func w1 (length (hs w))) = Some v.
Proof.
  unfold open_and_close. destruct (open_name w fn) as [[w1 i]|] eqn:O; [|discriminate]. destruct (open_shape _ _ _ _ O) as (h & -> & -> & HO & _). specialize (RO (fst (add_h w h)) (length (hs w))). destruct (func (fst (add_h w h)) (length (hs w))) as [[r|] w2] eqn:F; [|discriminate]. intros E. injection E as -> <-. cbn [snd] in RO. destruct RO as (R1 & R2 & R3 & R4).
  assert (LN : length (hs (fst (add_h w h))) = S (length (hs w))) by (cbn; rewrite app_length; cbn; lia). destruct (close_closed w2 (length (hs w)) ltac:(lia)) as (C1 & C2 & C3 & C4).
  assert (OLD : forall k, k < length (hs w) -> nth_error (hs (close w2 (length (hs w)))) k = nth_error (hs w) k) by (intros k L; rewrite C4, R3, add_other by lia; reflexivity).
  split; [rewrite C1, R1; reflexivity|]. split; [|split; [exact OLD|eexists; split; [reflexivity|now rewrite F]]].
  intros k. destruct (lt_eq_lt_dec k (length (hs w))) as [[L| ->]|L].
  - unfold is_open. now rewrite OLD.
  - split; [intros K; now apply C3 in K|]. intros (x & X & _). apply lt_some in X. lia.
  - split; intros (x & X & _); apply lt_some in X; lia.
Qed.
(** After an exception one file more is open. *)
Theorem C101_leak_refuted w fn w' : disk w fn <> None -> open_and_close func w (inl fn) = (None, w') ->
  is_open w' (length (hs w)) /\ ~ is_open w (length (hs w)) /\ (forall k, k < length (hs w) -> nth_error (hs w') k = nth_error (hs w) k).
Proof.
  intros D. unfold open_and_close. destruct (open_name w fn) as [[w1 i]|] eqn:O; [|unfold open_name in O; destruct (disk w fn); congruence]. destruct (open_shape _ _ _ _ O) as (h & -> & -> & HO & _). specialize (RO (fst (add_h w h)) (length (hs w))). destruct (func (fst (add_h w h)) (length (hs w))) as [[r|] w2] eqn:F; [discriminate|]. intros E. injection E as <-. cbn [snd] in RO. destruct RO as (R1 & R2 & R3 & R4).
  split; [apply R4; exists h; split; [apply add_new|exact HO]|]. split; [intros (x & X & _); apply lt_some in X; lia|]. intros k L. rewrite R3, add_other by lia. reflexivity.
Qed.
(** A file object: nothing is opened or closed, only this object is used. *)
Theorem C101_by_object w i : let w' := snd (open_and_close func w (inr i)) in
  disk w' = disk w /\ (forall k, is_open w' k <-> is_open w k) /\ (forall k, k <> i -> nth_error (hs w') k = nth_error (hs w) k).
Proof. destruct (RO w i) as (R1 & R2 & R3 & R4). now repeat split; apply R4 || idtac. Qed.
End Decorator.

Lemma gz_name fn : ends_gz fn = true <-> compressed_name fn.
Proof.
  unfold ends_gz, compressed_name. rewrite andb_true_iff, Nat.leb_le. unfold pstr_eqb. destruct (list_eq_dec ascii_dec (skipn (length fn - 3) fn) (text ".gz")) as [E|N].
  - split; [|intros _; split; [|reflexivity]]; [intros _; exists (firstn (length fn - 3) fn); rewrite <- (firstn_skipn (length fn - 3) fn) at 1; now rewrite E|]. assert (K := skipn_length (length fn - 3) fn). rewrite E in K. cbn in K. lia.
  - split; [intros [_ K]; discriminate|]. intros (p & ->). exfalso. apply N. rewrite app_length. cbn [length list_ascii_of_string]. replace (length p + 3 - 3) with (length p) by lia. rewrite skipn_app, skipn_all, Nat.sub_diag. reflexivity.
Qed.
Section Arrays.
Context {A : Type}.
Variables (fmt : A -> pstr) (parse : pstr -> option A) (junk : list nat -> A).
Notation readtxt_h := (readtxt_h parse junk).
Notation readtxt_any := (readtxt_any parse junk).
Lemma keep_seek w i h p : nth_error (hs w) i = Some h -> disk (set_h w i (seek h p)) = disk w /\ length (hs (set_h w i (seek h p))) = length (hs w) /\ (forall k, k <> i -> nth_error (hs (set_h w i (seek h p))) k = nth_error (hs w) k) /\ (forall k, is_open (set_h w i (seek h p)) k <-> is_open w k).
Proof. intros E. assert (L := lt_some _ _ _ E). split; [reflexivity|]. split; [now apply set_len|]. split; [intros k N; now apply set_other|]. now apply (set_open w i h). Qed.
(** readtxt only reads, so the theorems about the decorator hold for it. *)
Theorem C101_reads_only axis sh : reads_only (readtxt_h axis sh).
Proof.
  intros w i. cbv zeta. assert (ID : disk w = disk w /\ length (hs w) = length (hs w) /\ (forall k, k <> i -> nth_error (hs w) k = nth_error (hs w) k) /\ (forall k, is_open w k <-> is_open w k)) by (repeat split; tauto).
  unfold FileNames.readtxt_h. destruct (nth_error (hs w) i) as [h|] eqn:E; [|exact ID]. destruct (h_open h); [cbn [negb]|exact ID]. destruct (h_kind h).
  - destruct (get_info h axis sh) as [[[z s]|] p]; [|now apply keep_seek]. cbv zeta. destruct (3 <? length s); [now apply keep_seek|]. match goal with |- context [match ?f with [] => _ | _ :: _ => _ end] => destruct f end; now apply keep_seek.
  - destruct (skipn (h_pos h) (h_lines h)); [|now apply keep_seek]. destruct axis, sh; try now apply keep_seek. destruct (3 <? length l); [exact ID|now apply keep_seek].
  - exact ID.
Qed.
(** At the start of a text file the object gives the array of its lines. *)
Lemma from_start w i h axis sh : nth_error (hs w) i = Some h -> h_open h = true -> h_kind h = KText -> h_pos h = 0 -> fst (readtxt_h axis sh w i) = readtxt parse junk (h_lines h) axis sh.
Proof.
  intros E O K P. unfold FileNames.readtxt_h, readtxt, get_info. rewrite E, O, K, P. cbn [negb skipn]. destruct axis as [z|], sh as [s|]; [cbn [fst skipn]|..].
  1: { destruct (3 <? length s); [reflexivity|]. match goal with |- context [match ?f with [] => _ | _ :: _ => _ end] => destruct f end; reflexivity. }
  all: destruct (read_header (h_lines h)) as [cfg|]; [|reflexivity].
  all: repeat match goal with |- context [match config_get ?a ?b ?c with _ => _ end] => destruct (config_get a b c) end; try reflexivity.
  all: repeat match goal with |- context [match opt_map ?a ?b with _ => _ end] => destruct (opt_map a b) end; try reflexivity.
  all: repeat match goal with |- context [match read_int ?a with _ => _ end] => destruct (read_int a) end; try reflexivity.
  all: cbn [skipn]; match goal with |- context [3 <? ?n] => destruct (3 <? n) end; [reflexivity|].
  all: match goal with |- context [match List.filter ?f ?l with [] => _ | _ :: _ => _ end] => destruct (List.filter f l) end; reflexivity.
Qed.
Lemma read_name w fn lines axis sh : disk w fn = Some (Plain lines) -> ~ compressed_name fn -> fst (readtxt_any axis sh w (inl fn)) = readtxt parse junk lines axis sh.
Proof.
  intros D N. unfold FileNames.readtxt_any, open_and_close, open_name. rewrite D. destruct (ends_gz fn) eqn:G; [apply gz_name in G; now apply N in G|]. unfold add_h.
  assert (FS := from_start (fst (add_h w (Handle lines KText 0 true))) (length (hs w)) (Handle lines KText 0 true) axis sh (add_new _ _) eq_refl eq_refl eq_refl). cbn [h_lines] in FS. rewrite <- FS. unfold add_h. cbn [fst]. match goal with |- context [match ?f with (_, _) => _ end] => destruct f as [[r|] w2] end; reflexivity.
Qed.
Lemma name_eqb (a b : pstr) : pstr_eqb a b = true <-> a = b. Proof. unfold pstr_eqb. destruct (list_eq_dec ascii_dec a b); split; congruence. Qed.
(** what writetxt leaves on the disk *)
Theorem C101_write w fn a axis header lines : length (shape a) <= 3 -> writetxt fmt a axis header = Some lines ->
  exists w', writetxt_fn fmt w fn a axis header = (Some tt, w') /\ disk w' fn = Some (Plain lines) /\ (forall f, f <> fn -> disk w' f = disk w f) /\ (forall k, is_open w' k <-> is_open w k) /\
    (forall k, k < length (hs w) -> nth_error (hs w') k = nth_error (hs w) k).
Proof.
  intros L E. unfold writetxt_fn. destruct (Nat.ltb_spec 3 (length (shape a))); [lia|]. rewrite E. set (w0 := set_disk w fn (Plain lines)). change (hs w) with (hs w0). destruct (add_h w0 (Handle [] KBytes 0 true)) as [w1 i] eqn:EA. assert (W1 : w1 = fst (add_h w0 (Handle [] KBytes 0 true))) by now rewrite EA. assert (I : i = length (hs w0)) by (injection EA as _ <-; reflexivity). subst w1 i.
  assert (LN : length (hs (fst (add_h w0 (Handle [] KBytes 0 true)))) = S (length (hs w0))) by (cbn; rewrite app_length; cbn; lia).
  destruct (close_closed (fst (add_h w0 (Handle [] KBytes 0 true))) (length (hs w0)) ltac:(lia)) as (C1 & C2 & C3 & C4). assert (OLD : forall k, k < length (hs w0) -> nth_error (hs (close (fst (add_h w0 (Handle [] KBytes 0 true))) (length (hs w0)))) k = nth_error (hs w0) k) by (intros k K; rewrite C4, add_other by lia; reflexivity).
  eexists. split; [reflexivity|]. rewrite C1. split; [|split; [|split; [|exact OLD]]].
  - cbn. replace (pstr_eqb fn fn) with true by (symmetry; now apply name_eqb). reflexivity.
  - intros f N. cbn. destruct (pstr_eqb f fn) eqn:X; [apply name_eqb in X; congruence|reflexivity].
  - intros k. change (is_open w k) with (is_open w0 k). destruct (lt_eq_lt_dec k (length (hs w0))) as [[K|K]|K].
    + unfold is_open. now rewrite OLD.
    + rewrite K. split; [intros X; now apply C3 in X|]. intros (x & X & _). apply lt_some in X. lia.
    + split; intros (x & X & _); apply lt_some in X; lia.
Qed.
(** A 3d array written to a file and read from it, by name. *)
Theorem C101_round_trip w fn (a : arr A) axis k header ax s :
  readable fmt parse -> length (shape a) = 3 -> axis_is 3 axis k -> source_info (shape a) axis header ax s -> 2 <= text_rows (shape a) k -> 2 <= text_cols (shape a) k -> ~ compressed_name fn ->
  exists w1 r w2, writetxt_fn fmt w fn a axis header = (Some tt, w1) /\ readtxt_any ax s w1 (inl fn) = (Some r, w2) /\ same a r /\
    (forall f, f <> fn -> disk w2 f = disk w f) /\ (forall i, is_open w2 i <-> is_open w i) /\ (forall i, i < length (hs w) -> nth_error (hs w2) i = nth_error (hs w) i).
Proof.
  intros R L AX SI TR TC NG. destruct (C48_round_trip A fmt parse junk a axis k header ax s R L AX SI TR TC) as (lines & r & E1 & E2 & SA). destruct (C101_write w fn a axis header lines ltac:(lia) E1) as (w1 & W1 & D1 & D2 & O1 & H1).
  assert (RN := read_name w1 fn lines ax s D1 NG). rewrite E2 in RN. destruct (readtxt_any ax s w1 (inl fn)) as [o w2] eqn:RA. cbn [fst] in RN. subst o. destruct (C101_by_name _ (C101_reads_only ax s) w1 fn r w2 RA) as (P1 & P2 & P3 & _).
  exists w1, r, w2. split; [exact W1|]. split; [exact RA|]. split; [exact SA|]. split; [intros f N; rewrite P1; now apply D2|]. split; [intros i; rewrite P2; apply O1|]. intros i I. rewrite P3; [now apply H1|]. destruct (nth_error (hs w) i) as [x|] eqn:X; [|apply nth_error_None in X; lia]. apply (lt_some w1 i x). rewrite H1 by exact I. exact X.
Qed.
(** Names with .gz: every file with at least one line gives an exception, compressed or not; so does what
    writetxt wrote (which is not compressed). *)
Theorem C101_gz_refuted w fn ax s : compressed_name fn ->
  (forall lines, lines <> [] -> disk w fn = Some (Plain lines) \/ disk w fn = Some (Zipped lines) -> fst (readtxt_any ax s w (inl fn)) = None) /\
  (forall a axis w', writetxt_fn fmt w fn a axis true = (Some tt, w') -> (exists lines, disk w' fn = Some (Plain lines)) /\ fst (readtxt_any ax s w' (inl fn)) = None).
Proof.
  intros G. apply gz_name in G. assert (RD : forall w lines, lines <> [] -> disk w fn = Some (Plain lines) \/ disk w fn = Some (Zipped lines) -> fst (readtxt_any ax s w (inl fn)) = None).
  { intros v lines N [D|D]; unfold FileNames.readtxt_any, open_and_close, open_name; rewrite D, G; (destruct lines as [|l lines]; [congruence|]); unfold add_h, FileNames.readtxt_h; cbn [hs]; rewrite nth_error_app2 by lia; rewrite Nat.sub_diag; reflexivity. }
  split; [apply RD|]. intros a axis w' E. unfold writetxt_fn in E. destruct (3 <? length (shape a)) eqn:L3; [discriminate|]. apply Nat.ltb_ge in L3. destruct (writetxt fmt a axis true) as [lines|] eqn:W; [|discriminate].
  destruct (C101_write w fn a axis true lines L3 W) as (w1 & W1 & D1 & _). unfold writetxt_fn in W1. apply Nat.ltb_ge in L3. rewrite L3, W in W1. rewrite W1 in E. injection E as <-. split; [now exists lines|]. apply (RD w1 lines); [|now left].
  intros ->. unfold writetxt in W. assert (HD : forall l, header_lines (shape a) axis ++ l <> []) by (intros l; discriminate).
  destruct (shape a) as [|n0 [|n1 [|n2 [|]]]] eqn:SH; cbn [length] in *; try discriminate.
  - destruct (savetxt fmt a); [|discriminate]. injection W as W. now apply HD in W.
  - destruct (savetxt fmt a); [|discriminate]. injection W as W. now apply HD in W.
  - destruct (savetxt fmt a); [|discriminate]. injection W as W. now apply HD in W.
  - destruct (norm_axis axis 3); [|discriminate]. match type of W with context [match ?f with Some _ => _ | None => None end] => destruct f end; [|discriminate]. injection W as W. now apply HD in W.
Qed.
(** The same file object read twice: the second time gives an empty array, or an exception if the header is
    needed. *)
Theorem C101_twice_refuted w i h ax s r w1 : nth_error (hs w) i = Some h -> h_kind h = KText -> readtxt_any ax s w (inr i) = (Some r, w1) -> shape r <> [0] ->
  (forall z t, length t <= 3 -> exists q, fst (readtxt_any (Some z) (Some t) w1 (inr i)) = Some q /\ shape q = [0]) /\
  (forall z t, fst (readtxt_any z None w1 (inr i)) = None /\ fst (readtxt_any None t w1 (inr i)) = None).
Proof.
  intros E K RD NS. assert (L := lt_some _ _ _ E). unfold FileNames.readtxt_any, open_and_close in *. unfold FileNames.readtxt_h in RD. rewrite E, K in RD. destruct (h_open h) eqn:O; [cbn [negb] in RD|discriminate].
  assert (W1 : w1 = set_h w i (seek h (length (h_lines h)))).
  { destruct (get_info h ax s) as [[[z t]|] p]; [|discriminate]. cbv zeta in RD. destruct (3 <? length t); [discriminate|]. match type of RD with context [match ?f with [] => _ | _ :: _ => _ end] => destruct f end; [injection RD as <- _; now cbn in NS|]. injection RD as _ <-. reflexivity. }
  assert (E1 : nth_error (hs w1) i = Some (seek h (length (h_lines h)))) by (rewrite W1; now apply set_same). unfold FileNames.readtxt_h. rewrite E1. cbn [h_open h_kind h_pos h_lines seek]. rewrite O, K. cbn [negb]. split.
  - intros z t T. unfold get_info. cbn [h_pos h_lines seek]. destruct (Nat.ltb_spec 3 (length t)); [lia|]. rewrite skipn_all. cbn. eexists. split; reflexivity.
  - intros z t. unfold get_info. cbn [h_pos h_lines seek]. rewrite skipn_all. change (read_header []) with (Some (@nil (pstr * option (pstr * pstr)))). cbn [config_get find]. split; [destruct z; reflexivity|destruct t; reflexivity].
Qed.
(** An array without dimensions, or a 3d array with a wrong axis: exception, the old file is gone, and a file
    is left open. *)
Theorem C101_overwrite_refuted w fn (a : arr A) axis header : shape a = [] \/ (length (shape a) = 3 /\ ~ exists k, axis_is 3 axis k) ->
  exists w', writetxt_fn fmt w fn a axis header = (None, w') /\ disk w' fn = Some (Plain (if header then header_lines (shape a) axis else [])) /\ is_open w' (length (hs w)) /\ ~ is_open w (length (hs w)).
Proof.
  intros C. assert (W : writetxt fmt a axis header = None).
  { unfold writetxt, savetxt. destruct C as [-> | (L & N)]; [reflexivity|]. rewrite L. destruct (norm_axis axis 3) as [k|] eqn:NA; [|reflexivity]. exfalso. apply N. exists k. unfold norm_axis in NA. unfold axis_is.
    destruct ((- Z.of_nat 3 <=? axis) && (axis <? Z.of_nat 3))%Z eqn:B in NA; [|discriminate]. injection NA as <-. apply andb_true_iff in B as [B1 B2]. apply Z.leb_le in B1. apply Z.ltb_lt in B2. destruct (Z.ltb_spec axis 0); (split; [lia|]); [right; lia|left; lia]. }
  unfold writetxt_fn. destruct (Nat.ltb_spec 3 (length (shape a))) as [B|_]; [destruct C as [C|[C _]]; rewrite C in B; cbn in B; lia|]. rewrite W. eexists. split; [reflexivity|]. split; [cbn; now replace (pstr_eqb fn fn) with true by (symmetry; now apply name_eqb)|]. split; [|intros (x & X & _); apply lt_some in X; lia].
  eexists. split; [apply (add_new (set_disk w fn _))|reflexivity].
Qed.
End Arrays.
(** ** Cases: an empty disk and one open file; the array of C48 *)
Definition w101 : world := World (fun _ => None) [Handle (map text ["# [array]"; "# shape = 2"; "# axis = -1"; "# "; "4"; "5"]%string) KText 0 true].
Example names101 : compressed_name (text "a.txt.gz") /\ ~ compressed_name (text "a.txt").
Proof. split; [now exists (text "a.txt")|]. intros G. apply gz_name in G. discriminate. Qed.
Example trip101 : let '(r, w1) := writetxt_fn show_int w101 (text "a.txt") demo (-2) true in r = Some tt /\ exists q, fst (readtxt_any read_int (fun _ => 0%Z) None None w1 (inl (text "a.txt"))) = Some q /\ same demo q.
Proof.
  destruct C48_case as (A1 & A2 & A3 & A4 & _). destruct (C101_round_trip show_int read_int (fun _ => 0%Z) w101 (text "a.txt") demo (-2) 1 true None None C48_readable eq_refl A1 A4 A2 A3 (proj2 names101)) as (w1 & r & w2 & E1 & E2 & E3 & _). rewrite E1. split; [reflexivity|]. exists r. rewrite E2. now split.
Qed.
Example gz101 : fst (writetxt_fn show_int w101 (text "a.gz") demo (-2) true) = Some tt /\ compressed_name (text "a.gz"). Proof. split; [reflexivity|now exists (text "a")]. Qed.
(** the open file, read twice *)
Example twice101 : exists r w1, readtxt_any read_int (fun _ => 0%Z) None None w101 (inr 0) = (Some r, w1) /\ shape r = [2] /\ at_ r [1] = 5%Z /\ is_open w1 0.
Proof. eexists. eexists. split; [vm_compute; reflexivity|]. split; [reflexivity|]. split; [reflexivity|]. eexists. split; reflexivity. Qed.
(** a file without the header: exception, and the file stays open *)
Example leak101 : let w := World (fun _ => Some (Plain [text "1 2"])) [] in disk w (text "a") <> None /\ fst (open_and_close (readtxt_h read_int (fun _ => 0%Z) None None) w (inl (text "a"))) = None.
Proof. split; [discriminate|vm_compute; reflexivity]. Qed.
Example bad101 : ~ exists k, axis_is 3 5 k. Proof. intros (k & K & [E|E]); lia. Qed.
Print Assumptions C101_by_name. Print Assumptions C101_leak_refuted. Print Assumptions C101_by_object. Print Assumptions C101_reads_only. Print Assumptions C101_write.
Print Assumptions C101_round_trip. Print Assumptions C101_gz_refuted. Print Assumptions C101_twice_refuted. Print Assumptions C101_overwrite_refuted.
