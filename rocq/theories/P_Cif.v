(** C78: CIF blocks, read and written. *)
From Coq Require Import Ascii String List Arith Bool ZArith DecimalString Lia.
From Verif Require Import Comb ArrayIO ArrayIOProofs Regex Cif CifSpec CifProofs.
Import ListNotations.
Local Open Scope nat_scope.
Local Open Scope string_scope.
Local Open Scope list_scope.
Local Notation length := List.length.

Lemma opt_map_iff {A B} (f : A -> option B) l r : opt_map f l = Some r <-> Forall2 (fun a b => f a = Some b) l r.
Proof.
  revert r. induction l as [|a l IH]; intros r; cbn [opt_map].
  - split; [intros [= <-]; constructor|now inversion 1].
  - destruct (f a) as [b|] eqn:E.
    + destruct (opt_map f l) as [r'|] eqn:E2.
      * split; [intros [= <-]; constructor; [exact E|now apply IH]|]. inversion 1 as [|? ? ? ? E3 F]; subst. apply IH in F. congruence.
      * split; [discriminate|]. inversion 1 as [|? ? ? ? E3 F]; subst. apply IH in F. discriminate.
    + split; [discriminate|]. inversion 1 as [|? ? ? ? E3 F]; subst. congruence.
Qed.
Lemma forall2_iff {A B} (P Q : A -> B -> Prop) l r : (forall a b, P a b <-> Q a b) -> (Forall2 P l r <-> Forall2 Q l r).
Proof. intros H. split; induction 1; constructor; auto; now apply H. Qed.
(** The number [v] is read from [t]. *)
Definition reads {A} (parse : pstr -> option A) (t : pstr) (v : A) : Prop := exists n, denotes t n /\ parse n = Some v.

(** The cell constants are a, b, c, alpha, beta, gamma without their uncertainties. *)
Theorem C78_cryst (A : Type) (parse : pstr -> option A) b consts :
  get_cryst_const parse b = Some consts <->
  Forall2 (fun key v => exists t, get b (text key) = Some (One t) /\ reads parse t v)
    ["_cell_length_a"; "_cell_length_b"; "_cell_length_c"; "_cell_angle_alpha"; "_cell_angle_beta"; "_cell_angle_gamma"] consts.
Proof.
  unfold get_cryst_const. rewrite opt_map_iff. generalize ["_cell_length_a"; "_cell_length_b"; "_cell_length_c"; "_cell_angle_alpha"; "_cell_angle_beta"; "_cell_angle_gamma"] as keys.
  assert (K : forall k v, number parse b (text k) = Some v <-> exists t, get b (text k) = Some (One t) /\ reads parse t v).
  { intros k v. unfold number. destruct (get b (text k)) as [[t|l]|].
    - rewrite number_iff. split; [intros H; exists t; split; [reflexivity|exact H]|intros (t' & [= <-] & H); exact H].
    - split; [discriminate|intros (t & [=] & _)].
    - split; [discriminate|intros (t & [=] & _)]. }
  intros keys. revert consts. induction keys as [|k keys IH]; intros consts; cbn [map].
  - split; inversion 1; constructor.
  - split; inversion 1; subst; constructor; solve [now apply K|now apply IH].
Qed.
(** The coordinates are those of the three columns, row by row; both kinds of coordinates. *)
Theorem C78_coords (A : Type) (parse : pstr -> option A) b xs ys zs rows : length xs = length ys -> length ys = length zs ->
  (column b (text "_atom_site_fract_x") xs -> column b (text "_atom_site_fract_y") ys -> column b (text "_atom_site_fract_z") zs ->
   (get_coords_frac parse b = Some (Some rows) <->
    length rows = length xs /\ forall i, i < length xs -> exists u v w, nth i rows [] = [u; v; w] /\ reads parse (nth i xs []) u /\ reads parse (nth i ys []) v /\ reads parse (nth i zs []) w)) /\
  (column b (text "_atom_site_Cartn_x") xs -> column b (text "_atom_site_Cartn_y") ys -> column b (text "_atom_site_Cartn_z") zs ->
   (get_coords parse b = Some (Some rows) <->
    length rows = length xs /\ forall i, i < length xs -> exists u v w, nth i rows [] = [u; v; w] /\ reads parse (nth i xs []) u /\ reads parse (nth i ys []) v /\ reads parse (nth i zs []) w)).
Proof.
  intros L1 L2.
  assert (G : opt_map (fun row => opt_map (cif_str2float parse) row) (zip3 xs ys zs) = Some rows <->
    length rows = length xs /\ forall i, i < length xs -> exists u v w, nth i rows [] = [u; v; w] /\ reads parse (nth i xs []) u /\ reads parse (nth i ys []) v /\ reads parse (nth i zs []) w).
  { rewrite opt_map_iff. revert ys zs L1 L2 rows. induction xs as [|x xs IH]; intros [|y ys] [|z zs] L1 L2 rows; try discriminate.
    - cbn [zip3]. split; [inversion 1; split; [reflexivity|cbn; lia]|]. intros [L _]. destruct rows; [constructor|discriminate].
    - cbn in L1, L2. injection L1 as L1. injection L2 as L2. cbn [zip3]. split.
      + inversion 1 as [|? row ? rs H1 H2]; subst. apply (IH ys zs L1 L2) in H2 as [L H2]. split; [cbn; lia|]. intros [|i] Hi; [|apply H2; cbn in Hi; lia].
        cbn [nth]. cbn [opt_map] in H1. destruct (cif_str2float parse x) as [u|] eqn:E1; [|discriminate]. destruct (cif_str2float parse y) as [v|] eqn:E2; [|discriminate]. destruct (cif_str2float parse z) as [w|] eqn:E3; [|discriminate].
        injection H1 as <-. exists u, v, w. split; [reflexivity|]. split; [now apply number_iff|]. split; now apply number_iff.
      + intros [L H]. destruct rows as [|row rows]; [discriminate|]. constructor.
        * destruct (H 0 ltac:(cbn; lia)) as (u & v & w & E & H1 & H2 & H3). cbn [nth] in E, H1, H2, H3. subst row. apply number_iff in H1. apply number_iff in H2. apply number_iff in H3. cbn [opt_map]. now rewrite H1, H2, H3.
        * apply (IH ys zs L1 L2). split; [cbn in L; lia|]. intros i Hi. apply (H (S i)). cbn. lia. }
  unfold column. split; intros E1 E2 E3.
  - unfold get_coords_frac, coords. rewrite E1, E2, E3. cbn [items]. destruct (opt_map _ (zip3 xs ys zs)) as [r|]; cbn [option_map]; rewrite <- G; split; congruence.
  - unfold get_coords, coords. rewrite E1, E2, E3. cbn [items]. destruct (opt_map _ (zip3 xs ys zs)) as [r|]; cbn [option_map]; rewrite <- G; split; congruence.
Qed.
(** None where the file has no such coordinates. *)
Theorem C78_no_coords (A : Type) (parse : pstr -> option A) b :
  (get b (text "_atom_site_fract_x") = None -> get_coords_frac parse b = Some None) /\ (get b (text "_atom_site_Cartn_x") = None -> get_coords parse b = Some None).
Proof. split; intros H; unfold get_coords_frac, get_coords, coords; now rewrite H. Qed.
(** The symbols are the leading letters of the type symbols, or of the labels where there are no
    type symbols; an entry that does not begin with a letter raises. *)
Theorem C78_symbols b l symbols :
  column b (text "_atom_site_type_symbol") l \/ (get b (text "_atom_site_type_symbol") = None /\ column b (text "_atom_site_label") l) ->
  (get_symbols b = Some (Some symbols) <-> Forall2 element l symbols).
Proof.
  intros H. assert (E : get_symbols b = option_map Some (opt_map cif_clear_atom_symbol l)).
  { unfold get_symbols, column in *. destruct H as [-> |[-> ->]]; reflexivity. }
  rewrite E. rewrite <- (forall2_iff _ _ l symbols symbol_iff), <- opt_map_iff. destruct (opt_map cif_clear_atom_symbol l); cbn [option_map]; split; congruence.
Qed.
(** What write_cif writes is read back, for symbols of letters only and numbers that survive. *)
Theorem C78_round_trip (A : Type) (fmt : A -> pstr) (parse : pstr -> option A) symbols consts coords :
  (forall v, survives fmt parse v) -> Forall (fun s => s <> [] /\ made_of letter s) symbols -> length consts = 6 -> Forall (fun row => length row = 3) coords ->
  exists b, write_cif fmt symbols consts coords = Some b /\
    get_symbols b = Some (Some symbols) /\ get_cryst_const parse b = Some consts /\ get_coords_frac parse b = Some (Some coords) /\ get_coords parse b = Some None.
Proof.
  intros SV S LC LR. destruct consts as [|a [|b [|c [|al [|be [|ga [|]]]]]]]; try discriminate.
  assert (N : forall v, cif_str2float parse (fmt v) = Some v).
  { intros v. apply number_iff. exists (fmt v). destruct (SV v) as [E NB]. split; [left; split; [reflexivity|exact NB]|exact E]. }
  assert (C : exists x y z, opt_map (fun row => nth_error row 0) coords = Some x /\ opt_map (fun row => nth_error row 1) coords = Some y /\ opt_map (fun row => nth_error row 2) coords = Some z /\
    opt_map (fun row => opt_map (cif_str2float parse) row) (zip3 (map fmt x) (map fmt y) (map fmt z)) = Some coords).
  { clear -LR N. induction LR as [|row coords L LR (x & y & z & E1 & E2 & E3 & E4)]; [exists [], [], []; repeat split|].
    destruct row as [|u [|v [|w [|]]]]; try discriminate. exists (u :: x), (v :: y), (w :: z). cbn [opt_map map zip3]. change (nth_error [u; v; w] 0) with (Some u). change (nth_error [u; v; w] 1) with (Some v). change (nth_error [u; v; w] 2) with (Some w). rewrite E1, E2, E3. repeat split. now rewrite !N, E4. }
  destruct C as (x & y & z & E1 & E2 & E3 & E4). cbn [write_cif]. rewrite E1, E2, E3. eexists. split; [reflexivity|].
  match goal with |- get_symbols ?b = _ /\ _ => set (blk := b) end.
  split; [|split; [|split]].
  - apply (C78_symbols blk symbols symbols); [left; reflexivity|]. clear -S. induction S as [|s l [NE M] _ IH]; constructor; [|exact IH].
    split; [exact NE|]. split; [exact M|]. exists []. rewrite app_nil_r. split; [reflexivity|discriminate].
  - assert (K : forall k v, get blk (text k) = Some (One (fmt v)) -> number parse blk (text k) = Some v) by (intros k v H; unfold number; now rewrite H).
    unfold get_cryst_const. cbn [map opt_map]. rewrite (K "_cell_length_a" a eq_refl), (K "_cell_length_b" b eq_refl), (K "_cell_length_c" c eq_refl), (K "_cell_angle_alpha" al eq_refl), (K "_cell_angle_beta" be eq_refl), (K "_cell_angle_gamma" ga eq_refl). reflexivity.
  - unfold get_coords_frac, Cif.coords.
    change (get blk (text "_atom_site_fract_x")) with (Some (Column (map fmt x))). change (get blk (text "_atom_site_fract_y")) with (Some (Column (map fmt y))). change (get blk (text "_atom_site_fract_z")) with (Some (Column (map fmt z))).
    cbn [items]. now rewrite E4.
  - reflexivity.
Qed.
(** A symbol with a digit, as for an isotope or a numbered species, does not come back. *)
Theorem C78_digits_refuted (A : Type) (fmt : A -> pstr) symbols consts coords b :
  In (text "H2") symbols -> write_cif fmt symbols consts coords = Some b -> forall s, get_symbols b = Some (Some s) -> s <> symbols.
Proof.
  intros H W s G ->. destruct consts as [|a [|b' [|c [|al [|be [|ga [|]]]]]]]; try discriminate. unfold write_cif in W.
  destruct (opt_map _ coords) as [x|]; [|discriminate]. destruct (opt_map _ coords) as [y|]; [|discriminate]. destruct (opt_map _ coords) as [z|]; [|discriminate]. injection W as <-.
  apply (C78_symbols _ symbols symbols) in G; [|left; reflexivity]. assert (K : element (text "H2") (text "H2")).
  { clear -G H. induction symbols as [|t l IH]; [destruct H|]. inversion G; subst. destruct H as [-> |H]; [assumption|now apply IH]. }
  destruct K as (_ & M & _). specialize (M "2"%char (or_intror (or_introl eq_refl))). discriminate.
Qed.
(** One atom given without a loop: the getters run over the characters of the texts. Here the
    structure has the one atom Al at (0, 0, 0), and the reader gives two symbols for it. *)
Theorem C78_unlooped_refuted (A : Type) (parse : pstr -> option A) zero : parse (text "0") = Some zero ->
  let b := [(text "_atom_site_label", One (text "Al")); (text "_atom_site_fract_x", One (text "0")); (text "_atom_site_fract_y", One (text "0")); (text "_atom_site_fract_z", One (text "0"))] in
  get_symbols b = Some (Some [text "A"; text "l"]) /\ get_coords_frac parse b = Some (Some [[zero; zero; zero]]).
Proof.
  intros E. cbv zeta. split; [vm_compute; reflexivity|]. unfold get_coords_frac, coords.
  match goal with |- context [get ?b ?k] => change (get b k) with (Some (One (text "0"))) end.
  match goal with |- context [get ?b ?k] => change (get b k) with (Some (One (text "0"))) end.
  match goal with |- context [get ?b ?k] => change (get b k) with (Some (One (text "0"))) end.
  cbn [items map zip3 opt_map text list_ascii_of_string]. change ["0"%char] with (text "0"). unfold cif_str2float. change (existsb (Ascii.eqb "(") (text "0")) with false. cbv iota. rewrite E. reflexivity.
Qed.
(** Integers as decimal text survive; and a block with uncertainties and labels, as found in
    published files. *)
Example C78_survives z : survives show_int read_int z.
Proof.
  split; [apply read_show|]. assert (U : forall u, ~ In "("%char (text (NilEmpty.string_of_uint u))).
  { induction u; cbn; intuition discriminate. }
  assert (U0 : forall u, ~ In "("%char (text (NilZero.string_of_uint u))).
  { intros u. destruct u; try (match goal with |- context [NilZero.string_of_uint ?v] => exact (U v) end). cbn. intuition discriminate. }
  unfold show_int. destruct (Z.to_int z) as [u|u]; [apply U0|]. cbn. intros [H|H]; [discriminate|]. exact (U0 u H).
Qed.
Definition quartz : block :=
  [(text "_cell_length_a", One (text "49134(3)")); (text "_cell_length_b", One (text "49134(3)")); (text "_cell_length_c", One (text "54052"));
   (text "_cell_angle_alpha", One (text "90")); (text "_cell_angle_beta", One (text "90")); (text "_cell_angle_gamma", One (text "120"));
   (text "_atom_site_label", Column [text "Si1"; text "O2-"]);
   (text "_atom_site_fract_x", Column [text "4699(10)"; text "4141"]); (text "_atom_site_fract_y", Column [text "0"; text "-2681(8)"]); (text "_atom_site_fract_z", Column [text "0"; text "1188"])].
Example C78_case :
  get_symbols quartz = Some (Some [text "Si"; text "O"]) /\
  get_cryst_const read_int quartz = Some [49134; 49134; 54052; 90; 90; 120]%Z /\
  get_coords_frac read_int quartz = Some (Some [[4699; 0; 0]; [4141; -2681; 1188]]%Z) /\
  denotes (text "4699(10)") (text "4699") /\ element (text "O2-") (text "O").
Proof.
  split; [vm_compute; reflexivity|]. split; [vm_compute; reflexivity|]. split; [vm_compute; reflexivity|].
  assert (CO : forall p s, forallb p s = true -> made_of p s) by (intros p s H; exact (proj1 (forallb_forall p s) H)).
  split.
  - right. split; [discriminate|]. split; [apply CO; reflexivity|]. now exists (text "10)").
  - split; [discriminate|]. split; [apply CO; reflexivity|]. exists (text "2-"). split; [reflexivity|]. now intros c r [= <- <-].
Qed.

Print Assumptions C78_cryst.
Print Assumptions C78_coords.
Print Assumptions C78_no_coords.
Print Assumptions C78_symbols.
Print Assumptions C78_round_trip.
Print Assumptions C78_digits_refuted.
Print Assumptions C78_unlooped_refuted.
