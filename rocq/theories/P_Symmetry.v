(** C91: structures and spglib *)
From Coq Require Import Ascii String DecimalString List Reals ZArith Lia Lra Bool.
From Verif Require Import Comb ArrayIO ArrayIOProofs LammpsOutProofs TextOutSpec Species SpeciesProofs P_Species Vec3 Cells Symmetry SymmetrySpec.
Import ListNotations.
Local Open Scope list_scope.
Local Open Scope R_scope.
Local Notation length := List.length.

Section C91.
Variable get_spacegroup : spg_tuple -> option pstr.
Variable find_primitive : spg_tuple -> option spg_tuple.
Notation spacegroup := (spacegroup get_spacegroup).
Notation same := (is_same_struct get_spacegroup).
Lemma close1_iff a b : close1 a b = true <-> near a b.
Proof. unfold close1, near. destruct (Rle_dec _ _); split; intros H; try discriminate H; try reflexivity; [exact r|contradiction]. Qed.
Lemma symbols_iff a : forall b, same_symbols a b = true <-> a = b.
Proof.
  induction a as [|x a IH]; intros [|y b]; cbn; try (split; intros H; [discriminate H|discriminate H]); [tauto|]. rewrite andb_true_iff, IH. unfold pstr_eqb. destruct (list_eq_dec ascii_dec x y) as [->|N]; split; intros H.
  - destruct H as (_ & ->). reflexivity.
  - injection H as ->. auto.
  - destruct H as (H & _). discriminate H.
  - injection H as E _. contradiction.
Qed.
Lemma cc_iff k l : allclose (cc_list k) (cc_list l) = true <-> near_cc k l.
Proof. unfold allclose, cc_list, near_cc. cbn [combine forallb fst snd]. rewrite !andb_true_iff, !close1_iff. intuition. Qed.
Lemma flat_iff x : forall y, length x = length y -> allclose (flat x) (flat y) = true <-> Forall2 near_vec x y.
Proof.
  induction x as [|u x IH]; intros [|v y] L; try discriminate L; [split; [constructor|reflexivity]|]. injection L as L. unfold allclose in *. cbn [flat flat_map app combine forallb fst snd]. change (flat_map _ x) with (flat x). change (flat_map _ y) with (flat y). rewrite !andb_true_iff, !close1_iff, (IH y L). split.
  - intros (A & B & C & D). constructor; [split; auto|exact D].
  - intros H. inversion H as [|? ? ? ? (A & B & C) D]; subst. auto.
Qed.
(** Two structures are the same exactly if the symbols are equal and volume, cell constants and
    positions agree to the tolerances and spglib names the same space group. *)
Theorem C91_same st1 st2 : length (coords_frac st1) = length (symbols st1) -> length (coords_frac st2) = length (symbols st2) ->
  (same st1 st2 = Some true <-> symbols st1 = symbols st2 /\ near (volume_cell (cell st1)) (volume_cell (cell st2)) /\ near_cc (cell2cc (cell st1)) (cell2cc (cell st2)) /\
     Forall2 near_vec (coords_frac st1) (coords_frac st2) /\ exists g, spacegroup st1 = Some g /\ spacegroup st2 = Some g) /\
  (same st1 st2 = Some false <-> symbols st1 <> symbols st2 \/ ~ near (volume_cell (cell st1)) (volume_cell (cell st2)) \/ ~ near_cc (cell2cc (cell st1)) (cell2cc (cell st2)) \/
     ~ Forall2 near_vec (coords_frac st1) (coords_frac st2) \/ exists g1 g2, spacegroup st1 = Some g1 /\ spacegroup st2 = Some g2 /\ g1 <> g2).
Proof.
  intros L1 L2. unfold is_same_struct. destruct (same_symbols (symbols st1) (symbols st2)) eqn:E1; cbn [negb].
  2:{ assert (N : symbols st1 <> symbols st2) by (intros E; apply symbols_iff in E; congruence). split; split; intros H; try discriminate H; [destruct H; contradiction|now left|reflexivity]. }
  apply symbols_iff in E1. rewrite E1, Nat.eqb_refl. cbn [negb]. destruct (close1 _ _) eqn:E2; cbn [negb].
  2:{ assert (N : ~ near (volume_cell (cell st1)) (volume_cell (cell st2))) by (intros E; apply close1_iff in E; congruence). split; split; intros H; try discriminate H; [destruct H as (_ & H & _); contradiction|auto|reflexivity]. }
  apply close1_iff in E2. destruct (allclose (cc_list _) _) eqn:E3; cbn [negb].
  2:{ assert (N : ~ near_cc (cell2cc (cell st1)) (cell2cc (cell st2))) by (intros E; apply cc_iff in E; congruence). split; split; intros H; try discriminate H; [destruct H as (_ & _ & H & _); contradiction|auto|reflexivity]. }
  apply cc_iff in E3. assert (LL : length (coords_frac st1) = length (coords_frac st2)) by congruence. rewrite LL, Nat.eqb_refl. cbn [negb]. destruct (allclose (flat _) _) eqn:E4; cbn [negb].
  2:{ assert (N : ~ Forall2 near_vec (coords_frac st1) (coords_frac st2)) by (intros E; apply flat_iff in E; [congruence|exact LL]). split; split; intros H; try discriminate H; [destruct H as (_ & _ & _ & H & _); contradiction|auto|reflexivity]. }
  apply flat_iff in E4; [|exact LL]. destruct (spacegroup st1) as [(n1, s1)|], (spacegroup st2) as [(n2, s2)|].
  2-4: split; split; intros H; try discriminate H; [destruct H as (_ & _ & _ & _ & g & A & B); congruence|destruct H as [H|[H|[H|[H|(g1 & g2 & A & B & _)]]]]; congruence || contradiction].
  assert (EQ : (Z.eqb n1 n2 && pstr_eqb s1 s2 = true)%bool <-> (n1, s1) = (n2, s2)).
  { rewrite andb_true_iff, Z.eqb_eq. unfold pstr_eqb. destruct (list_eq_dec ascii_dec s1 s2); split; intros H; [destruct H; congruence|injection H; auto|destruct H as (_ & H); discriminate H|injection H; intros; contradiction]. }
  destruct (Z.eqb n1 n2 && pstr_eqb s1 s2)%bool; split; split; intros H; try discriminate H; try reflexivity.
  - repeat (split; [first [assumption|reflexivity]|]). exists (n1, s1). split; [reflexivity|]. f_equal. symmetry. apply EQ. reflexivity.
  - exfalso. destruct H as [H|[H|[H|[H|(g1 & g2 & A & B & N)]]]]; try contradiction. apply N. injection A as <-. injection B as <-. now apply EQ.
  - exfalso. destruct H as (_ & _ & _ & _ & g & A & B). assert (X : (n1, s1) = (n2, s2)) by congruence. apply EQ in X. discriminate X.
  - right. right. right. right. exists (n1, s1), (n2, s2). split; [reflexivity|]. split; [reflexivity|]. intros E. apply EQ in E. discriminate E.
Qed.
(** spglib is not asked if the rest already differs. *)
Theorem C91_early st1 st2 : symbols st1 <> symbols st2 -> same st1 st2 = Some false.
Proof. intros N. unfold is_same_struct. destruct (same_symbols (symbols st1) (symbols st2)) eqn:E; [apply symbols_iff in E; contradiction|reflexivity]. Qed.
Lemma near_refl x : near x x.
Proof. unfold near. replace (x - x) with 0 by ring. rewrite Rabs_R0. assert (0 < / 10 ^ 8) by (apply Rinv_0_lt_compat, pow_lt; lra). assert (0 < / 10 ^ 5) by (apply Rinv_0_lt_compat, pow_lt; lra). assert (0 <= / 10 ^ 5 * Rabs x) by (apply Rmult_le_pos; [lra|apply Rabs_pos]). lra. Qed.
Lemma near_vecs l : Forall2 near_vec l l.
Proof. induction l; constructor; [repeat split; apply near_refl|assumption]. Qed.
Lemma near_ccs k : near_cc k k.
Proof. repeat split; apply near_refl. Qed.
(** The frame does not matter: the same positions in a rotated cell are the same structure. *)
Lemma rotated_same c d : rotated c d -> cell2cc d = cell2cc c /\ volume_cell d = volume_cell c.
Proof.
  intros (A & B & C & D & E & F). split.
  - unfold cell2cc, angle, norm. now rewrite A, B, C, D, E, F.
  - unfold volume_cell. assert (G : forall m, det m * det m = dot (ra m) (ra m) * dot (rb m) (rb m) * dot (rc m) (rc m) + 2 * dot (ra m) (rb m) * dot (rb m) (rc m) * dot (ra m) (rc m)
      - dot (ra m) (ra m) * dot (rb m) (rc m) * dot (rb m) (rc m) - dot (rb m) (rb m) * dot (ra m) (rc m) * dot (ra m) (rc m) - dot (rc m) (rc m) * dot (ra m) (rb m) * dot (ra m) (rb m)) by (intros m; unfold det, dot, cross; cbn; ring).
    assert (S2 : Rsqr (det d) = Rsqr (det c)) by (unfold Rsqr; rewrite (G d), (G c), A, B, C, D, E, F; reflexivity). now apply Rsqr_eq_abs_0.
Qed.
Theorem C91_rotation s x c d g : length x = length s -> rotated c d -> spacegroup (Struct s c x) = Some g -> spacegroup (Struct s d x) = Some g -> same (Struct s c x) (Struct s d x) = Some true.
Proof.
  intros L RO G1 G2. destruct (rotated_same c d RO) as (E1 & E2). apply C91_same; [exact L|exact L|]. cbn. rewrite E1, E2. split; [reflexivity|]. split; [apply near_refl|]. split; [apply near_ccs|]. split; [apply near_vecs|]. exists g. auto.
Qed.
(** A periodic image of an atom is a different structure. *)
Theorem C91_image_refuted st i u n m k : length (coords_frac st) = length (symbols st) -> nth_error (coords_frac st) i = Some u -> Rabs (vx u) <= 1000 -> (n <> 0)%Z -> 
  same (Struct (symbols st) (cell st) (firstn i (coords_frac st) ++ Vec (vx u + IZR n) (vy u + IZR m) (vz u + IZR k) :: skipn (S i) (coords_frac st))) st = Some false.
Proof.
  intros L U B N. apply C91_same; cbn [coords_frac symbols cell].
  - rewrite app_length. cbn [length]. rewrite firstn_length, skipn_length. assert (i < length (coords_frac st))%nat by (apply nth_error_Some; congruence). lia.
  - exact L.
  - right. right. right. left. intros F. assert (NV : near_vec (Vec (vx u + IZR n) (vy u + IZR m) (vz u + IZR k)) u).
    { clear - F U. revert i U F. induction (coords_frac st) as [|v l IH]; intros [|i] U F; try discriminate U; cbn in U, F; [injection U as ->|]; inversion F; subst; [assumption|]. exact (IH i U H4). }
    destruct NV as (NX & _). unfold near in NX. cbn [vx] in NX. replace (vx u + IZR n - vx u) with (IZR n) in NX by ring. assert (1 <= Rabs (IZR n)) by (rewrite <- abs_IZR; apply IZR_le; lia).
    assert (/ 10 ^ 5 * Rabs (vx u) <= / 10 ^ 5 * 1000) by (apply Rmult_le_compat_l; [left; apply Rinv_0_lt_compat, pow_lt; lra|exact B]). assert (E5 : / 10 ^ 5 * 1000 = / 100) by field. assert (E8 : / 10 ^ 8 <= / 100) by (apply Rinv_le_contravar; lra). lra.
Qed.
(** Closeness is judged relative to the second structure: the order of arguments can matter. *)
Theorem C91_not_symmetric_refuted s c g : let d := / 10 ^ 5 + / 10 ^ 8 + / (2 * 10 ^ 10) in let st1 := Struct [s] c [Vec 1 0 0] in let st2 := Struct [s] c [Vec (1 + d) 0 0] in
  spacegroup st1 = Some g -> spacegroup st2 = Some g -> same st1 st2 = Some true /\ same st2 st1 = Some false.
Proof.
  intros d st1 st2 G1 G2. assert (D : 0 < d) by (unfold d; lra). split; apply C91_same; try reflexivity; cbn.
  - split; [reflexivity|]. split; [apply near_refl|]. split; [apply near_ccs|]. split; [|exists g; auto]. constructor; [|constructor]. split; [|split; apply near_refl]. unfold near. cbn [vx]. replace (1 - (1 + d)) with (- d) by ring. rewrite Rabs_Ropp, !Rabs_pos_eq by lra. unfold d. lra.
  - right. right. right. left. intros F. inversion F as [|? ? ? ? (N & _) _]; subst. unfold near in N. cbn [vx] in N. replace (1 + d - 1) with d in N by ring. rewrite Rabs_R1, Rabs_pos_eq in N by lra. unfold d in N. lra.
Qed.
(** The handedness of the cell does not matter either: a mirror image counts as the same. *)
Theorem C91_mirror_refuted s x c g : let d := Mat (scale (-1) (ra c)) (scale (-1) (rb c)) (scale (-1) (rc c)) in length x = length s -> spacegroup (Struct s c x) = Some g -> spacegroup (Struct s d x) = Some g ->
  same (Struct s c x) (Struct s d x) = Some true /\ det d = - det c.
Proof.
  intros d L G1 G2. split; [|unfold d, det, dot, cross, scale; cbn; ring]. apply (C91_rotation s x c d g L); [|exact G1|exact G2]. unfold d, rotated, dot, scale. cbn. repeat split; ring.
Qed.
(** Space groups: the number and the symbol of the text *)
Lemma digits_plain d : ~ In "("%char (list_ascii_of_string (NilEmpty.string_of_uint d)) /\ ~ In ")"%char (list_ascii_of_string (NilEmpty.string_of_uint d)).
Proof. induction d as [|d [A B]|d [A B]|d [A B]|d [A B]|d [A B]|d [A B]|d [A B]|d [A B]|d [A B]|d [A B]]; cbn; try (split; tauto); split; intros [H|H]; try discriminate H; contradiction. Qed.
Lemma zero_plain d : ~ In "("%char (list_ascii_of_string (NilZero.string_of_uint d)) /\ ~ In ")"%char (list_ascii_of_string (NilZero.string_of_uint d)).
Proof. destruct d; [split; cbn; intros [H|[]]; discriminate H|..]; apply digits_plain. Qed.
Lemma show_plain n : ~ In "("%char (show_int n) /\ ~ In ")"%char (show_int n).
Proof.
  unfold show_int, text. destruct (Z.to_int n) as [d|d]; cbn [NilZero.string_of_int]; [apply zero_plain|]. cbn [list_ascii_of_string]. destruct (zero_plain d) as (A & B). split; intros [H|H]; try discriminate H; contradiction.
Qed.
Lemma keep_all c l : ~ In c l -> filter (fun x => negb (Ascii.eqb x c)) l = l.
Proof. induction l as [|x l IH]; intros N; [reflexivity|]. cbn. destruct (Ascii.eqb_spec x c) as [->|D]; [exfalso; apply N; now left|]. cbn. f_equal. apply IH. intros I. apply N. now right. Qed.
Theorem C91_spacegroup st t sym n gap : get_spglib st = Some t -> word sym -> gap <> [] -> (forall c, In c gap -> is_space c = true) -> get_spacegroup t = Some (spg_text sym n gap) -> spacegroup st = Some (n, sym).
Proof.
  intros T W G0 G1 E. unfold Symmetry.spacegroup. rewrite T, E. unfold spg_text. destruct gap as [|g gap]; [contradiction|]. cbn [app]. rewrite word_then; [|exact W|apply G1; now left]. rewrite blanks_then by (intros c I; apply G1; now right).
  rewrite word_last.
  - destruct (show_plain n) as (A & B). cbn [filter Ascii.eqb negb]. rewrite filter_app. cbn [filter]. rewrite (keep_all _ _ A). cbn. rewrite filter_app, (keep_all _ _ B). cbn. rewrite app_nil_r, read_show. reflexivity.
  - split; [discriminate|]. intros c [<-|I]; [reflexivity|]. apply in_app_or in I. destruct I as [I|[<-|[]]]; [|reflexivity]. assert (F := show_chars n). rewrite Forall_forall in F. exact (proj1 (F c I)).
Qed.
(** Structures survive the way to spglib and back. *)
Theorem C91_roundtrip st : proper st -> exists t, get_spglib st = Some t /\ spglib2struct t = Some st.
Proof.
  intros (T & L). unfold get_spglib. destruct (znucl (symbols st)) as [z|] eqn:Z0.
  - exists (cell st, coords_frac st, z). split; [reflexivity|]. unfold spglib2struct. apply C81_znucl in Z0. replace (opt_map (nth_error table) z) with (Some (symbols st)); [now destruct st|]. symmetry. apply opt_map_forall. clear - Z0. induction Z0; constructor; assumption.
  - exfalso. apply C81_unknown in Z0 as (s & I & N). rewrite Forall_forall in T. exact (N (T s I)).
Qed.
(** A structure is the same as itself; so one which is primitive has no other primitive one. *)
Theorem C91_reflexive st g : length (coords_frac st) = length (symbols st) -> spacegroup st = Some g -> same st st = Some true.
Proof. intros L G. apply C91_same; [exact L|exact L|]. split; [reflexivity|]. split; [apply near_refl|]. split; [apply near_ccs|]. split; [apply near_vecs|]. exists g. auto. Qed.
Theorem C91_already_primitive st t g : proper st -> spacegroup st = Some g -> get_spglib st = Some t -> find_primitive t = Some t -> get_primitive get_spacegroup find_primitive st = Some None.
Proof.
  intros P G T F. destruct (C91_roundtrip st P) as (t' & T' & B). rewrite T in T'. injection T' as <-. unfold get_primitive. rewrite T, F, B. rewrite (C91_reflexive st g (proj2 P) G). reflexivity.
Qed.
(** Primitive structures *)
Theorem C91_primitive st t p candidate : get_spglib st = Some t -> find_primitive t = Some p -> spglib2struct p = Some candidate ->
  (get_primitive get_spacegroup find_primitive st = Some None <-> same candidate st = Some true) /\
  (forall r, get_primitive get_spacegroup find_primitive st = Some (Some r) <-> r = candidate /\ same candidate st = Some false).
Proof.
  intros T P C. unfold get_primitive. rewrite T, P, C. destruct (same candidate st) as [[|]|]; split; try (intros r); split; intros H; try discriminate H; try reflexivity.
  - destruct H as (_ & H). discriminate H.
  - injection H as <-. auto.
  - destruct H as (-> & _). reflexivity.
  - destruct H as (_ & H). discriminate H.
Qed.
Theorem C91_primitive_fails st t : get_spglib st = Some t -> find_primitive t = None -> get_primitive get_spacegroup find_primitive st = None.
Proof. intros T P. unfold get_primitive. now rewrite T, P. Qed.
(** An irreducible structure may be answered by another realisation of itself instead of None: the
    library may move an atom by a lattice vector. *)
Theorem C91_irreducible_refuted st t i u n m k : proper st -> get_spglib st = Some t -> nth_error (coords_frac st) i = Some u -> Rabs (vx u) <= 1000 -> (n <> 0)%Z ->
  let x := firstn i (coords_frac st) ++ Vec (vx u + IZR n) (vy u + IZR m) (vz u + IZR k) :: skipn (S i) (coords_frac st) in
  find_primitive t = Some (cell st, x, snd t) -> get_primitive get_spacegroup find_primitive st = Some (Some (Struct (symbols st) (cell st) x)) /\ length x = length (coords_frac st).
Proof.
  intros P T U B N x F. destruct (C91_roundtrip st P) as (t' & T' & E). rewrite T in T'. injection T' as <-. assert (T2 := T). unfold get_spglib in T2. destruct (znucl (symbols st)) as [z|]; [|discriminate T2]. injection T2 as <-. cbn [snd] in F.
  assert (C : spglib2struct (cell st, x, z) = Some (Struct (symbols st) (cell st) x)).
  { unfold spglib2struct in *. destruct (opt_map (nth_error table) z) as [s|]; [|discriminate E]. assert (E' : Struct s (cell st) (coords_frac st) = st) by congruence. apply (f_equal symbols) in E'. cbn in E'. congruence. }
  split.
  - apply (C91_primitive st _ _ _ T F C). split; [reflexivity|]. exact (C91_image_refuted st i u n m k (proj2 P) U B N).
  - unfold x. rewrite app_length. cbn [length]. rewrite firstn_length, skipn_length. assert (i < length (coords_frac st))%nat by (apply nth_error_Some; congruence). lia.
Qed.
End C91.

(** A library which knows one text, and diamond *)
Definition one_group (t : spg_tuple) : option pstr := Some (text "Fd-3m (227)").
Definition diamond : struct := Struct [text "C"; text "C"] (Mat (Vec 0 2 2) (Vec 2 0 2) (Vec 2 2 0)) [Vec 0 0 0; Vec (/ 4) (/ 4) (/ 4)].
Example C91_case : proper diamond /\ spacegroup one_group diamond = Some (227%Z, text "Fd-3m") /\ is_same_struct one_group diamond diamond = Some true /\
  get_primitive one_group Some diamond = Some None.
Proof.
  assert (P : proper diamond) by (split; [repeat (apply Forall_cons; [cbn; tauto|]); apply Forall_nil|reflexivity]).
  assert (G : spacegroup one_group diamond = Some (227%Z, text "Fd-3m")).
  { apply (C91_spacegroup one_group diamond (cell diamond, coords_frac diamond, [6%nat; 6%nat]) _ _ [" "%char]); [reflexivity| |discriminate|intros c [<-|[]]; reflexivity|reflexivity]. split; [discriminate|]. intros c. cbn. intuition; subst; reflexivity. }
  split; [exact P|]. split; [exact G|]. split; [exact (C91_reflexive one_group diamond _ eq_refl G)|]. exact (C91_already_primitive one_group Some diamond _ _ P G eq_refl eq_refl).
Qed.
(** the same crystal in another frame: x and y axes turned by 90 degrees *)
Example C91_case_rotated : is_same_struct one_group diamond (Struct (symbols diamond) (Mat (Vec (-2) 0 2) (Vec 0 2 2) (Vec (-2) 2 0)) (coords_frac diamond)) = Some true.
Proof. refine (C91_rotation one_group (symbols diamond) (coords_frac diamond) (cell diamond) _ (227%Z, text "Fd-3m") eq_refl _ eq_refl eq_refl). unfold rotated, dot. cbn. repeat split; ring. Qed.
Example C91_case_image : is_same_struct one_group (Struct (symbols diamond) (cell diamond) [Vec (0 + 1) (0 + 0) (0 + 0); Vec (/ 4) (/ 4) (/ 4)]) diamond = Some false.
Proof. refine (C91_image_refuted one_group diamond 0 (Vec 0 0 0) 1 0 0 eq_refl eq_refl _ _); [cbn; rewrite Rabs_R0; lra|discriminate]. Qed.
Print Assumptions C91_same.
Print Assumptions C91_early.
Print Assumptions C91_rotation.
Print Assumptions C91_image_refuted.
Print Assumptions C91_not_symmetric_refuted.
Print Assumptions C91_mirror_refuted.
Print Assumptions C91_spacegroup.
Print Assumptions C91_roundtrip.
Print Assumptions C91_reflexive.
Print Assumptions C91_already_primitive.
Print Assumptions C91_primitive.
Print Assumptions C91_primitive_fails.
Print Assumptions C91_irreducible_refuted.
