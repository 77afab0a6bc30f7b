(** C82: LAMMPS data files. *)
From Coq Require Import Ascii String List Bool Arith ZArith QArith Reals Lia Lra.
From Flocq Require Import BinarySingleNaN.
From Verif Require Import Comb CombProofs ArrayIO ArrayIOProofs Decimal DecimalProofs P_Decimal TextOut TextOutSpec TextOutProofs P_TextOut Species SpeciesSpec SpeciesProofs P_Species
  Vec3 Cells CellsSpec CellsProofs P_Cells LammpsOut LammpsOutSpec LammpsOutProofs.
Import ListNotations.
Local Open Scope list_scope.
Local Open Scope nat_scope.
Local Notation length := List.length.

Theorem C82_file head g14 g symbols x xy y xz yz z coords :
  one_line head -> (forall v, word (g14 v)) -> (forall m, word (g m)) -> Forall (fun r => r <> []) coords -> length coords = length symbols -> incl symbols table ->
  exists txt types masses, struct_str head g14 g symbols x xy y xz yz z coords = Some txt /\
    data_file (length symbols) (length (symbols_unique symbols)) (g14 x) (g14 y) (g14 z) (g14 (fixed eps13 xy)) (g14 (fixed eps13 xz)) (g14 (fixed eps13 yz)) types (map (map (fixed eps13)) coords) masses (lines txt) /\
    (forall i s k, nth_error symbols i = Some s -> nth_error types i = Some k ->
       nth_error (symbols_unique symbols) (k - 1) = Some s /\ 1 <= k /\ exists m, mass_of s = Some m /\ nth_error masses (k - 1) = Some (g m)).
Proof.
  intros HL H14 Hg NR L K. destruct (typat_some symbols) as [t T]. destruct (mass symbols) as [m|] eqn:M.
  2:{ exfalso. apply (proj1 (C81_unknown symbols)) in M as (s & H & N). apply N, K, H. }
  destruct (C81_mass_unique symbols m t M T) as (u & U & LU & AG). destruct (struct_data head g14 g symbols x xy y xz yz z coords t u HL H14 Hg NR L T U) as (txt & E & D).
  exists txt, t, (map g u). split; [exact E|]. split; [exact D|]. intros i s k Hs Hk. pose proof T as T2. unfold typat in T2. apply opt_map_forall in T2. pose proof (Forall2_nth _ _ _ _ _ _ T2 Hs Hk) as O. cbn beta in O. apply order_lookup in O as [O1 O2].
  split; [exact O2|]. split; [exact O1|]. destruct (nth_error m i) as [w|] eqn:W.
  - exists w. unfold mass in M. apply opt_map_forall in M. split; [exact (Forall2_nth _ _ _ _ _ _ M Hs W)|]. rewrite nth_error_map. now rewrite (AG i k w Hk W).
  - exfalso. unfold mass in M. apply opt_map_forall, f2_length in M. apply nth_error_None in W. rewrite <- M in W. apply nth_error_None in W. congruence.
Qed.
(** A symbol without mass, or positions that do not fit, raise. *)
Theorem C82_raises head g14 g symbols x xy y xz yz z coords : (exists s, In s symbols /\ ~ In s table) \/ length coords <> length symbols -> struct_str head g14 g symbols x xy y xz yz z coords = None.
Proof.
  intros H. unfold struct_str. destruct (Nat.eqb_spec (length coords) (length symbols)) as [E|E]; [|reflexivity]. destruct H as [(s & I & N)|H]; [|congruence].
  destruct (opt_map _ (combine (seq 0 (length symbols)) _)); [|reflexivity]. apply unique_in in I. apply In_nth_error in I as [i I].
  rewrite (opt_map_none _ _ (i, s)); [reflexivity|apply enum_in; rewrite Nat.sub_0_r; split; [lia|exact I]|]. apply mass_none in N. now rewrite N.
Qed.
(** The file of symbols next to it is read back. *)
Theorem C82_symbols symbols : Forall word symbols -> read_symbols (symbols_file symbols) = symbols.
Proof.
  intros W. unfold read_symbols, symbols_file. induction W as [|w ws W F IH]; [reflexivity|]. destruct ws as [|w' ws]; [now apply word_last|].
  change (join nl (w :: w' :: ws)) with (w ++ "010"%char :: join nl (w' :: ws)). rewrite word_then by (exact W || reflexivity). now rewrite IH.
Qed.
(** ** The geometry *)
Local Open Scope R_scope.
Lemma shape_dot m n f h : same_shape m n -> dot (vecmat f m) (vecmat h m) = dot (vecmat f n) (vecmat h n).
Proof.
  intros (A & B & C & D & E & F). 
  assert (G : forall q, dot (vecmat f q) (vecmat h q) = vx f * vx h * dot (ra q) (ra q) + vy f * vy h * dot (rb q) (rb q) + vz f * vz h * dot (rc q) (rc q) +
     (vx f * vy h + vy f * vx h) * dot (ra q) (rb q) + (vx f * vz h + vz f * vx h) * dot (ra q) (rc q) + (vy f * vz h + vz f * vy h) * dot (rb q) (rc q)).
  { intros q. unfold dot, vecmat, vadd, scale. cbn. ring. }
  rewrite !G, A, B, C, D, E, F. reflexivity.
Qed.
Lemma aligned_pos m : det m <> 0 -> 0 < vx (ra (aligned_cell m)) /\ 0 < vy (rb (aligned_cell m)) /\ 0 < vz (rc (aligned_cell m)).
Proof.
  intros D. unfold aligned_cell. pose proof (cell2cc_valid m D) as V. set (k := cell2cc m) in *. destruct V as (A & B & C & Al & Be & Ga & Gr). pose proof (sin_pos _ Ga) as S. unfold rad in S.
  pose proof (volume_cc2cell k (conj A (conj B (conj C (conj Al (conj Be (conj Ga Gr))))))) as VO.
  assert (X1 : vx (ra (cc2cell k)) = a_ k) by reflexivity. assert (X2 : vy (rb (cc2cell k)) = b_ k * sin (gamma k * PI / 180)) by reflexivity.
  assert (P2 : 0 < vy (rb (cc2cell k))) by (rewrite X2; apply Rmult_lt_0_compat; assumption).
  split; [rewrite X1; exact A|]. split; [exact P2|].
  assert (P3 : 0 <= vz (rc (cc2cell k))) by (cbn; apply sqrt_pos). destruct P3 as [P3|P3]; [exact P3|exfalso].
  assert (Z : det (cc2cell k) = vx (ra (cc2cell k)) * vy (rb (cc2cell k)) * vz (rc (cc2cell k))) by (unfold det, dot, cross; cbn; ring).
  unfold volume_cell in VO. rewrite Z, <- P3, Rmult_0_r, Rabs_R0 in VO. unfold volume_cc in VO. fold (rad (alpha k)) (rad (beta k)) (rad (gamma k)) in VO. fold (gram (rad (alpha k)) (rad (beta k)) (rad (gamma k))) in VO.
  pose proof (sqrt_lt_R0 _ Gr). assert (0 < a_ k * b_ k * c_ k * sqrt (gram (rad (alpha k)) (rad (beta k)) (rad (gamma k)))) by (repeat apply Rmult_lt_0_compat; assumption). lra.
Qed.
(** The box is of the form LAMMPS asks for, and lengths, angles and the volume of the cell and all
    distances and angles between atoms, in the same or different cells, are unchanged. *)
Theorem C82_geometry m : det m <> 0 -> let M := aligned_cell m in
  (vy (ra M) = 0 /\ vz (ra M) = 0 /\ vz (rb M) = 0) /\ (0 < vx (ra M) /\ 0 < vy (rb M) /\ 0 < vz (rc M)) /\
  same_shape M m /\ Rabs (det M) = Rabs (det m) /\
  forall f h, dot (vecmat f M) (vecmat h M) = dot (vecmat f m) (vecmat h m) /\ norm (vsub (vecmat f M) (vecmat h M)) = norm (vsub (vecmat f m) (vecmat h m)).
Proof.
  intros D M. pose proof (cc2cell_cell2cc m D) as SS. fold (aligned_cell m) in SS. fold M in SS. split; [repeat split|]. split; [exact (aligned_pos m D)|]. split; [exact SS|]. split.
  - pose proof (volume_same m D) as V1. pose proof (volume_cc2cell (cell2cc m) (cell2cc_valid m D)) as V2. unfold volume_cell in *. unfold M, aligned_cell. congruence.
  - intros f h. split; [now apply shape_dot|]. unfold norm. f_equal.
    assert (E : forall q, vsub (vecmat f q) (vecmat h q) = vecmat (vsub f h) q) by (intros q; unfold vsub, vecmat, vadd, scale; cbn; f_equal; ring). rewrite !E. now apply shape_dot.
Qed.
(** The atoms written are the atoms of the structure at the same distances. *)
Theorem C82_distances m fracs : det m <> 0 -> (length (aligned_coords fracs m) = length fracs)%nat /\ forall i j f h x y, nth_error fracs i = Some f -> nth_error fracs j = Some h -> nth_error (aligned_coords fracs m) i = Some x -> nth_error (aligned_coords fracs m) j = Some y ->
  norm (vsub x y) = norm (vsub (vecmat f m) (vecmat h m)) /\ dot x y = dot (vecmat f m) (vecmat h m) /\ dot x (ra (aligned_cell m)) = dot (vecmat f m) (ra m) /\ dot x (rb (aligned_cell m)) = dot (vecmat f m) (rb m) /\ dot x (rc (aligned_cell m)) = dot (vecmat f m) (rc m).
Proof.
  intros D. unfold aligned_coords. split; [apply map_length|]. intros i j f h x y Ef Eh Ex Ey. rewrite nth_error_map, Ef in Ex. rewrite nth_error_map, Eh in Ey. injection Ex as <-. injection Ey as <-.
  destruct (C82_geometry m D) as (_ & _ & _ & _ & G). cbv zeta in G. destruct (G f h) as [G1 G2]. split; [exact G2|]. split; [exact G1|].
  assert (A : forall q, vecmat (Vec 1 0 0) q = ra q) by (intros [[] [] []]; unfold vecmat, vadd, scale; cbn; f_equal; ring).
  assert (B : forall q, vecmat (Vec 0 1 0) q = rb q) by (intros [[] [] []]; unfold vecmat, vadd, scale; cbn; f_equal; ring).
  assert (C : forall q, vecmat (Vec 0 0 1) q = rc q) by (intros [[] [] []]; unfold vecmat, vadd, scale; cbn; f_equal; ring).
  rewrite <- !A, <- !B, <- !C. repeat split; apply G.
Qed.
(** A left-handed cell is turned into a right-handed one: the structure written is the mirror image. *)
Theorem C82_mirror_refuted m F : det m < 0 -> let img q := Mat (vecmat (ra F) q) (vecmat (rb F) q) (vecmat (rc F) q) in det (img (aligned_cell m)) = - det (img m).
Proof.
  intros D img. assert (ND : det m <> 0) by lra. destruct (C82_geometry m ND) as ((Z1 & Z2 & Z3) & (P1 & P2 & P3) & _ & V & _). cbv zeta in *.
  assert (G : forall q, det (img q) = det F * det q). { intros q. unfold img, det, dot, cross, vecmat, vadd, scale. cbn. ring. }
  rewrite !G. assert (PD : 0 < det (aligned_cell m)).
  { assert (Z : det (aligned_cell m) = vx (ra (aligned_cell m)) * vy (rb (aligned_cell m)) * vz (rc (aligned_cell m))) by (unfold det, dot, cross; cbn [vx vy vz]; rewrite Z1, Z2, Z3; ring). rewrite Z. apply Rmult_lt_0_compat; [apply Rmult_lt_0_compat; assumption|assumption]. }
  rewrite (Rabs_pos_eq (det (aligned_cell m))) in V by lra. rewrite (Rabs_left (det m)) in V by lra. rewrite V. ring.
Qed.
Local Close Scope R_scope.

Example C82_case : let sy := map text ["Si"; "O"; "O"]%string in incl sy table /\ Forall word sy /\
  struct_str (text "head") (fun _ => text "5.4") (fun _ => text "16") sy one64 zero one64 zero zero one64 [[one64]; [zero]; [one64]] <> None /\
  symbols_unique sy = map text ["O"; "Si"]%string /\ typat sy = Some [2; 1; 1] /\ det (Mat (Vec 0 1 0) (Vec 1 0 0) (Vec 0 0 1)) = (-1)%R.
Proof.
  cbv zeta. split; [intros s H; repeat (destruct H as [<- |H]; [first [apply (nth_error_In table 14); reflexivity|apply (nth_error_In table 8); reflexivity]|]); destruct H|].
  split; [repeat (apply Forall_cons; [split; [discriminate|]|]); [..|apply Forall_nil]; intros c H; repeat (destruct H as [<- |H]; [reflexivity|]); destruct H|].
  split.
  - intros N. assert (X : exists txt, struct_str (text "head") (fun _ => text "5.4") (fun _ => text "16") (map text ["Si"; "O"; "O"]%string) one64 zero one64 zero zero one64 [[one64]; [zero]; [one64]] = Some txt); [|destruct X as [txt X]; congruence].
    destruct (C82_file (text "head") (fun _ => text "5.4") (fun _ => text "16") (map text ["Si"; "O"; "O"]%string) one64 zero one64 zero zero one64 [[one64]; [zero]; [one64]]) as (txt & _ & _ & E & _); try (intros; literal); try reflexivity; [repeat constructor; discriminate| |now exists txt].
    intros s H. repeat (destruct H as [<- |H]; [first [apply (nth_error_In table 14); reflexivity|apply (nth_error_In table 8); reflexivity]|]); destruct H.
  - split; [vm_compute; reflexivity|]. split; [vm_compute; reflexivity|]. unfold det, dot, cross. cbn. ring.
Qed.
Print Assumptions C82_file.
Print Assumptions C82_raises.
Print Assumptions C82_symbols.
Print Assumptions C82_geometry.
Print Assumptions C82_mirror_refuted.
Print Assumptions C82_distances.
