(** C90: minima, roots and inverse lookup of fits *)
From Coq Require Import List Reals Lra Lia ZArith Bool Arith.
From Verif Require Import Fit1D Fit1DSpec.
Import ListNotations.
Local Open Scope list_scope.
Local Open Scope R_scope.
Local Notation length := List.length.

Lemma deriv_cont f x l : derivable_pt_lim f x l -> continuity_pt f x.
Proof. intros H. apply derivable_continuous_pt. exists l. exact H. Qed.
(** f' nondecreasing and zero at z: z is the minimum *)
Lemma convex_min f f1 a b z : (forall x, on a b x -> derivable_pt_lim f x (f1 x)) -> increasing_on f1 a b -> on a b z -> f1 z = 0 -> minimum_on f a b z.
Proof.
  intros D M Z E. split; [exact Z|]. intros x X. unfold on in *. destruct (Rtotal_order z x) as [L|[->|L]]; [|lra|].
  - destruct (MVT_cor2 f f1 z x L) as (c & H & C); [intros c C; apply D; lra|]. assert (0 <= f1 c) by (rewrite <- E; apply M; unfold on; lra). assert (0 <= f1 c * (x - z)) by (apply Rmult_le_pos; lra). lra.
  - destruct (MVT_cor2 f f1 x z L) as (c & H & C); [intros c C; apply D; lra|]. assert (f1 c <= 0) by (rewrite <- E; apply M; unfold on; lra). assert (0 <= - f1 c * (z - x)) by (apply Rmult_le_pos; lra). lra.
Qed.
Lemma concave_max f f1 a b z : (forall x, on a b x -> derivable_pt_lim f x (f1 x)) -> increasing_on (fun x => - f1 x) a b -> on a b z -> f1 z = 0 -> maximum_on f a b z.
Proof.
  intros D M Z E. destruct (convex_min (fun x => - f x) (fun x => - f1 x) a b z) as (_ & H); [intros x X; apply (derivable_pt_lim_opp f); now apply D|exact M|exact Z|lra|]. split; [exact Z|]. intros x X. specialize (H x X). lra.
Qed.
Section C90.
Variable brentq : (R -> R) -> R -> R -> option R.
Variable newton : (R -> R) -> R -> option R.
Variable splrep : list R -> list R -> option (nat -> R -> R).
Variable tol : R.
Hypothesis BR : bracketing tol brentq.
Hypothesis NW : finds_zero tol newton.
(** the search interval: given, or that of the data *)
Definition searched (s : fit) (xab : option (R * R)) (a b : R) : Prop := match xab with Some ab => ab = (a, b) | None => range s a b end.
Lemma by_brent s func xab a b : searched s xab a b -> findroot_ brentq newton s func None xab = brentq func a b.
Proof. destruct xab as [ab|]; cbn; [intros ->; reflexivity|]. intros (t & E & ->). rewrite E. reflexivity. Qed.
(** The minimum of a convex fit: found exactly if the slope changes its sign, and then it is the
    minimum over the whole interval. *)
Theorem C90_min s xab a b : searched s xab a b -> a <= b -> smooth s a b -> increasing_on (at_ s 1) a b ->
  (forall x, get_min brentq newton s None xab = Some x -> exists z, Rabs (x - z) <= tol /\ minimum_on (at_ s 0) a b z) /\
  (get_min brentq newton s None xab = None <-> 0 < at_ s 1 a \/ at_ s 1 b < 0).
Proof.
  intros SE L SM IN. unfold get_min. rewrite (by_brent s _ xab a b SE). destruct BR as (B1 & B2 & B3). assert (CO : forall x, on a b x -> continuity_pt (at_ s 1) x) by (intros x X; now apply SM). assert (IAB := IN a b ltac:(unfold on; lra) ltac:(unfold on; lra) L). split.
  - intros x H. destruct (B3 _ _ _ _ L CO H) as (z & Z & E & T). exists z. split; [exact T|]. apply (convex_min _ (at_ s 1)); [intros u U; now apply SM|exact IN|exact Z|exact E].
  - split.
    + intros H. destruct (Rlt_dec 0 (at_ s 1 a)) as [|N1]; [now left|]. destruct (Rlt_dec (at_ s 1 b) 0) as [|N2]; [now right|]. exfalso. destruct (B2 _ _ _ L CO) as (x & X); [|congruence]. assert (0 <= - at_ s 1 a * at_ s 1 b) by (apply Rmult_le_pos; lra). lra.
    + intros [H|H]; apply B1; [apply Rmult_lt_0_compat; lra|]. replace (at_ s 1 a * at_ s 1 b) with (- at_ s 1 a * - at_ s 1 b) by ring. apply Rmult_lt_0_compat; lra.
Qed.
Theorem C90_max s xab a b : searched s xab a b -> a <= b -> smooth s a b -> increasing_on (fun x => - at_ s 1 x) a b ->
  (forall x, get_max brentq newton s None xab = Some x -> exists z, Rabs (x - z) <= tol /\ maximum_on (at_ s 0) a b z) /\
  (get_max brentq newton s None xab = None <-> at_ s 1 a < 0 \/ 0 < at_ s 1 b).
Proof.
  intros SE L SM IN. assert (SM2 : smooth (Fit (fx s) (fy s) (fun n x => - at_ s n x)) a b) by (intros x X; destruct (SM x X) as (D & C); split; [exact (derivable_pt_lim_opp _ _ _ D)|exact (continuity_pt_opp _ _ C)]).
  destruct (C90_min (Fit (fx s) (fy s) (fun n x => - at_ s n x)) xab a b SE L SM2 IN) as (A & B). split.
  - intros x H. destruct (A x H) as (z & T & Z & M). exists z. split; [exact T|]. split; [exact Z|]. intros u U. specialize (M u U). cbn in M. lra.
  - change (get_max brentq newton s None xab) with (get_min brentq newton (Fit (fx s) (fy s) (fun n x => - at_ s n x)) None xab). rewrite B. cbn. split; intros [H|H]; lra.
Qed.
(** In general only a point with slope zero is found, by both methods. *)
Theorem C90_stationary s x0 xab x a b : searched s xab a b -> a <= b -> smooth s a b -> get_min brentq newton s x0 xab = Some x -> exists z, Rabs (x - z) <= tol /\ at_ s 1 z = 0 /\ (x0 = None -> on a b z).
Proof.
  intros SE L SM H. destruct x0 as [u|].
  - destruct (NW _ _ _ H) as (z & E & T). exists z. split; [exact T|]. split; [exact E|discriminate].
  - unfold get_min in H. rewrite (by_brent s _ xab a b SE) in H. destruct BR as (_ & _ & B3). destruct (B3 _ _ _ _ L (fun x X => proj2 (SM x X)) H) as (z & Z & E & T). exists z. auto.
Qed.
(** get_min of a fit with a maximum in the interval returns the maximum. *)
Theorem C90_maximum_refuted s xab a b : searched s xab a b -> a <= b -> smooth s a b -> increasing_on (fun x => - at_ s 1 x) a b -> at_ s 1 b <= 0 <= at_ s 1 a ->
  exists x z, get_min brentq newton s None xab = Some x /\ Rabs (x - z) <= tol /\ maximum_on (at_ s 0) a b z.
Proof.
  intros SE L SM IN SG. unfold get_min. rewrite (by_brent s _ xab a b SE). destruct BR as (B1 & B2 & B3). assert (CO : forall x, on a b x -> continuity_pt (at_ s 1) x) by (intros x X; now apply SM). destruct (B2 (at_ s 1) a b L CO) as (x & X); [assert (0 <= at_ s 1 a * - at_ s 1 b) by (apply Rmult_le_pos; lra); lra|].
  destruct (B3 _ _ _ _ L CO X) as (z & Z & E & T). exists x, z. split; [exact X|]. split; [exact T|]. apply (concave_max _ (at_ s 1)); [intros u U; now apply SM|exact IN|exact Z|exact E].
Qed.
(** Roots, and x for a given y: for a monotonic curve this is the inverse. *)
Definition strictly (f : R -> R) (a b : R) : Prop := strictly_on f a b \/ strictly_on (fun x => - f x) a b.
Lemma strict_inj f a b x y : strictly f a b -> on a b x -> on a b y -> f x = f y -> x = y.
Proof. intros M X Y E. destruct (Rtotal_order x y) as [L|[|L]]; [|assumption|]; exfalso; destruct M as [M|M]; [specialize (M x y X Y L)|specialize (M x y X Y L)|specialize (M y x Y X L)|specialize (M y x Y X L)]; cbn in M; lra. Qed.
Theorem C90_root s xab a b : searched s xab a b -> a <= b -> (forall x, on a b x -> continuity_pt (at_ s 0) x) ->
  (forall x, get_root brentq newton s None xab = Some x -> exists z, on a b z /\ at_ s 0 z = 0 /\ Rabs (x - z) <= tol) /\
  (forall z, strictly (at_ s 0) a b -> on a b z -> at_ s 0 z = 0 -> exists x, get_root brentq newton s None xab = Some x /\ Rabs (x - z) <= tol).
Proof.
  intros SE L CO. unfold get_root. rewrite (by_brent s _ xab a b SE). destruct BR as (B1 & B2 & B3). split; [intros x H; exact (B3 _ _ _ _ L CO H)|]. intros z M Z E.
  destruct (B2 _ _ _ L CO) as (x & X).
  - assert (PA : (a = z \/ a < z) /\ (z = b \/ z < b)) by (unfold on in Z; destruct (Rtotal_order a z) as [|[|]], (Rtotal_order z b) as [|[|]]; lra). destruct PA as (PA & PB). assert (IA : on a b a) by (unfold on; lra). assert (IB : on a b b) by (unfold on; lra).
    destruct PA as [->|PA]; [rewrite E; lra|]. destruct PB as [<-|PB]; [rewrite E; lra|]. destruct M as [M|M]; assert (H1 := M a z IA Z PA); assert (H2 := M z b Z IB PB); cbn in H1, H2.
    + assert (0 <= - at_ s 0 a * at_ s 0 b) by (apply Rmult_le_pos; lra). lra.
    + assert (0 <= at_ s 0 a * - at_ s 0 b) by (apply Rmult_le_pos; lra). lra.
  - exists x. split; [exact X|]. destruct (B3 _ _ _ _ L CO X) as (w & W & F & T). rewrite (strict_inj _ a b z w M Z W (eq_trans E (eq_sym F))). exact T.
Qed.
Lemma fold_min_le l : forall m, fold_left Rmin l m <= m /\ forall x, In x l -> fold_left Rmin l m <= x.
Proof. induction l as [|y l IH]; intros m; cbn; [split; [lra|intros x []]|]. destruct (IH (Rmin m y)) as (A & B). split; [eapply Rle_trans; [exact A|apply Rmin_l]|]. intros x [->|I]; [eapply Rle_trans; [exact A|apply Rmin_r]|now apply B]. Qed.
Lemma fold_max_ge l : forall m, m <= fold_left Rmax l m /\ forall x, In x l -> x <= fold_left Rmax l m.
Proof. induction l as [|y l IH]; intros m; cbn; [split; [lra|intros x []]|]. destruct (IH (Rmax m y)) as (A & B). split; [eapply Rle_trans; [apply Rmax_l|exact A]|]. intros x [->|I]; [eapply Rle_trans; [apply Rmax_r|exact A]|now apply B]. Qed.
Lemma fold_min_in l : forall m, In (fold_left Rmin l m) (m :: l).
Proof. induction l as [|y l IH]; intros m; cbn [fold_left]; [now left|]. destruct (IH (Rmin m y)) as [E|I]; [|now right; right]. rewrite <- E. unfold Rmin. destruct (Rle_dec m y); [now left|now right; left]. Qed.
Lemma fold_max_in l : forall m, In (fold_left Rmax l m) (m :: l).
Proof. induction l as [|y l IH]; intros m; cbn [fold_left]; [now left|]. destruct (IH (Rmax m y)) as [E|I]; [|now right; right]. rewrite <- E. unfold Rmax. destruct (Rle_dec m y); [now right; left|now left]. Qed.
(** y lies between two data values *)
Definition in_data (s : fit) (y0 : R) : Prop := exists u v, In u (fy s) /\ In v (fy s) /\ u <= y0 <= v.
Lemma invsplev_range s y0 x0 xab : (in_data s y0 -> invsplev brentq newton s y0 x0 xab = findroot_ brentq newton s (fun x => at_ s 0 x - y0) x0 xab) /\ (~ in_data s y0 -> invsplev brentq newton s y0 x0 xab = None).
Proof.
  unfold invsplev, in_data. destruct (fy s) as [|y t]; [split; [intros (u & _ & [] & _)|reflexivity]|]. destruct (fold_min_le t y) as (A1 & A2). destruct (fold_max_ge t y) as (B1 & B2). split.
  - intros (u & v & U & V & E). assert (fold_left Rmin t y <= u) by (destruct U as [->|U]; [exact A1|now apply A2]). assert (v <= fold_left Rmax t y) by (destruct V as [->|V]; [exact B1|now apply B2]). destruct (Rle_dec _ y0); [|lra]. destruct (Rle_dec y0 _); [reflexivity|lra].
  - intros N. destruct (Rle_dec _ y0) as [P|]; [|reflexivity]. destruct (Rle_dec y0 _) as [Q|]; [|reflexivity]. exfalso. apply N. eexists _, _. split; [exact (fold_min_in t y)|]. split; [exact (fold_max_in t y)|]. split; assumption.
Qed.
Theorem C90_inverse s xab a b u : searched s xab a b -> a <= b -> (forall x, on a b x -> continuity_pt (at_ s 0) x) -> strictly (at_ s 0) a b -> on a b u -> in_data s (at_ s 0 u) ->
  exists x, invsplev brentq newton s (at_ s 0 u) None xab = Some x /\ Rabs (x - u) <= tol.
Proof.
  intros SE L CO M U IN. rewrite (proj1 (invsplev_range s _ None xab) IN). set (y0 := at_ s 0 u) in *.
  destruct (C90_root (Fit (fx s) (fy s) (fun _ x => at_ s 0 x - y0)) xab a b SE L) as (_ & H).
  - intros x X. cbn. apply (continuity_pt_minus (at_ s 0) (fun _ => y0)); [now apply CO|]. apply derivable_continuous_pt. exists 0. apply derivable_pt_lim_const.
  - apply (H u); [|exact U|unfold y0; cbn; lra]. destruct M as [M|M]; [left|right]; intros x y X Y LT; specialize (M x y X Y LT); cbn in *; lra.
Qed.
Theorem C90_outside s y0 x0 xab : ~ in_data s y0 -> invsplev brentq newton s y0 x0 xab = None.
Proof. intros N. now apply invsplev_range. Qed.
(** A value which the curve takes, even twice, is not found if both ends are above it. *)
Theorem C90_lookup_refuted s a b y0 : range s a b -> y0 < at_ s 0 a -> y0 < at_ s 0 b -> invsplev brentq newton s y0 None None = None.
Proof.
  intros SE A B. destruct (invsplev_range s y0 None None) as (H1 & H2). assert (DE : findroot_ brentq newton s (fun x => at_ s 0 x - y0) None None = None).
  { rewrite (by_brent s _ None a b SE). apply BR. apply Rmult_lt_0_compat; lra. }
  unfold invsplev. destruct (fy s); [reflexivity|]. destruct (Rle_dec _ y0); [|reflexivity]. destruct (Rle_dec y0 _); [exact DE|reflexivity].
Qed.
(** is_mono looks at the data points: rising, falling or constant throughout. *)
Lemma sign_cases x : (sign x = 1%Z /\ 0 < x) \/ (sign x = 0%Z /\ x = 0) \/ (sign x = (-1)%Z /\ x < 0).
Proof. unfold sign. destruct (Rlt_dec 0 x); [auto|]. destruct (Rlt_dec x 0); [auto|]. right. left. split; [reflexivity|lra]. Qed.
Lemma mono_signs s x y l : map (at_ s 0) (fx s) = x :: y :: l -> is_mono s = true <-> forall i a b, nth_error (x :: y :: l) i = Some a -> nth_error (x :: y :: l) (S i) = Some b -> sign (b - a) = sign (y - x).
Proof.
  intros E. unfold is_mono. rewrite E. clear E. revert x y. induction l as [|z l IH]; intros x y.
  - cbn. split; [|reflexivity]. intros _ [|[|i]] a b A B; cbn in A, B; [injection A as <-; injection B as <-; reflexivity|discriminate B|destruct i; discriminate B].
  - change (diff Rminus (x :: y :: z :: l)) with ((y - x) :: diff Rminus (y :: z :: l)). specialize (IH y z). change (diff Rminus (y :: z :: l)) with ((z - y) :: diff Rminus (z :: l)) in *. change (diff Z.sub (map sign ((y - x) :: (z - y) :: diff Rminus (z :: l)))) with ((sign (z - y) - sign (y - x))%Z :: diff Z.sub (map sign ((z - y) :: diff Rminus (z :: l)))). cbn [forallb]. rewrite andb_true_iff, IH, Z.eqb_eq. split.
    + intros (E1 & H) [|i] a b A B; [cbn in A, B; injection A as <-; injection B as <-; reflexivity|]. rewrite (H i a b A B). lia.
    + intros H. assert (E1 : sign (z - y) = sign (y - x)) by exact (H 1%nat y z eq_refl eq_refl). split; [lia|]. intros i a b A B. rewrite (H (S i) a b A B). congruence.
Qed.
Lemma chain (P : R -> R -> Prop) l : (forall a b c, P a b -> P b c -> P a c) -> (forall i a b, nth_error l i = Some a -> nth_error l (S i) = Some b -> P a b) -> pairs l P.
Proof.
  intros TR ST i j a b L A B. revert b B. induction L as [|j L IH]; intros b B; [exact (ST i a b A B)|]. destruct (nth_error l j) as [c|] eqn:C; [|apply nth_error_None in C; assert (S j < length l)%nat by (apply nth_error_Some; congruence); lia]. exact (TR a c b (IH c eq_refl) (ST j c b C B)).
Qed.
Theorem C90_mono s : is_mono s = true <-> (pairs (map (at_ s 0) (fx s)) Rlt \/ pairs (map (at_ s 0) (fx s)) Rgt \/ pairs (map (at_ s 0) (fx s)) eq).
Proof.
  destruct (map (at_ s 0) (fx s)) as [|x [|y l]] eqn:E.
  - unfold is_mono. rewrite E. split; [|reflexivity]. intros _. left. intros [|i] j a b L A; discriminate A.
  - unfold is_mono. rewrite E. split; [|reflexivity]. intros _. left. intros i [|[|j]] a b L A B; [lia|discriminate B|destruct j; discriminate B].
  - rewrite (mono_signs s x y l E). split.
    + intros H. destruct (sign_cases (y - x)) as [(SG & _)|[(SG & _)|(SG & _)]]; rewrite SG in H.
      * left. apply chain; [intros a b c; apply Rlt_trans|]. intros i a b A B. specialize (H i a b A B). destruct (sign_cases (b - a)) as [(S1 & C)|[(S1 & C)|(S1 & C)]]; [lra|rewrite S1 in H; discriminate H|rewrite S1 in H; discriminate H].
      * right. right. apply chain; [congruence|]. intros i a b A B. specialize (H i a b A B). destruct (sign_cases (b - a)) as [(S1 & C)|[(S1 & C)|(S1 & C)]]; [rewrite S1 in H; discriminate H|lra|rewrite S1 in H; discriminate H].
      * right. left. apply chain; [unfold Rgt; intros a b c U V; lra|]. intros i a b A B. specialize (H i a b A B). destruct (sign_cases (b - a)) as [(S1 & C)|[(S1 & C)|(S1 & C)]]; [rewrite S1 in H; discriminate H|rewrite S1 in H; discriminate H|lra].
    + intros H i a b A B. destruct H as [H|[H|H]]; assert (P1 := H i (S i) a b (Nat.lt_succ_diag_r i) A B); assert (P2 := H 0%nat 1%nat x y Nat.lt_0_1 eq_refl eq_refl); destruct (sign_cases (b - a)) as [(-> & C)|[(-> & C)|(-> & C)]]; destruct (sign_cases (y - x)) as [(-> & D)|[(-> & D)|(-> & D)]]; try reflexivity; lra.
Qed.
(** A spline object: sorted data, met with the wanted accuracy *)
Lemma diff_nth l i a b : nth_error l i = Some a -> nth_error l (S i) = Some b -> nth_error (diff Rminus l) i = Some (b - a).
Proof.
  revert i. induction l as [|x l IH]; intros i A B; [destruct i; discriminate A|]. destruct l as [|y l]; [destruct i as [|[|]]; discriminate B|]. change (diff Rminus (x :: y :: l)) with ((y - x) :: diff Rminus (y :: l)). destruct i as [|i]; [cbn in A, B; injection A as <-; injection B as <-; reflexivity|]. exact (IH i A B).
Qed.
Lemma diff_in l d : In d (diff Rminus l) -> exists i a b, nth_error l i = Some a /\ nth_error l (S i) = Some b /\ d = b - a.
Proof.
  induction l as [|x l IH]; [intros []|]. destruct l as [|y l]; [intros []|]. change (diff Rminus (x :: y :: l)) with ((y - x) :: diff Rminus (y :: l)). intros [<-|I]; [exists 0%nat, x, y; auto|]. destruct (IH I) as (i & a & b & A & B & ->). exists (S i), a, b. auto.
Qed.
Theorem C90_spline x y eps c s : spline splrep x y eps c = Some s <->
  exists f, s = Fit x y f /\ splrep x y = Some f /\ length x = length y /\ pairs x Rle /\ (c = true -> forall i u v, nth_error x i = Some u -> nth_error y i = Some v -> Rabs (f 0%nat u - v) < eps).
Proof.
  unfold spline. destruct (forallb _ (diff Rminus x)) eqn:SO.
  - assert (PX : pairs x Rle).
    { apply chain; [intros a b d; apply Rle_trans|]. intros i a b A B. rewrite forallb_forall in SO. specialize (SO _ (nth_error_In _ _ (diff_nth x i a b A B))). destruct (Rle_dec 0 (b - a)); [lra|discriminate SO]. }
    destruct (Nat.eqb_spec (length x) (length y)) as [LL|NL]; [|split; [discriminate|intros (f & _ & _ & L & _); contradiction]]. destruct (splrep x y) as [f|]; [|split; [discriminate|intros (f & _ & E & _); discriminate E]].
    assert (EQ : forallb (fun xy => if Rlt_dec (Rabs (f 0%nat (fst xy) - snd xy)) eps then true else false) (combine x y) = true <-> forall i u v, nth_error x i = Some u -> nth_error y i = Some v -> Rabs (f 0%nat u - v) < eps).
    { rewrite forallb_forall. split.
      - intros H i u v U V. assert (I : In (u, v) (combine x y)) by (clear - U V; revert y i U V; induction x as [|a x IH]; intros [|b y] [|i] U V; try discriminate; cbn in *; [left; congruence|right; exact (IH y i U V)]). specialize (H _ I). cbn in H. now destruct (Rlt_dec _ eps).
      - intros H (u, v) I. cbn. assert (NI : exists i, nth_error x i = Some u /\ nth_error y i = Some v) by (clear - I; revert y I; induction x as [|a x IH]; intros [|b y] I; try destruct I; [injection H as <- <-; now exists 0%nat|destruct (IH y H) as (i & A & B); now exists (S i)]). destruct NI as (i & U & V). specialize (H i u v U V). destruct (Rlt_dec _ eps); [reflexivity|contradiction]. }
    destruct c; cbn [andb].
    + destruct (forallb _ (combine x y)) eqn:FB; cbn [negb].
      * split; [intros E; injection E as <-; exists f; repeat (split; [auto|]); intros _; now apply EQ|]. intros (f2 & -> & E & _). injection E as <-. reflexivity.
      * split; [discriminate|]. intros (f2 & -> & E & _ & _ & H). injection E as <-. assert (X := proj2 EQ (H eq_refl)). congruence.
    + split; [intros E; injection E as <-; exists f; repeat (split; [auto|]); discriminate|]. intros (f2 & -> & E & _). injection E as <-. reflexivity.
  - split; [discriminate|]. intros (f & _ & _ & _ & PX & _). exfalso. assert (X : forallb (fun d => if Rle_dec 0 d then true else false) (diff Rminus x) = true); [|congruence]. apply forallb_forall. intros d I. destruct (diff_in x d I) as (i & a & b & A & B & ->). specialize (PX i (S i) a b (Nat.lt_succ_diag_r i) A B). destruct (Rle_dec 0 (b - a)); [reflexivity|lra].
Qed.
(** findmin and findroot return the point and the value of the spline there. *)
Theorem C90_findmin x y u v : findmin brentq newton splrep x y = Some (u, v) -> exists s, spline splrep x y (/ 10 ^ 10) true = Some s /\ get_min brentq newton s None None = Some u /\ v = at_ s 0 u.
Proof. unfold findmin. destruct (spline _ _ _ _ _) as [s|] eqn:E; [|discriminate]. destruct (get_min _ _ s None None) as [w|] eqn:G; [|discriminate]. intros H. injection H as <- <-. exists s. auto. Qed.
Theorem C90_findroot x y u v : findroot brentq newton splrep x y = Some (u, v) -> exists s, spline splrep x y (/ 10 ^ 10) true = Some s /\ get_root brentq newton s None None = Some u /\ v = at_ s 0 u.
Proof. unfold findroot. destruct (spline _ _ _ _ _) as [s|] eqn:E; [|discriminate]. destruct (get_root _ _ s None None) as [w|] eqn:G; [|discriminate]. intros H. injection H as <- <-. exists s. auto. Qed.
End C90.
(** ** Curves between the points, plateaus *)
Definition para (c k : R) (n : nat) (x : R) : R := match n with 0%nat => c * ((x - k) * (x - k)) | 1%nat => c * (2 * (x - k)) | 2%nat => c * 2 | _ => 0 end.
(** is_mono says nothing about the curve between the data points. *)
Theorem C90_between_refuted : exists s x y a b, range s a b /\ on a b x /\ on a b y /\ is_mono s = true /\ x < y /\ at_ s 0 y < at_ s 0 x /\ pairs (map (at_ s 0) (fx s)) Rlt.
Proof.
  set (s := Fit [0; 2; 3] [1/4; 9/4; 25/4] (para 1 (1/2))). exists s, 0, (1/2), 0, 3.
  assert (P : pairs (map (at_ s 0) (fx s)) Rlt) by (intros [|[|[|i]]] [|[|[|j]]] a b L A B; try lia; cbn in A, B; try discriminate A; try discriminate B; try (destruct j; discriminate B); injection A as <-; injection B as <-; lra).
  split; [exists [2; 3]; split; reflexivity|]. split; [unfold on; lra|]. split; [unfold on; lra|]. split; [apply C90_mono; now left|]. split; [lra|]. split; [cbn; lra|exact P].
Qed.
(** A curve which never falls is not monotonic if it is constant somewhere and rises elsewhere. *)
Theorem C90_plateau_refuted s i j a b : pairs (map (at_ s 0) (fx s)) Rle -> nth_error (map (at_ s 0) (fx s)) i = Some a -> nth_error (map (at_ s 0) (fx s)) (S i) = Some a -> nth_error (map (at_ s 0) (fx s)) j = Some b -> b <> a -> is_mono s = false.
Proof.
  intros LE A1 A2 B NE. destruct (is_mono s) eqn:E; [|reflexivity]. exfalso. apply C90_mono in E as [H|[H|H]].
  - assert (X := H i (S i) a a (Nat.lt_succ_diag_r i) A1 A2). lra.
  - assert (X := H i (S i) a a (Nat.lt_succ_diag_r i) A1 A2). lra.
  - destruct (Nat.lt_trichotomy i j) as [L|[->|L]]; [specialize (H i j a b L A1 B); congruence|congruence|specialize (H j i b a L B A1); congruence].
Qed.
(** ** Examples *)
(** bisection, taken to its limit *)
Definition bisect (f : R -> R) (a b : R) : option R :=
  match Rle_dec a b with
  | right _ => None
  | left L => if Rlt_dec 0 (f a * f b) then None else
      let P := if Rle_dec (f a) 0 then (fun x => if Rle_dec 0 (f x) then true else false) else (fun x => if Rle_dec (f x) 0 then true else false) in
      if Req_EM_T (f a) 0 then Some a else if Req_EM_T (f b) 0 then Some b else Some (proj1_sig (dicho_lb_cv a b P L))
  end.
Lemma bisect_root a b (L : a <= b) (P : R -> bool) : P b = true -> P a = false -> let l := proj1_sig (dicho_lb_cv a b P L) in
  on a b l /\ exists U W, Un_cv U l /\ Un_cv W l /\ (forall n, P (U n) = false) /\ (forall n, P (W n) = true).
Proof.
  intros PB PA. cbn zeta. destruct (dicho_lb_cv a b P L) as (l & CL). cbn [proj1_sig]. destruct (dicho_up_cv a b P L) as (u & CU). assert (E : l = u) by exact (cv_dicho a b l u P L CL CU). subst u. split.
  - split; [apply (growing_ineq _ l (dicho_lb_growing a b P L) CL 0)|]. apply (decreasing_ineq _ l (dicho_up_decreasing a b P L) CU 0).
  - exists (dicho_lb a b P), (dicho_up a b P). split; [exact CL|]. split; [exact CU|]. split; intros n; [now apply dicho_lb_car|now apply dicho_up_car].
Qed.
Lemma limit_le f l (U : nat -> R) : continuity_pt f l -> Un_cv U l -> (forall n, f (U n) <= 0) -> f l <= 0.
Proof.
  intros C H N. assert (G := continuity_seq f U l C H). destruct (Rle_dec (f l) 0) as [|P]; [assumption|]. exfalso. destruct (G (f l)) as (k & K); [lra|]. specialize (K k (le_n k)). specialize (N k). unfold R_dist in K. rewrite Rabs_left1 in K by lra. lra.
Qed.
Example ex_bisect : bracketing 0 bisect.
Proof.
  split; [|split].
  - intros f a b H. unfold bisect. destruct (Rle_dec a b); [|reflexivity]. destruct (Rlt_dec 0 (f a * f b)); [reflexivity|contradiction].
  - intros f a b L _ H. unfold bisect. destruct (Rle_dec a b); [|contradiction]. destruct (Rlt_dec 0 (f a * f b)); [lra|]. destruct (Req_EM_T (f a) 0); [eauto|]. destruct (Req_EM_T (f b) 0); eauto.
  - intros f a b x L CO H. unfold bisect in H. destruct (Rle_dec a b) as [L2|]; [|contradiction]. destruct (Rlt_dec 0 (f a * f b)) as [|N]; [discriminate H|].
    destruct (Req_EM_T (f a) 0) as [E|NA]; [injection H as <-; exists a; split; [unfold on; lra|]; split; [exact E|]; rewrite Rminus_diag_eq, Rabs_R0 by reflexivity; lra|]. destruct (Req_EM_T (f b) 0) as [E|NB]; [injection H as <-; exists b; split; [unfold on; lra|]; split; [exact E|]; rewrite Rminus_diag_eq, Rabs_R0 by reflexivity; lra|].
    injection H as H. set (P := if Rle_dec (f a) 0 then _ else _) in H.
    assert (SG : (f a < 0 /\ 0 < f b) \/ (0 < f a /\ f b < 0)).
    { destruct (Rtotal_order (f a) 0) as [A|[A|A]], (Rtotal_order (f b) 0) as [B|[B|B]]; try contradiction; auto; exfalso; apply N; [replace (f a * f b) with (- f a * - f b) by ring|]; apply Rmult_lt_0_compat; lra. }
    assert (PAB : P b = true /\ P a = false /\ ((forall u, P u = true -> 0 <= f u) /\ (forall u, P u = false -> f u <= 0) \/ (forall u, P u = true -> f u <= 0) /\ (forall u, P u = false -> 0 <= f u))).
    { unfold P. destruct SG as [(A & B)|(A & B)]; destruct (Rle_dec (f a) 0); try lra.
      - split; [destruct (Rle_dec 0 (f b)); [reflexivity|lra]|]. split; [destruct (Rle_dec 0 (f a)); [lra|reflexivity]|]. left. split; intros u U; destruct (Rle_dec 0 (f u)); try discriminate U; lra.
      - split; [destruct (Rle_dec (f b) 0); [reflexivity|lra]|]. split; [destruct (Rle_dec (f a) 0); [lra|reflexivity]|]. right. split; intros u U; destruct (Rle_dec (f u) 0); try discriminate U; lra. }
    destruct PAB as (PB & PA & PS). destruct (bisect_root a b L2 P PB PA) as (ON & U & W & CU & CW & FU & FW). rewrite H in *. clearbody P. exists x. split; [exact ON|]. split; [|rewrite Rminus_diag_eq, Rabs_R0 by reflexivity; lra]. specialize (CO x ON).
    assert (CO2 : continuity_pt (fun u => - f u) x) by exact (continuity_pt_opp _ _ CO). destruct PS as [(P1 & P2)|(P1 & P2)].
    + assert (f x <= 0) by (apply (limit_le f x U CO CU); intros n; apply P2, FU). assert (- f x <= 0) by (apply (limit_le _ x W CO2 CW); intros n; specialize (P1 _ (FW n)); lra). lra.
    + assert (f x <= 0) by (apply (limit_le f x W CO CW); intros n; apply P1, FW). assert (- f x <= 0) by (apply (limit_le _ x U CO2 CU); intros n; specialize (P2 _ (FU n)); lra). lra.
Qed.
Definition no_newton (f : R -> R) (x0 : R) : option R := if Req_EM_T (f x0) 0 then Some x0 else None.
Example ex_newton : finds_zero 0 no_newton.
Proof. intros f x0 x H. unfold no_newton in H. destruct (Req_EM_T (f x0) 0) as [E|]; [|discriminate H]. injection H as <-. exists x0. split; [exact E|]. rewrite Rminus_diag_eq, Rabs_R0 by reflexivity. lra. Qed.
Lemma para_smooth c k x y a b : smooth (Fit x y (para c k)) a b.
Proof.
  intros u _. cbn [at_]. split.
  - cbn. replace (c * (2 * (u - k))) with (c * ((1 - 0) * (u - k) + (u - k) * (1 - 0))) by ring. apply (derivable_pt_lim_scal (fun x => (x - k) * (x - k))). apply (derivable_pt_lim_mult (fun x => x - k) (fun x => x - k)); apply (derivable_pt_lim_minus id (fun _ => k)); solve [apply derivable_pt_lim_id|apply derivable_pt_lim_const].
  - apply (deriv_cont _ u (c * (2 * (1 - 0)))). cbn. apply (derivable_pt_lim_scal (fun x => 2 * (x - k))). apply (derivable_pt_lim_scal (fun x => x - k)). apply (derivable_pt_lim_minus id (fun _ => k)); solve [apply derivable_pt_lim_id|apply derivable_pt_lim_const].
Qed.
Definition cup := Fit [0; 1; 3] [1; 0; 4] (para 1 1).
Definition cap := Fit [0; 1; 3] [-1; 0; -4] (para (-1) 1).
Lemma zero_dist x z : Rabs (x - z) <= 0 -> x = z.
Proof. intros H. destruct (Req_dec (x - z) 0) as [|N]; [lra|]. apply Rabs_pos_lt in N. lra. Qed.
Example ex_min : get_min bisect no_newton cup None None = Some 1.
Proof.
  destruct (C90_min bisect no_newton 0 ex_bisect cup None 0 3) as (A & B); [exists [1; 3]; split; reflexivity|lra|apply para_smooth|intros x y _ _ L; cbn; lra|]. destruct (get_min bisect no_newton cup None None) as [x|].
  - destruct (A x eq_refl) as (z & T & Z & M). apply zero_dist in T. subst z. assert (X := M 1 ltac:(unfold on; lra)). cbn in X. f_equal. assert (0 <= (x - 1) * (x - 1)) by apply Rle_0_sqr. assert (E : (x - 1) * (x - 1) = 0) by lra. apply Rmult_integral in E. lra.
  - exfalso. destruct (proj1 B eq_refl) as [H|H]; cbn in H; lra.
Qed.
Example ex_maximum : exists x, get_min bisect no_newton cap None None = Some x /\ maximum_on (at_ cap 0) 0 3 x.
Proof.
  destruct (C90_maximum_refuted bisect no_newton 0 ex_bisect cap None 0 3) as (x & z & G & T & M); [exists [1; 3]; split; reflexivity|lra|apply para_smooth|intros x y _ _ L; cbn; lra|cbn; lra|]. apply zero_dist in T. subst z. now exists x.
Qed.
(** (x-1)^2 is 1/4 at x = 1/2, but this is not found *)
Example ex_lookup : at_ cup 0 (1/2) = 1/4 /\ in_data cup (1/4) /\ invsplev bisect no_newton cup (1/4) None None = None /\ exists x, invsplev bisect no_newton cup (1/4) None (Some (0, 1)) = Some x /\ x = 1/2.
Proof.
  assert (E : at_ cup 0 (1/2) = 1/4) by (cbn; lra). assert (I : in_data cup (1/4)) by (exists 0, 1; cbn; intuition lra). split; [exact E|]. split; [exact I|]. split.
  - apply (C90_lookup_refuted bisect no_newton 0 ex_bisect cup 0 3); [exists [1; 3]; split; reflexivity|cbn; lra|cbn; lra].
  - destruct (C90_inverse bisect no_newton 0 ex_bisect cup (Some (0, 1)) 0 1 (1/2)) as (x & X & T); [reflexivity|lra|intros u _; apply (deriv_cont _ u (at_ cup 1 u)); apply (para_smooth 1 1 [0; 1; 3] [1; 0; 4] u u); unfold on; lra| |unfold on; lra|now rewrite E|].
    + right. intros u v U V L. cbn. unfold on in *. assert (0 < (v - u) * (2 - u - v)) by (apply Rmult_lt_0_compat; lra). lra.
    + rewrite E in X. exists x. split; [exact X|]. now apply zero_dist.
Qed.
Example ex_spline : exists s, spline (fun _ _ => Some (para 1 1)) [0; 1; 3] [1; 0; 4] (1/2) true = Some s.
Proof.
  eexists. apply C90_spline. eexists. split; [reflexivity|]. split; [reflexivity|]. split; [reflexivity|]. split.
  - intros [|[|[|i]]] [|[|[|j]]] a b L A B; try lia; cbn in A, B; try discriminate A; try discriminate B; try (destruct j; discriminate B); injection A as <-; injection B as <-; lra.
  - intros _ [|[|[|i]]] u v U V; cbn in U, V; try (destruct i; discriminate U); injection U as <-; injection V as <-; cbn; replace (_ - _) with 0 by lra; rewrite Rabs_R0; lra.
Qed.
Definition step_fit := Fit [0; 1; 2] [1; 1; 2] (fun n x => if Rle_dec x 1 then 1 else x).
Example ex_plateau : is_mono step_fit = false.
Proof.
  assert (E : map (at_ step_fit 0) (fx step_fit) = [1; 1; 2]) by (cbn; repeat destruct (Rle_dec _ _); try lra; reflexivity).
  apply (C90_plateau_refuted step_fit 0 2 1 2); rewrite ?E; [|reflexivity|reflexivity|reflexivity|lra]. intros [|[|[|i]]] [|[|[|j]]] a b L A B; try lia; cbn in A, B; try discriminate A; try discriminate B; try (destruct j; discriminate B); injection A as <-; injection B as <-; lra.
Qed.

Print Assumptions C90_min.
Print Assumptions C90_max.
Print Assumptions C90_stationary.
Print Assumptions C90_maximum_refuted.
Print Assumptions C90_root.
Print Assumptions C90_inverse.
Print Assumptions C90_outside.
Print Assumptions C90_lookup_refuted.
Print Assumptions C90_mono.
Print Assumptions C90_spline.
Print Assumptions C90_findmin.
Print Assumptions C90_findroot.
Print Assumptions C90_between_refuted.
Print Assumptions C90_plateau_refuted.
