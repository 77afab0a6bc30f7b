(** A least-squares solver exists: what PolySpec.v assumes of numpy's lstsq can be met. *)
From Coq Require Import Reals List Arith Bool Lia Lra FunctionalExtensionality.
From Verif Require Import Poly PolySpec PolyProofs.
Import ListNotations.
Local Open Scope R_scope.

Section Space.
  Variable m : nat.
  Definition ip (u v : nat -> R) : R := sum (map (fun i => u i * v i) (seq 0 m)).

  Lemma ip_lin : forall a u b v w, ip (fun i => a * u i + b * v i) w = a * ip u w + b * ip v w.
  Proof. intros. unfold ip, sum. induction (seq 0 m) as [|i l IH]; cbn; [lra|]. rewrite IH. ring. Qed.
  Lemma ip_sym : forall u v, ip u v = ip v u.
  Proof. intros. unfold ip. f_equal. apply map_ext. intros. apply Rmult_comm. Qed.
  Lemma ip_ext : forall u v w, (forall i, (i < m)%nat -> u i = v i) -> ip u w = ip v w.
  Proof.
    intros u v w E. unfold ip. f_equal. apply map_ext_in. intros i Hi. apply in_seq in Hi. rewrite E by lia. reflexivity.
  Qed.
  Lemma ip_pos : forall u, 0 <= ip u u.
  Proof.
    intros. unfold ip, sum. induction (seq 0 m) as [|i l IH]; cbn; [lra|]. pose proof (Rle_0_sqr (u i)) as Q. unfold Rsqr in Q. lra.
  Qed.
  Lemma ip_zero : forall u, ip u u = 0 -> forall i, (i < m)%nat -> u i = 0.
  Proof.
    intros u E i Hi.
    assert (G : forall l, sum (map (fun i => u i * u i) l) = 0 -> forall i, In i l -> u i = 0).
    { assert (P : forall l, 0 <= sum (map (fun i => u i * u i) l)).
      { induction l as [|a l IH]; cbn; [unfold sum; cbn; lra|]. unfold sum in *. cbn. pose proof (Rle_0_sqr (u a)) as Q. unfold Rsqr in Q. lra. }
      induction l as [|a l IH]; intros S j [].
      - subst. specialize (P l). unfold sum in *. cbn in S. pose proof (Rle_0_sqr (u j)) as Q. unfold Rsqr in Q. nra.
      - apply IH; [|assumption]. specialize (P l). unfold sum in *. cbn in S. pose proof (Rle_0_sqr (u a)) as Q. unfold Rsqr in Q. lra. }
    apply (G (seq 0 m)); [exact E|]. apply in_seq. lia.
  Qed.

  Definition comb (cols : list (nat -> R)) (c : list R) (i : nat) : R := dot (map (fun u => u i) cols) c.

  Lemma comb_lin : forall cols a c b d i, length c = length cols -> length d = length cols ->
    comb cols (zip (fun x y => a * x + b * y) c d) i = a * comb cols c i + b * comb cols d i.
  Proof.
    unfold comb, dot, sum. induction cols as [|u cols IH]; intros a c b d i Lc Ld; destruct c as [|x c]; destruct d as [|y d]; try discriminate; cbn; [lra|].
    rewrite IH; cbn in *; try lia. ring.
  Qed.

  Lemma comb_orth : forall cols c r, length c = length cols -> Forall (fun u => ip r u = 0) cols -> ip r (comb cols c) = 0.
  Proof.
    induction cols as [|u cols IH]; intros c r L F.
    - unfold comb, dot. cbn. unfold ip, sum. induction (seq 0 m) as [|a l IHl]; cbn; [lra|]. rewrite IHl. cbn. lra.
    - destruct c as [|x c]; [discriminate|]. rewrite ip_sym.
      rewrite (ip_ext _ (fun i => x * u i + 1 * comb cols c i)).
      + rewrite ip_lin. rewrite (ip_sym u), (ip_sym (comb cols c)). rewrite IH; [|cbn in L; lia|inversion F; assumption].
        inversion F as [|? ? H]; subst. rewrite H. lra.
      + intros i _. unfold comb, dot, sum. cbn. ring.
  Qed.

  Definition solution (cols : list (nat -> R)) (y : nat -> R) (c : list R) : Prop :=
    length c = length cols /\ Forall (fun u => ip (fun i => y i - comb cols c i) u = 0) cols.

  (** Gram-Schmidt. *)
  Lemma solve : forall cols y, { c | solution cols y c }.
  Proof.
    induction cols as [|u cols IH]; intros y.
    - exists []. split; [reflexivity|constructor].
    - destruct (IH y) as (cy & Ly & Fy). destruct (IH u) as (cu & Lu & Fu).
      set (ry := fun i => y i - comb cols cy i) in *. set (ru := fun i => u i - comb cols cu i) in *.
      assert (OY : forall c, length c = length cols -> ip ry (comb cols c) = 0) by (intros; apply comb_orth; assumption).
      assert (OU : forall c, length c = length cols -> ip ru (comb cols c) = 0) by (intros; apply comb_orth; assumption).
      destruct (Req_EM_T (ip ru ru) 0) as [Z|NZ].
      + exists (0 :: cy). split; [cbn; lia|].
        assert (E : forall w, ip (fun i => y i - comb (u :: cols) (0 :: cy) i) w = ip ry w).
        { intros w. apply ip_ext. intros i _. unfold ry, comb, dot, sum. cbn. ring. }
        constructor.
        * rewrite E, ip_sym, (ip_ext u (comb cols cu)); [rewrite ip_sym; apply OY; assumption|].
          intros i Hi. pose proof (ip_zero ru Z i Hi) as Q. unfold ru in Q. lra.
        * rewrite Forall_forall in *. intros w Hw. rewrite E. apply Fy. assumption.
      + set (t := ip ry ru / ip ru ru).
        exists (t :: zip (fun x y => 1 * x + - t * y) cy cu). split; [cbn; rewrite zip_length; lia|].
        assert (E : forall w, ip (fun i => y i - comb (u :: cols) (t :: zip (fun x y => 1 * x + - t * y) cy cu) i) w
                   = 1 * ip ry w + - t * ip ru w).
        { intros w. rewrite <- ip_lin. apply ip_ext. intros i _. unfold comb at 1. cbn [map]. unfold dot, sum. cbn [zip fold_right].
          fold (sum (zip Rmult (map (fun u0 : nat -> R => u0 i) cols) (zip (fun x y => 1 * x + - t * y) cy cu))).
          fold (dot (map (fun u0 : nat -> R => u0 i) cols) (zip (fun x y => 1 * x + - t * y) cy cu)).
          fold (comb cols (zip (fun x y => 1 * x + - t * y) cy cu) i). rewrite comb_lin by assumption.
          unfold ry, ru. ring. }
        constructor.
        * rewrite E.
          assert (U : forall w, ip w u = 1 * ip w ru + 1 * ip w (comb cols cu)).
          { intros w. rewrite !(ip_sym w). rewrite <- ip_lin. apply ip_ext. intros i _. unfold ru. ring. }
          rewrite !U, OY, OU by assumption. unfold t. field. assumption.
        * rewrite Forall_forall in *. intros w Hw. rewrite E, Fy, Fu by assumption. lra.
  Qed.
End Space.

Definition cols_of (k : nat) (A : list (list R)) : list (nat -> R) :=
  map (fun j i => nth j (nth i A []) 0) (seq 0 k).

Lemma nth_seq_map : forall (r : list R) s, map (fun j => nth (j - s) r 0) (seq s (length r)) = r.
Proof.
  induction r as [|x r IH]; intros s; [reflexivity|]. cbn [length seq map]. rewrite Nat.sub_diag. cbn [nth]. f_equal.
  etransitivity; [|apply (IH (S s))]. apply map_ext_in. intros j Hj. apply in_seq in Hj.
  replace (j - s)%nat with (S (j - S s)) by lia. reflexivity.
Qed.

Lemma comb_row : forall k A c i, (i < length A)%nat -> Forall (fun r => length r = k) A ->
  comb (cols_of k A) c i = dot (nth i A []) c.
Proof.
  intros k A c i Hi F. unfold comb, cols_of. rewrite map_map. f_equal.
  rewrite Forall_forall in F. rewrite <- (F (nth i A [])) by (apply nth_In; assumption).
  etransitivity; [|apply (nth_seq_map (nth i A []) 0)]. apply map_ext. intros j. rewrite Nat.sub_0_r. reflexivity.
Qed.

Lemma deviation_ip : forall A y F, length y = length A ->
  deviation F A y = ip (length A) (fun i => F (nth i A []) - nth i y 0) (fun i => F (nth i A []) - nth i y 0).
Proof.
  induction A as [|r A IH]; intros y F L; [reflexivity|]. destruct y as [|v y]; [discriminate|]. injection L as L.
  cbn [deviation]. rewrite IH by assumption. unfold ip. cbn [length seq map]. unfold sum at 2. cbn [fold_right nth].
  rewrite <- seq_shift, map_map. cbn [nth]. unfold sum. ring.
Qed.

Theorem least_squares_exists : { lstsq | least_squares lstsq }.
Proof.
  exists (fun A y => proj1_sig (solve (length A) (cols_of (length (hd [] A)) A) (fun i => nth i y 0))).
  intros k A y NE L F. destruct (solve _ _ _) as (c & Lc & O). cbn [proj1_sig].
  assert (K : length (hd [] A) = k) by (destruct A; [contradiction|]; inversion F; assumption).
  rewrite K in *. assert (LC : length (cols_of k A) = k) by (unfold cols_of; rewrite map_length, seq_length; reflexivity).
  rewrite LC in Lc. split; [assumption|]. intros d Ld. rewrite !residual_dot, !deviation_ip by assumption.
  set (m := length A) in *. set (r := fun i => nth i y 0 - comb (cols_of k A) c i) in *.
  assert (E1 : forall w, ip m (fun i => dot (nth i A []) c - nth i y 0) w = - ip m r w).
  { intros w. rewrite <- (Rmult_1_l (- _)). transitivity (-1 * ip m r w + 0 * ip m r w); [|ring]. rewrite <- ip_lin.
    apply ip_ext. intros i Hi. unfold r. rewrite comb_row by assumption. ring. }
  set (e := zip (fun x y => 1 * x + -1 * y) d c).
  assert (Le : length e = k) by (unfold e; rewrite zip_length; lia).
  assert (E2 : forall w, ip m (fun i => dot (nth i A []) d - nth i y 0) w = 1 * ip m (comb (cols_of k A) e) w + -1 * ip m r w).
  { intros w. rewrite <- ip_lin. apply ip_ext. intros i Hi. unfold r, e. rewrite comb_lin by lia.
    rewrite !comb_row by assumption. ring. }
  set (X := fun i => dot (nth i A []) c - nth i y 0) in *.
  set (Y := fun i => dot (nth i A []) d - nth i y 0) in *.
  set (E := comb (cols_of k A) e) in *.
  assert (Z : ip m r E = 0) by (apply comb_orth; [lia|assumption]).
  assert (EX : ip m X X = ip m r r) by (rewrite E1, ip_sym, E1; ring).
  assert (EY : ip m Y Y = ip m E E + ip m r r).
  { rewrite E2, (ip_sym m E Y), (ip_sym m r Y), !E2, (ip_sym m E r), Z. ring. }
  rewrite EX, EY. pose proof (ip_pos m E). lra.
Qed.
