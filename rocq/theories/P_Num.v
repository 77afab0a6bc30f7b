(** C39 match_mask, C41 round_up_next_multiple, C62 vlinspace, C63 norm_int, C64 euler_matrix,
    C65 order_similar, C66 DataND. *)
From Coq Require Import List ZArith Reals Lra Lia Bool Arith Sorting.Sorted.
From Verif Require Import Vec3 Nd NdSpec Num NumSpec NumProofs OrderProofs.
Import ListNotations.
Close Scope R_scope.

(** ** C39.  [m a v]: the array element a matches the value v (equal, or closer than eps) *)
Theorem C39_mask : forall A B (m : A -> B -> bool) arr values, let (ret, idx) := match_mask m arr values in
  List.length ret = List.length arr /\
  (forall i, nth i ret false = true <-> exists a v, nth_error arr i = Some a /\ In v values /\ m a v = true) /\
  StronglySorted lt idx /\ (forall i, In i idx <-> nth i ret false = true).
Proof. exact (@match_mask_spec). Qed.
Theorem C39_taken : forall A B (m : A -> B -> bool) arr values,
  take_mask arr (fst (match_mask m arr values)) = List.filter (fun a => existsb (m a) values) arr.
Proof. exact (@take_mask_spec). Qed.
Example C39_ex : match_mask Z.eqb [1;2;3;4;5]%Z [1;3;3;3;7;9;-3]%Z = ([true;false;true;false;false], [0; 2]).
Proof. reflexivity. Qed.

(** ** C41 *)
Theorem C41_next : forall x mult, (0 < mult)%Z -> exists y, round_up_next_multiple x mult = Some y /\ next_multiple x mult y.
Proof. exact round_up_spec. Qed.
Theorem C41_negative_refuted : forall x mult, (mult < 0)%Z ->
  round_up_next_multiple x mult = Some x /\ exists x', round_up_next_multiple x' (-3) = Some x' /\ ~ (-3 | x')%Z.
Proof.
  intros x mult H. split; [exact (round_up_negative x mult H)|]. exists 5%Z. split; [reflexivity|]. intros [q E]. lia.
Qed.
Theorem C41_zero : forall x, round_up_next_multiple x 0 = None.
Proof. reflexivity. Qed.
Example C41_ex : round_up_next_multiple 7 5 = Some 10%Z /\ round_up_next_multiple (-7) 5 = Some (-5)%Z.
Proof. split; reflexivity. Qed.

(** ** C66 *)
Theorem C66_grid : forall A (axes : list (list Z)) (v : list nat -> A) e,
  Forall increasing axes -> Forall (fun a => a <> []) axes ->
  exists an, a2_to_an (List.length axes) e (grid axes v) = Some (an, axes) /\ shape an = map (@List.length Z) axes /\
    forall i, index_of (shape an) i -> at_ an i = v i.
Proof. exact (@datand_spec). Qed.
(** an axis in another order: the values end up at wrong places *)
Theorem C66_unordered_refuted : exists (axes : list (list Z)) (v : list nat -> nat) an axes',
  a2_to_an 1 (fun _ => 0) (grid axes v) = Some (an, axes') /\ axes' = [[1; 2]%Z] /\ axes = [[2; 1]%Z] /\
  v [0] = 20 /\ at_ an [0] = 20 /\ v [1] = 10 /\ at_ an [1] = 10.
Proof. exists [[2; 1]%Z], (fun i => match i with [0] => 20 | _ => 10 end). eexists _, _. repeat split. Qed.
Example C66_ex : Forall increasing [[0;1;5]%Z; [-2;3]%Z] /\ Forall (fun a => a <> []) [[0;1;5]%Z; [-2;3]%Z].
Proof. split; repeat constructor; try lia; discriminate. Qed.

Local Open Scope R_scope.
(** ** C62 *)
Theorem C62_points : forall a b num endpoint, List.length a = List.length b -> (0 < num)%nat ->
  exists r, vlinspace a b num endpoint = Some r /\ List.length r = num /\
    forall k j, (k < num)%nat -> (j < List.length a)%nat ->
      nth j (nth k r []) 0 = nth j a 0 + INR k * ((nth j b 0 - nth j a 0) / (if endpoint then INR (num - 1) else INR num)).
Proof. exact vlinspace_spec. Qed.
Theorem C62_ends : forall a b num, List.length a = List.length b -> (1 < num)%nat ->
  exists r, vlinspace a b num true = Some r /\
    forall j, (j < List.length a)%nat -> nth j (nth 0 r []) 0 = nth j a 0 /\ nth j (nth (num - 1) r []) 0 = nth j b 0.
Proof.
  intros a b num L H. destruct (vlinspace_spec a b num true L ltac:(lia)) as (r & R & _ & P). exists r. split; [exact R|].
  intros j Hj. rewrite !P by lia. split; [cbn; ring|]. field. apply not_0_INR. lia.
Qed.
Theorem C62_refused : forall a b num endpoint, vlinspace a b num endpoint = None <-> List.length a <> List.length b \/ num = 0%nat.
Proof.
  intros a b num ep. unfold vlinspace. destruct (Nat.eqb_spec (List.length a) (List.length b)); cbn [negb]; [|tauto].
  destruct num; [tauto|]. split; [discriminate|]. intros [H|H]; [contradiction|discriminate].
Qed.
Print Assumptions C62_refused.
Example C62_ex : exists r, vlinspace [0; 1] [4; 3] 3 true = Some r.
Proof. eexists. reflexivity. Qed.

(** ** C63: for every integration rule that is homogeneous; trapz is one *)
Theorem C63_area : forall func y x area scale, homogeneous func -> func y x <> 0 ->
  func (norm_int func y x area scale) x = area.
Proof. exact (fun func y x area sc H N => proj2 (norm_int_spec func y x area sc H N)). Qed.
Theorem C63_scale_irrelevant : forall func y x area, homogeneous func -> func y x <> 0 ->
  norm_int func y x area true = norm_int func y x area false.
Proof. exact (fun func y x area H N => eq_trans (proj1 (norm_int_spec func y x area true H N)) (eq_sym (proj1 (norm_int_spec func y x area false H N)))). Qed.
Theorem C63_trapz : homogeneous trapz /\ trapz [1; 3; 5] [0; 1; 2] = 6.
Proof. split; [exact trapz_homogeneous|]. cbn. lra. Qed.

(** ** C64 *)
Theorem C64_rotation : forall phi theta psi, Rabs phi <= 2 * PI -> Rabs theta <= PI -> Rabs psi <= 2 * PI ->
  exists m m', euler_matrix phi theta psi false = Some m /\ euler_matrix (- psi) (- theta) (- phi) false = Some m' /\
    rotation m /\ matmul m m' = unit_mat /\ (forall u v, dot (vecmat u m) (vecmat v m) = dot u v).
Proof. exact euler_spec. Qed.
Theorem C64_raises : forall phi theta psi, euler_matrix phi theta psi false = None <-> Rabs phi > 2 * PI \/ Rabs theta > PI \/ Rabs psi > 2 * PI.
Proof. exact euler_bad. Qed.
Theorem C64_degrees : forall phi theta psi, euler_matrix phi theta psi true = euler_matrix (phi * PI / 180) (theta * PI / 180) (psi * PI / 180) false.
Proof. exact (fun phi theta psi => eq_refl). Qed.
(** phi only: a rotation about z *)
Theorem C64_about_z : forall phi, Rabs phi <= 2 * PI ->
  euler_matrix phi 0 0 false = Some (Mat (Vec (cos phi) (sin phi) 0) (Vec (- sin phi) (cos phi) 0) (Vec 0 0 1)).
Proof.
  intros phi H. pose proof PI_RGT_0. rewrite euler_eq by (rewrite ?Rabs_R0; lra). f_equal. unfold matmul, rotz, rotx, vecmat, vadd, Vec3.scale. cbn.
  rewrite cos_0, sin_0. f_equal; f_equal; ring.
Qed.
(** theta only: a rotation about x *)
Theorem C64_about_x : forall theta, Rabs theta <= PI ->
  euler_matrix 0 theta 0 false = Some (Mat (Vec 1 0 0) (Vec 0 (cos theta) (sin theta)) (Vec 0 (- sin theta) (cos theta))).
Proof.
  intros theta H. pose proof PI_RGT_0. rewrite euler_eq by (rewrite ?Rabs_R0; lra). f_equal. unfold matmul, rotz, rotx, vecmat, vadd, Vec3.scale. cbn.
  rewrite cos_0, sin_0. f_equal; f_equal; ring.
Qed.

(** ** C65 *)
Theorem C65_values : forall arr order r0 rest, arr = r0 :: rest -> r0 <> [] -> (order <= 2)%nat ->
  Forall (fun r => List.length r = List.length r0) arr ->
  exists arr2, order_similar arr 1 order = Some arr2 /\ List.length arr2 = List.length arr /\ nth_error arr2 0 = Some r0 /\
    forall k row, nth_error arr k = Some row ->
      exists row2, nth_error arr2 k = Some row2 /\ List.length row2 = List.length row /\ forall x, In x row2 -> In x row.
Proof. exact order_values. Qed.
(** streams are recovered from rows in any order if the nearest value is always the right one *)
Theorem C65_streams : forall t nj arr rest, (0 < nj)%nat -> arr = map (t 0%nat) (seq 0 nj) :: rest ->
  (forall k row, nth_error rest k = Some row -> forall j, (j < nj)%nat -> followed t k j row) ->
  order_similar arr 1 2 = Some (map (fun i => map (t i) (seq 0 nj)) (seq 0 (List.length arr))).
Proof. exact order_streams. Qed.
(** repeat: only one pass is made, always with order=2 *)
Theorem C65_repeat : forall n arr order, (order <= 2)%nat -> order_similar arr (S (S n)) order = order_similar arr 1 2.
Proof. exact order_repeat. Qed.
(** order=0 and order=1: from row 2 (3) on all columns are the same *)
Theorem C65_low_order_refuted : forall arr order arr2, (order < 2)%nat -> order_similar arr 1 order = Some arr2 ->
  forall k, (2 + order <= k)%nat -> forall row row2, nth_error arr k = Some row -> nth_error arr2 k = Some row2 ->
    exists x, row2 = repeat x (List.length (nth 0 arr [])).
Proof.
  intros arr order arr2 O E. destruct (order_stale arr order arr2 O E) as (ref & H). intros k Hk row row2 E1 E2.
  eexists. exact (H k Hk row row2 E1 E2).
Qed.
(** a point can be taken twice and another one lost *)
Theorem C65_permutation_refuted : exists arr2, order_similar [[0; 1]; [5; 6]] 1 2 = Some arr2 /\ arr2 = [[0; 1]; [5; 5]].
Proof.
  eexists. split; [reflexivity|]. cbn [rows_loop row_loop seq List.length new_ref Nat.eqb nth map rev app argmin argmin_from].
  repeat match goal with |- context [Rlt_dec ?a ?b] => destruct (Rlt_dec a b) as [Lt|]; [exfalso; rewrite !Rabs_pos_eq in Lt by lra; lra|] end.
  reflexivity.
Qed.
(** two crossing lines, rows sorted *)
Example C65_ex : forall j, (j < 2)%nat -> followed (fun i j => match j with O => INR i | _ => 3 - INR i end) 1 j [1; 2].
Proof.
  intros [|[|j]] Hj; [| |lia]; unfold followed, extrapolated; cbn [INR].
  - split; [right; left; lra|]. intros x [<-|[<-|[]]]; [right|left; lra]. replace (1 + 1 - (2 * 1 - 0)) with 0 by ring. rewrite Rabs_R0. apply Rabs_pos_lt. lra.
  - split; [left; lra|]. intros x [<-|[<-|[]]]; [left; lra|right]. replace (3 - (1 + 1) - (2 * (3 - 1) - (3 - 0))) with 0 by ring. rewrite Rabs_R0. apply Rabs_pos_lt. lra.
Qed.

Print Assumptions C39_mask. Print Assumptions C39_taken. Print Assumptions C41_next. Print Assumptions C41_negative_refuted. Print Assumptions C41_zero.
Print Assumptions C66_grid. Print Assumptions C66_unordered_refuted. Print Assumptions C62_points. Print Assumptions C62_ends.
Print Assumptions C63_area. Print Assumptions C63_scale_irrelevant. Print Assumptions C63_trapz.
Print Assumptions C64_rotation. Print Assumptions C64_raises. Print Assumptions C64_degrees. Print Assumptions C64_about_z. Print Assumptions C64_about_x.
Print Assumptions C65_values. Print Assumptions C65_streams. Print Assumptions C65_repeat. Print Assumptions C65_low_order_refuted. Print Assumptions C65_permutation_refuted.
