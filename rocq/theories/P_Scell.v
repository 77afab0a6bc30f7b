(** C34 (supercells) and C35 (Voigt notation). *)
From Coq Require Import List ZArith Reals Lra Lia.
From Verif Require Import Vec3 Scell ScellSpec ScellProofs.
Import ListNotations.

(** The translations used are exactly the block of lattice points, each once; direc=-1 lists
    them backwards. *)
Theorem C34_mask : forall direc n1 n2 n3,
  NoDup (scell_mask direc n1 n2 n3) /\ List.length (scell_mask direc n1 n2 n3) = copies (n1, n2, n3) /\
  (forall m, In m (scell_mask direc n1 n2 n3) <-> in_block (n1, n2, n3) m) /\
  scell_mask false n1 n2 n3 = rev (scell_mask true n1 n2 n3).
Proof. exact (fun d n1 n2 n3 => conj (mask_nodup d n1 n2 n3) (conj (mask_length d n1 n2 n3) (conj (mask_in d n1 n2 n3) (mask_rev n1 n2 n3)))). Qed.
(** Every atom appears once per translation, at the translated position, with its symbol *)
Theorem C34_scell : forall (S : Type) (st : struct S) n1 n2 n3 direc, nonzero (n1, n2, n3) ->
  List.length (coords_frac st) = List.length (symbols st) ->
  let dims := (n1, n2, n3) in let sc := scell st dims direc false in
  let mask := scell_mask direc n1 n2 n3 in
  List.length (coords_frac sc) = (List.length (coords_frac st) * copies dims)%nat /\
  List.length (symbols sc) = (List.length (coords_frac st) * copies dims)%nat /\
  List.length mask = copies dims /\
  forall i j v s m, nth_error (coords_frac st) i = Some v -> nth_error (symbols st) i = Some s -> nth_error mask j = Some m ->
    exists w, nth_error (coords_frac sc) (i * copies dims + j) = Some w /\
      nth_error (symbols sc) (i * copies dims + j) = Some s /\
      vecmat w (cell sc) = translated (vecmat v (cell st)) (cell st) m.
Proof. exact (@scell_spec). Qed.
Theorem C34_methods : forall (S : Type) (st : struct S) dims direc,
  List.length (coords_frac st) = List.length (symbols st) -> scell st dims direc true = scell st dims direc false.
Proof. exact (@methods_agree). Qed.
(** a trajectory's supercell is the supercell of every step *)
Theorem C34_traj : forall (S : Type) (steps : list (list vec * mat)) (syms : list S) dims direc k st,
  nth_error steps k = Some st ->
  nth_error (fst (scell_traj steps syms dims direc)) k =
    Some (coords_frac (scell (Struct (fst st) (snd st) syms) dims direc false),
          cell (scell (Struct (fst st) (snd st) syms) dims direc false)) /\
  snd (scell_traj steps syms dims direc) = symbols (scell (Struct (fst st) (snd st) syms) dims direc false) /\
  List.length (fst (scell_traj steps syms dims direc)) = List.length steps.
Proof.
  exact (fun S steps syms dims direc k st E => conj (map_nth_error _ k steps E) (conj eq_refl (map_length _ steps))).
Qed.
Theorem C34_volume : forall (S : Type) (st : struct S) n1 n2 n3 direc m2,
  (det (cell (scell st (n1, n2, n3) direc m2)) = IZR (n1 * n2 * n3) * det (cell st))%R.
Proof.
  intros. unfold scell. destruct m2.
  - destruct (sc_loop2 _ _ _). cbn. unfold det, dot, cross, scale. cbn. rewrite !mult_IZR. ring.
  - cbn. unfold det, dot, cross, scale. cbn. rewrite !mult_IZR. ring.
Qed.
Example C34_ex : scell_mask true 2 (-2) 1 = [(0,0,0);(0,-1,0);(1,0,0);(1,-1,0)]%Z /\ copies (2, -2, 1)%Z = 4%nat.
Proof. split; reflexivity. Qed.

(** C35: from Voigt to tensor and back is the identity; the tensor is symmetric whatever was in
    the uninitialised array; the other way round is the identity exactly for symmetric tensors. *)
Theorem C35_voigt : forall A (e : nat -> A) e' (v : nat -> A) i, (i < 6)%nat ->
  tensor2voigt A e (voigt2tensor A e' v) i = v i.
Proof. exact (@voigt_round). Qed.
Theorem C35_symmetric : forall A (e : nat -> nat -> A) (v : nat -> A), symmetric (voigt2tensor A e v).
Proof. exact (@tensor_sym). Qed.
Theorem C35_tensor : forall A (e : nat -> A) e' (t : nat -> nat -> A),
  (forall i j, (i < 3)%nat -> (j < 3)%nat -> voigt2tensor A e' (tensor2voigt A e t) i j = t i j) <-> symmetric t.
Proof. exact (@tensor_round). Qed.
(** the order of the components: xx, yy, zz, yz, xz, xy *)
Theorem C35_order : forall A (e : nat -> A) (t : nat -> nat -> A),
  map (tensor2voigt A e t) (seq 0 6) = [t 0 0; t 1 1; t 2 2; t 1 2; t 0 2; t 0 1]%nat.
Proof. exact (fun A e t => eq_refl). Qed.
Theorem C35_voigt3d : forall A (e : list (nat -> A)) e' (v : list (nat -> A)),
  List.length e = List.length v -> List.length e' = List.length v ->
  let r := tensor2voigt3d A e (voigt2tensor3d A e' v) in
  List.length r = List.length v /\
  forall k x y i, nth_error v k = Some x -> nth_error r k = Some y -> (i < 6)%nat -> y i = x i.
Proof. exact (@voigt3d_round). Qed.
Example C35_ex : symmetric (fun i j => i + j)%nat /\ ~ symmetric (fun i j => i)%nat.
Proof. split; [intros i j _ _; lia|intros H; specialize (H 0%nat 1%nat ltac:(lia) ltac:(lia)); discriminate]. Qed.

Print Assumptions C34_mask. Print Assumptions C34_scell. Print Assumptions C34_methods. Print Assumptions C34_traj.
Print Assumptions C34_volume.
Print Assumptions C35_voigt. Print Assumptions C35_symmetric. Print Assumptions C35_tensor. Print Assumptions C35_order. Print Assumptions C35_voigt3d.
