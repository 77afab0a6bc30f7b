(** C44: padding with zeros. *)
From Coq Require Import List ZArith Bool Arith String Lia.
From Verif Require Import Nd NdSpec NdProofs Pad PadSpec PadProofs.
Import ListNotations.
Local Open Scope Z_scope.

(** Whatever pad_zeros returns has the requested length along the axis, never a smaller
    one, and consists of the array and zeros. *)
Theorem C44_padded : forall (A : Type) (zero : A) a z k where_ nadd upto tonext tonext_min r,
  axis_is (List.length (shape a)) z k ->
  pad_zeros zero a z where_ nadd upto tonext tonext_min = Some r ->
  let n := nth k (shape a) 0%nat in
  exists n', request (Z.of_nat n) nadd upto tonext tonext_min (Z.of_nat n') /\ (n <= n')%nat /\
    padded zero where_ a k n' r /\ (where_ = "end" \/ where_ = "start" \/ n' = n)%string.
Proof. intros A zero a z k where_ nadd upto tonext tm r Ax E. exact (proj1 (pad_spec zero a z k where_ nadd upto tonext tm Ax) r E). Qed.
Print Assumptions C44_padded.

(** It succeeds for every request that is unambiguous and not below the present length. *)
Theorem C44_defined : forall (A : Type) (zero : A) a z k where_ nadd upto tonext tonext_min n',
  axis_is (List.length (shape a)) z k -> let n := nth k (shape a) 0%nat in
  request (Z.of_nat n) nadd upto tonext tonext_min n' -> Z.of_nat n <= n' ->
  (where_ = "end" \/ where_ = "start" \/ n' = Z.of_nat n)%string ->
  exists r, pad_zeros zero a z where_ nadd upto tonext tonext_min = Some r.
Proof. intros A zero a z k where_ nadd upto tonext tm n' Ax n. exact (proj2 (pad_spec zero a z k where_ nadd upto tonext tm Ax) n'). Qed.
Print Assumptions C44_defined.

(** By default the length goes to the next power of two that holds the array. *)
Theorem C44_next_power : forall n p, request n None None (Some true) None p -> next_power n p.
Proof. intros n p R. inversion R; subst; [assumption|]. congruence. Qed.
Print Assumptions C44_next_power.

(** Two requests at once are refused. *)
Theorem C44_ambiguous : forall (A : Type) (zero : A) a z where_ nadd upto tonext tonext_min,
  (nadd <> None /\ upto <> None) \/ (nadd <> None /\ tonext = Some true) \/ (upto <> None /\ tonext = Some true) ->
  pad_zeros zero a z where_ nadd upto tonext tonext_min = None.
Proof.
  intros A zero a z where_ nadd upto tonext tm H. unfold pad_zeros, pad_count.
  destruct nadd, upto, tonext as [[|]|]; try reflexivity; exfalso; intuition congruence.
Qed.
Print Assumptions C44_ambiguous.

(** An axis that does not exist is refused unless zero elements are to be added. *)
Theorem C44_bad_axis : forall (A : Type) (zero : A) a z where_ nadd upto tonext tonext_min,
  bad_axis (List.length (shape a)) z -> nadd <> Some 0 -> pad_zeros zero a z where_ nadd upto tonext tonext_min = None.
Proof. intros A zero. exact (pad_bad_axis zero). Qed.
Print Assumptions C44_bad_axis.

(** The example of the docstring: nine elements to the next power of two. *)
Example C44_witness : let a := Array [9%nat] (fun i => Z.of_nat (nth 0 i 0%nat)) in
  exists r, pad_zeros 0 a 0 "end" None None (Some true) None = Some r /\ shape r = [16%nat] /\
    map (at_ r) (indices (shape r)) = [0; 1; 2; 3; 4; 5; 6; 7; 8; 0; 0; 0; 0; 0; 0; 0].
Proof. cbv zeta. eexists. split; [vm_compute; reflexivity|]. split; vm_compute; reflexivity. Qed.
Example C44_witness_2d : let a := Array [2; 3]%nat (fun i => Z.of_nat (nth 0 i 0%nat * 3 + nth 1 i 0%nat + 1)) in
  exists r, pad_zeros 0 a (-1) "start" (Some 1) None None None = Some r /\ shape r = [2; 4]%nat /\
    map (at_ r) (indices (shape r)) = [0; 1; 2; 3; 0; 4; 5; 6].
Proof. cbv zeta. eexists. split; [vm_compute; reflexivity|]. split; vm_compute; reflexivity. Qed.
