(** C46: smoothing by convolution with a kernel. *)
From Coq Require Import Reals List Arith ZArith String Lia Lra.
From Verif Require Import SignalProofs VacfSpec VacfProofs Signal Traj Smooth SmoothSpec SmoothProofs.
Import ListNotations.
Local Open Scope list_scope.
Local Open Scope R_scope.
Local Notation length := List.length.
Local Notation total := VacfSpec.total.

(** Whatever is returned has the length of the data, and each value is the sum over the
    window around it, for even and odd kernels of any length. *)
Theorem C46_value : forall data kern edge norm out, (0 < length data)%nat -> (0 < length kern)%nat ->
  smooth data kern edge norm = Some out ->
  length out = length data /\
  forall i, (i < length data)%nat -> nth i out 0 = window_sum edge data (weight kern norm) (length kern) i.
Proof.
  intros data kern edge norm out HN HM E. destruct (smooth_some _ _ _ _ _ HN HM E) as [He Hs].
  rewrite smooth_spec in E by auto. injection E as <-. split; [rewrite map_length, seq_length; reflexivity|].
  intros i Hi. apply (nth_map_seq _ (window_sum edge data (weight kern norm) (length kern))). assumption.
Qed.
Print Assumptions C46_value.

(** It returns something exactly for the two edge modes and kernels it can normalise. *)
Theorem C46_defined : forall data kern edge norm, (0 < length data)%nat -> (0 < length kern)%nat ->
  (exists out, smooth data kern edge norm = Some out) <->
  (edge = "m"%string \/ edge = "c"%string) /\ (norm = true -> total (length kern) (fun k => nth k kern 0) <> 0).
Proof.
  intros data kern edge norm HN HM. rewrite total_rsum. split.
  - intros [out E]. exact (smooth_some _ _ _ _ _ HN HM E).
  - intros [He Hs]. eexists. apply smooth_spec; assumption.
Qed.
Print Assumptions C46_defined.

(** With a non-negative kernel no value leaves the range of the data, provided the ends
    are held or the kernel is shorter than twice the data. *)
Theorem C46_within : forall data kern edge out lo hi, (0 < length data)%nat -> (0 < length kern)%nat ->
  smooth data kern edge true = Some out -> (forall x, In x kern -> 0 <= x) ->
  edge = "c"%string \/ (length kern <= 2 * length data - 1)%nat ->
  (forall x, In x data -> lo <= x <= hi) -> forall y, In y out -> lo <= y <= hi.
Proof. exact smooth_within. Qed.
Print Assumptions C46_within.

(** Constants are returned unchanged, for any kernel that can be normalised. *)
Theorem C46_constant : forall data kern edge out c, (0 < length data)%nat -> (0 < length kern)%nat ->
  smooth data kern edge true = Some out -> edge = "c"%string \/ (length kern <= 2 * length data - 1)%nat ->
  (forall x, In x data -> x = c) -> out = data.
Proof. exact smooth_constant. Qed.
Print Assumptions C46_constant.

(** A kernel that is 1 in its middle and 0 elsewhere returns the data: no shift. *)
Theorem C46_delta : forall data kern edge norm out, (0 < length data)%nat ->
  (forall k, (k < length kern)%nat -> nth k kern 0 = if (k =? (length kern - 1) / 2)%nat then 1 else 0) -> (0 < length kern)%nat ->
  smooth data kern edge norm = Some out -> out = data.
Proof. exact smooth_delta. Qed.
Print Assumptions C46_delta.

(** With mirrored ends and a longer kernel neither holds: zeros leak in. *)
Theorem C46_constant_refuted : exists data kern out, smooth data kern "m" true = Some out /\
  (forall x, In x data -> x = 1) /\ (forall x, In x kern -> 0 <= x) /\ out = [1 / 3].
Proof.
  exists [1], [1; 1; 1], [1 / 3]. split; [|split; [|split; [|reflexivity]]].
  - rewrite smooth_spec; try (cbn; lia); [|left; reflexivity|intros _; unfold rsum; cbn; lra].
    cbn [List.length seq map]. unfold window_sum, weight, continued, mirrored, item. cbn. f_equal. f_equal. lra.
  - cbn. intros x [<-|[]]. reflexivity.
  - cbn. intros x [<-|[<-|[<-|[]]]]; lra.
Qed.
Print Assumptions C46_constant_refuted.

(** A case with an even kernel: [1;2;3;6] smoothed with (1,3)/4. *)
Example C46_witness : exists out, smooth [1; 2; 3; 6] [1; 3] "m" true = Some out /\ nth 1 out 0 = 5 / 4 /\ nth 0 out 0 = 7 / 4 /\
  (forall x, In x [1; 3] -> 0 <= x) /\ (2 <= 2 * 4 - 1)%nat.
Proof.
  eexists. split; [apply smooth_spec; [cbn; lia|cbn; lia|left; reflexivity|intros _; unfold rsum; cbn; lra]|].
  cbn [List.length seq map nth]. unfold window_sum, weight, continued, mirrored, item. cbn.
  change (Pos.to_nat 1) with 1%nat. cbv iota. split; [lra|]. split; [lra|]. split; [intros x [<-|[<-|[]]]; lra|lia].
Qed.
Example C46_witness_delta : forall k, (k < length [0; 1; 0])%nat -> nth k [0; 1; 0] 0 = if (k =? (length [0; 1; 0] - 1) / 2)%nat then 1 else 0.
Proof. intros [|[|[|k]]] H; cbn in *; try reflexivity; lia. Qed.
