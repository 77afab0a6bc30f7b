(** C56: ibrav2cell returns primitive cells of the named Bravais lattices. *)
From Coq Require Import Reals ZArith Lra Psatz.
From Verif Require Import Vec3 Cells Ibrav IbravSpec IbravProofs.
Open Scope R_scope.
(** For every ibrav and every celldm describing a proper conventional cell: a cell is
    returned, its integer combinations are exactly the points of the named lattice, it
    is right-handed, and its volume is that of the conventional cell divided by the
    number of lattice points in it. *)
Theorem C56_cell ibrav d a b c ca cb cg ctr s :
  supplied ibrav d a b c ca cb cg -> named ibrav a b c ca cb cg = Some (ctr, s) -> proper s ->
  exists cell, ibrav2cell ibrav d = Some cell /\ primitive_cell ctr s cell.
Proof. apply ibrav_cell. Qed.
(** An unknown ibrav or a missing entry that is needed raises. *)
Theorem C56_needs ibrav d cell : ibrav2cell ibrav d = Some cell ->
  (1 <= ibrav <= 14)%Z /\
  let '(nb, nc, na, nbeta, ng) := needs ibrav in
  aa_ d <> None /\ is_given nb (bb_aa_ d) /\ is_given nc (cc_aa_ d) /\ is_given na (cos_alpha_ d) /\
  is_given nbeta (cos_beta_ d) /\ is_given ng (cos_gamma_ d).
Proof. apply ibrav_needs. Qed.
(** Entries that are not needed have no influence. *)
Theorem C56_unneeded ibrav d d' a :
  aa_ d = Some a -> aa_ d' = Some a ->
  (let '(nb, nc, na, nbeta, ng) := needs ibrav in
   agrees nb (bb_aa_ d) (bb_aa_ d') /\ agrees nc (cc_aa_ d) (cc_aa_ d') /\ agrees na (cos_alpha_ d) (cos_alpha_ d') /\
   agrees nbeta (cos_beta_ d) (cos_beta_ d') /\ agrees ng (cos_gamma_ d) (cos_gamma_ d')) ->
  (forall g, cos_gamma_ d = Some g -> -1 <= g <= 1) -> (forall g, cos_gamma_ d' = Some g -> -1 <= g <= 1) ->
  ibrav2cell ibrav d = ibrav2cell ibrav d'.
Proof. apply ibrav_unneeded. Qed.
(** ibrav 14 is crys.cc2cell(crys.celldm2cc(celldm)), orientation included. *)
Theorem C56_triclinic a b c ca cb cg :
  proper (Shape a b c ca cb cg) ->
  ibrav2cell 14 (DM (Some a) (Some (b / a)) (Some (c / a)) (Some ca) (Some cb) (Some cg)) =
  Some (cc2cell (celldm2cc (Celldm a (b / a) (c / a) ca cb cg) 1)).
Proof. apply ibrav14. Qed.
(** A cos_gamma that is no cosine raises, for every ibrav. *)
Theorem C56_domain ibrav d g : cos_gamma_ d = Some g -> g < -1 \/ 1 < g -> ibrav2cell ibrav d = None.
Proof.
  intros E G. assert (N : singamma (cos_gamma_ d) = None).
  { rewrite E. unfold singamma, macos. destruct (Rle_dec (-1) g), (Rle_dec g 1); try reflexivity. exfalso. lra. }
  unfold ibrav2cell. rewrite N. destruct (times (bb_aa_ d) (aa_ d)); [|reflexivity]. cbn [bind]. now destruct (times (cc_aa_ d) (aa_ d)).
Qed.
(** A body-centred tetragonal celldm with entries that are not needed left out, and a
    triclinic one. *)
Example C56_case :
  (supplied 7 (DM (Some 2) None (Some (3 / 2)) None None None) 2 0 3 0 0 0 /\
   named 7 2 0 3 0 0 0 = Some (Body, Shape 2 2 3 0 0 0) /\ proper (Shape 2 2 3 0 0 0)) /\
  (supplied 14 (DM (Some 2) (Some (3 / 2)) (Some (5 / 2)) (Some (1/2)) (Some (1/4)) (Some (1/8))) 2 3 5 (1/2) (1/4) (1/8) /\
   proper (Shape 2 3 5 (1/2) (1/4) (1/8))).
Proof.
  unfold supplied, proper, given, Rsqr. cbn. repeat split; try lra; try discriminate; 
    try match goal with H : Some _ = Some _ |- _ => injection H; lra | H : None = Some _ |- _ => discriminate H end; f_equal; lra.
Qed.
Print Assumptions C56_cell.
Print Assumptions C56_needs.
Print Assumptions C56_unneeded.
Print Assumptions C56_triclinic.
Print Assumptions C56_domain.
