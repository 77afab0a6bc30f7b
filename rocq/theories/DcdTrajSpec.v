(** What LAMMPS and CP2K store for a cell and positions. *)
From Coq Require Import Reals List ZArith.
From Verif Require Import Vec3 Cells CellsSpec LammpsSpec.
From Verif Require DcdSpec.
Import ListNotations.
Local Open Scope R_scope.

Section Store.
Variable val : list Z -> R.
Definition stores_atoms (ps : list vec) (g : DcdSpec.frame) : Prop :=
  Forall2 (fun p a => val (DcdSpec.x_of a) = vx p /\ val (DcdSpec.y_of a) = vy p /\ val (DcdSpec.z_of a) = vz p) ps (DcdSpec.atoms g).
(** LAMMPS (dump_dcd): lengths of the edges, cosines of the angles between them *)
Definition lammps_stores (b : box) (ps : list vec) (g : DcdSpec.frame) : Prop :=
  let bl := sqrt (xy b * xy b + ly b * ly b) in let cl := sqrt (xz b * xz b + yz b * yz b + lz b * lz b) in
  val (DcdSpec.fa g) = lx b /\ val (DcdSpec.fb g) = bl /\ val (DcdSpec.fc g) = cl /\
  val (DcdSpec.cos_alpha g) = (xy b * xz b + ly b * yz b) / bl / cl /\ val (DcdSpec.cos_beta g) = lx b * xz b / lx b / cl /\ val (DcdSpec.cos_gamma g) = lx b * xy b / lx b / bl /\
  stores_atoms ps g.
(** CP2K: lengths, angles in degrees; positions as they are (the cell need not lie along the axes) *)
Definition cp2k_stores (m : mat) (ps : list vec) (g : DcdSpec.frame) : Prop :=
  val (DcdSpec.fa g) = norm (ra m) /\ val (DcdSpec.fb g) = norm (rb m) /\ val (DcdSpec.fc g) = norm (rc m) /\
  val (DcdSpec.cos_alpha g) = angle (rb m) (rc m) /\ val (DcdSpec.cos_beta g) = angle (ra m) (rc m) /\ val (DcdSpec.cos_gamma g) = angle (ra m) (rb m) /\
  stores_atoms ps g.
(** the conversion of angles gives degrees *)
Definition in_degrees (deg : list Z -> list Z) : Prop := forall w, val (deg w) = acos (val w) * 180 / PI.
End Store.
Definition upright (b : box) : Prop := 0 < lx b /\ 0 < ly b /\ 0 < lz b.
