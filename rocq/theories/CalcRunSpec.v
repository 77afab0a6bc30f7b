(** What a calculator has to return *)
From Coq Require Import Reals List.
From Verif Require Import Comb Vec3.
Import ListNotations.
Local Open Scope R_scope.

(** rows times a matrix; an orthogonal matrix keeps all scalar products *)
Definition orthogonal (q : mat) : Prop := forall u v, dot (vecmat u q) (vecmat v q) = dot u v.
Definition cell_by (m q : mat) : mat := Mat (vecmat (ra m) q) (vecmat (rb m) q) (vecmat (rc m) q).
(** t' is the tensor t after the orthogonal map q *)
Definition tensor_by (t q t' : mat) : Prop := forall u v, dot (vecmat (vecmat u q) t') (vecmat v q) = dot (vecmat u t) v.
(** A physical program does not prefer a direction of space: for a turned (or mirrored) crystal the
    energy is the same, and forces and pressure turn with the crystal *)
Definition physical (prog : list pstr -> mat -> list vec -> R * list vec * mat) : Prop :=
  forall sy m xs q e f p, orthogonal q -> prog sy m xs = (e, f, p) ->
  exists p', prog sy (cell_by m q) (map (fun x => vecmat x q) xs) = (e, map (fun x => vecmat x q) f, p') /\ tensor_by p q p'.
(** ASE: six numbers xx yy zz yz xz xy of a symmetric tensor *)
Definition six (l : list R) (t : mat) : Prop :=
  l = [vx (ra t); vy (rb t); vz (rc t); vz (rb t); vz (ra t); vy (ra t)] /\
  vy (ra t) = vx (rb t) /\ vz (ra t) = vx (rc t) /\ vz (rb t) = vy (rc t).
Definition sym (t : mat) : Prop := vy (ra t) = vx (rb t) /\ vz (ra t) = vx (rc t) /\ vz (rb t) = vy (rc t).
(** stress of ASE in eV/Ang^3 (negative under pressure) for a pressure tensor p in units of c GPa *)
Definition ase_stress (c : R) (p : mat) (l : list R) : Prop :=
  exists t, six l t /\ forall u v, 1602176487 / 10000000 * dot (vecmat u t) v = - (c * dot (vecmat u p) v).
(** a cell along the axes, as LAMMPS wants it: a along x, b in the xy plane, right-handed *)
Definition along_axes (m : mat) : Prop := vy (ra m) = 0 /\ vz (ra m) = 0 /\ vz (rb m) = 0 /\ 0 < vx (ra m) /\ 0 < vy (rb m) /\ 0 < vz (rc m).
