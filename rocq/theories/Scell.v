(** Model of scell_mask and scell, /repo/src/pwtools/crys.py:505-659, and of
    tensor2voigt, voigt2tensor and their 3d versions, 3356-3453. *)
From Coq Require Import List ZArith Reals Bool.
From Verif Require Import Vec3 Traj.
Import ListNotations.

(** Python's range(a, b, d) *)
Definition range (a b d : Z) : list Z := map (fun i => (a + Z.of_nat i * d)%Z) (seq 0 (range_len a b d)).
(** 547-552; [direc] True for 1, False for -1; other values raise *)
Definition mkrange (direc : bool) (x : Z) : list Z :=
  if direc then (if (0 <=? x)%Z then range 0 x 1 else range 0 x (-1))
  else (if (0 <=? x)%Z then range (x - 1) (-1) (-1) else range (x + 1) 1 1).
(** itertools.product *)
Definition scell_mask (direc : bool) (nx ny nz : Z) : list (Z * Z * Z) :=
  flat_map (fun x => flat_map (fun y => map (fun z => (x, y, z)) (mkrange direc nz)) (mkrange direc ny)) (mkrange direc nx).

Local Open Scope R_scope.
Definition shift (v : vec) (m : Z * Z * Z) : vec :=
  match m with (x, y, z) => Vec (vx v + IZR x) (vy v + IZR y) (vz v + IZR z) end.
Definition divide (dims : Z * Z * Z) (v : vec) : vec :=
  match dims with (n1, n2, n3) => Vec (vx v / IZR n1) (vy v / IZR n2) (vz v / IZR n3) end.
Definition scale_cell (dims : Z * Z * Z) (c : mat) : mat :=
  match dims with (n1, n2, n3) => Mat (scale (IZR n1) (ra c)) (scale (IZR n2) (rb c)) (scale (IZR n3) (rc c)) end.
(** method=1 for a Structure: (natoms,1,3) + (1,nmask,3), reshaped row by row *)
Definition sc_coords1 (coords_frac : list vec) (mask : list (Z * Z * Z)) : list vec :=
  List.concat (map (fun v => map (shift v) mask) coords_frac).
(** method=2: the loops over atoms and mask with the counter k; sc_coords_frac[k]
    and sc_symbols are filled one after the other *)
Fixpoint sc_loop2 {S} (atoms : list (vec * S)) (mask : list (Z * Z * Z)) (acc : list vec * list S) : list vec * list S :=
  match atoms with
  | [] => acc
  | (v, s) :: atoms =>
    sc_loop2 atoms mask (fold_left (fun acc m => ((fst acc ++ [shift v m])%list, (snd acc ++ [s])%list)) mask acc)
  end.
Record struct S := Struct { coords_frac : list vec; cell : mat; symbols : list S }.
Arguments Struct {S}. Arguments coords_frac {S}. Arguments cell {S}. Arguments symbols {S}.
Definition scell {S} (st : struct S) (dims : Z * Z * Z) (direc : bool) (method2 : bool) : struct S :=
  let mask := match dims with (n1, n2, n3) => scell_mask direc n1 n2 n3 end in
  let (c, s) := if method2 then sc_loop2 (combine (coords_frac st) (symbols st)) mask ([], [])
                else (sc_coords1 (coords_frac st) mask, flat_map (fun s => repeat s (List.length mask)) (symbols st)) in
  Struct (map (divide dims) c) (scale_cell dims (cell st)) s.
(** For a Trajectory: the same for every step *)
Definition scell_traj {S} (steps : list (list vec * mat)) (syms : list S) (dims : Z * Z * Z) (direc : bool)
  : list (list vec * mat) * list S :=
  let mask := match dims with (n1, n2, n3) => scell_mask direc n1 n2 n3 end in
  (map (fun st => (map (divide dims) (sc_coords1 (fst st) mask), scale_cell dims (snd st))) steps,
   flat_map (fun s => repeat s (List.length mask)) syms).

(** Arrays as functions of the indices; [set2 t i j x] is t[i,j] = x. *)
Section Voigt.
Variable A : Type.
Definition set1 (v : nat -> A) (i : nat) (x : A) : nat -> A := fun i' => if Nat.eqb i i' then x else v i'.
Definition set2 (t : nat -> nat -> A) (i j : nat) (x : A) : nat -> nat -> A :=
  fun i' j' => if Nat.eqb i i' && Nat.eqb j j' then x else t i' j'.
(** [e] is what np.empty returned: anything *)
Definition tensor2voigt (e : nat -> A) (t : nat -> nat -> A) : nat -> A :=
  let v := set1 e 0 (t 0 0)%nat in let v := set1 v 1 (t 1 1)%nat in let v := set1 v 2 (t 2 2)%nat in
  let v := set1 v 3 (t 1 2)%nat in let v := set1 v 4 (t 0 2)%nat in set1 v 5 (t 0 1)%nat.
Definition voigt2tensor (e : nat -> nat -> A) (v : nat -> A) : nat -> nat -> A :=
  let t := set2 e 0 0 (v 0)%nat in let t := set2 t 1 1 (v 1)%nat in let t := set2 t 2 2 (v 2)%nat in
  let t := set2 t 1 2 (v 3)%nat in let t := set2 t 0 2 (v 4)%nat in let t := set2 t 0 1 (v 5)%nat in
  let t := set2 t 2 1 (t 1 2)%nat in let t := set2 t 2 0 (t 0 2)%nat in set2 t 1 0 (t 0 1)%nat.
(** The 3d versions assign t[:,i,j] = v[:,k] for all steps at once *)
Definition tensor2voigt3d (e : list (nat -> A)) (t : list (nat -> nat -> A)) : list (nat -> A) :=
  map (fun et => tensor2voigt (fst et) (snd et)) (combine e t).
Definition voigt2tensor3d (e : list (nat -> nat -> A)) (v : list (nat -> A)) : list (nat -> nat -> A) :=
  map (fun ev => voigt2tensor (fst ev) (snd ev)) (combine e v).
End Voigt.
