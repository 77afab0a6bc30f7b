(** Model of the distance and angle routines: distsq, angles, distsq_frac, distances_traj in
    /repo/src/_ext_src/flib.f90 315-513, distances, distances_traj, angles in
    /repo/src/pwtools/crys.py 1803-1942 and distsq in /repo/src/pwtools/num.py 991-1029.

    An array is a function of its index tuple (0-based). Real arithmetic; [None] among
    numbers is NaN. Every assignment to an array element is a step of its own, in the order
    of the loops. *)
From Coq Require Import Reals List Arith Bool ZArith.
From Verif Require Import Vec3 Wrap OmpPriv.
Import ListNotations.
Open Scope R_scope.

Definition key2 := (nat * nat)%type.
Definition key3 := (key2 * nat)%type.
Definition eqb2 (a b : key2) : bool := (fst a =? fst b)%nat && (snd a =? snd b)%nat.
Definition eqb3 (a b : key3) : bool := eqb2 (fst a) (fst b) && (snd a =? snd b)%nat.
(** Component kk of a vector, and row kk of the cell. *)
Definition comp (v : vec) (kk : nat) : R := match kk with 0%nat => vx v | 1%nat => vy v | _ => vz v end.
Definition axes : list nat := [0; 1; 2]%nat.

(** do jj=1,natoms; do ii=1,natoms *)
Definition loop_ji (n : nat) : list key2 := flat_map (fun jj => map (fun ii => (ii, jj)) (seq 0 n)) (seq 0 n).
(** do kk=1,m; do jj=1,natoms; do ii=1,natoms *)
Definition loop_kji (m n : nat) : list key3 := flat_map (fun kk => map (fun ij => (ij, kk)) (loop_ji n)) (seq 0 m).

(** flib.f90 427-432, the two do while loops. The number of rounds is bounded by the size of
    the number, so that [None] (still running) is never met: see wrap_ends. *)
Definition rounds (x : R) : nat := S (S (Z.to_nat (up (Rabs x)))).
Definition wrap_while (x : R) : R := match wrap1 (rounds x) x with Some y => y | None => x end.

(** The arrays distvecs_frac, distvecs and distsq. *)
Record scratch := Scratch { dvf : key3 -> R; dv : key3 -> R; dsq : key2 -> R }.
Definition set_dvf (s : scratch) k x := Scratch (set eqb3 (dvf s) k x) (dv s) (dsq s).
Definition set_dv (s : scratch) k x := Scratch (dvf s) (set eqb3 (dv s) k x) (dsq s).
Definition set_dsq (s : scratch) k x := Scratch (dvf s) (dv s) (set eqb2 (dsq s) k x).

(** distsq_frac, flib.f90 415-452, as the list of its assignments. *)
Definition distsq_frac (coords : nat -> vec) (cell : mat) (pbc : bool) (natoms : nat) : list (scratch -> scratch) :=
  flat_map (fun ij => map (fun kk s => set_dvf s (ij, kk) (comp (coords (fst ij)) kk - comp (coords (snd ij)) kk)) axes) (loop_ji natoms)
  ++ (if pbc then map (fun k s => set_dvf s k (wrap_while (dvf s k))) (loop_kji 3 natoms) else [])
  ++ map (fun k s => set_dv s k (dvf s (fst k, 0%nat) * comp (ra cell) (snd k) + dvf s (fst k, 1%nat) * comp (rb cell) (snd k)
                                  + dvf s (fst k, 2%nat) * comp (rc cell) (snd k))) (loop_kji 3 natoms)
  ++ map (fun ij s => set_dsq s ij (dv s (ij, 0%nat) * dv s (ij, 0%nat) + dv s (ij, 1%nat) * dv s (ij, 1%nat)
                                  + dv s (ij, 2%nat) * dv s (ij, 2%nat))) (loop_ji natoms).

(** distances, crys.py 1840-1856; [s0] is what np.empty returns. The result is
    (dists, distvecs, distvecs_frac); with fullout=False the first one. *)
Definition distances (s0 : scratch) (coords : nat -> vec) (cell : mat) (natoms : nat) (pbc squared : bool)
  : (key2 -> R) * (key3 -> R) * (key3 -> R) :=
  let s := fold_left (fun s f => f s) (distsq_frac coords cell pbc natoms) s0 in
  (if squared then dsq s else fun k => sqrt (dsq s k), dv s, dvf s).

(** distances_traj, flib.f90 506-511: iteration [istep]. dists(istep,:,:) = sqrt(distsq)
    is an assignment of natoms*natoms elements. *)
Definition keyt := (nat * key2)%type.
Definition eqbt (a b : keyt) : bool := (fst a =? fst b)%nat && eqb2 (snd a) (snd b).
Definition traj_body (coords : nat -> nat -> vec) (cell : nat -> mat) (pbc : bool) (natoms istep : nat)
  : list (instr keyt scratch R) :=
  map Loc (distsq_frac (coords istep) (cell istep) pbc natoms)
  ++ map (fun ij => Put (istep, ij) (fun s => sqrt (dsq s ij))) (loop_ji natoms).
(** crys.py 1874-1880: [res] is a possible result. *)
Definition distances_traj (coords : nat -> nat -> vec) (cell : nat -> mat) (pbc : bool) (nstep natoms : nat) (res : keyt -> R) : Prop :=
  exists dists, private_do eqbt nstep (traj_body coords cell pbc natoms) dists res.
(** What the comment in line 502 warns of: the same without private(...). *)
Definition distances_traj_noprivate (coords : nat -> nat -> vec) (cell : nat -> mat) (pbc : bool) (nstep natoms : nat) (res : keyt -> R) : Prop :=
  exists dists, shared_do eqbt nstep (traj_body coords cell pbc natoms) dists res.

(** flib.distsq, flib.f90 324-330: iteration [jj]. *)
Definition sumto (n : nat) (f : nat -> R) : R := fold_left Rplus (map f (seq 0 n)) 0.
Definition distsq_body (x y : nat -> nat -> R) (nx ndim jj : nat) : list (instr key2 unit R) :=
  map (fun ii => Put (ii, jj) (fun _ => sumto ndim (fun k => (x ii k - y jj k) * (x ii k - y jj k)))) (seq 0 nx).
(** num.distsq, num.py 1015-1029; [None] is the AssertionError. *)
Definition distsq (x : nat -> nat -> R) (nx ndimx : nat) (y : nat -> nat -> R) (ny ndimy : nat) (res : option (key2 -> R)) : Prop :=
  if (ndimx =? ndimy)%nat then exists dist d, private_do eqb2 ny (distsq_body x y nx ndimx) dist d /\ res = Some d
  else res = None.

(** *** angles *)
Definition real := option R.
(** x / y: here 0/0 is the only case with y = 0, since y is the length of a vector the
    numerator is a product with. *)
Definition fdiv (x : real) (y : R) : real :=
  match x with Some x => if Req_EM_T y 0 then None else Some (x / y) | None => None end.
Definition facos (x : R) : real := if Rle_dec (Rabs x) 1 then Some (acos x) else None.
Definition eps : R := 22 / 10 ^ 17.
Definition ceps : R := 1 - eps.
(** Comparisons with NaN: /= is true, the others are false. *)
Definition fne (x : real) (y : R) : bool := match x with Some x => if Req_EM_T x y then false else true | None => true end.
Definition fgt (x : real) (y : R) : bool := match x with Some x => if Rlt_dec y x then true else false | None => false end.
Definition flt (x : real) (y : R) : bool := match x with Some x => if Rlt_dec x y then true else false | None => false end.

(** flib.f90 364-376. *)
Definition angles_fill (distvecs : key3 -> R) (dists : key2 -> R) (mask_val : R) (natoms : nat) (a0 : key3 -> real) : key3 -> real :=
  fold_left (fun a (k : key3) => let '((ii, jj), kk) := k in
      set eqb3 a k (if negb (ii =? jj)%nat && negb (ii =? kk)%nat && negb (jj =? kk)%nat
                    then fdiv (fdiv (Some (fold_left Rplus (map (fun c => distvecs ((ii, jj), c) * distvecs ((ii, kk), c)) axes) 0)) (dists (ii, jj))) (dists (ii, kk))
                    else Some mask_val))
    (loop_kji natoms natoms) a0.
(** where (cond) a = f(a) *)
Definition where_ (cond : real -> bool) (f : real -> real) (a : key3 -> real) : key3 -> real := fun k => if cond (a k) then f (a k) else a k.
(** flib.f90 377-383. *)
Definition flib_angles (distvecs : key3 -> R) (dists : key2 -> R) (mask_val : R) (deg : bool) (natoms : nat) (a0 : key3 -> real) : key3 -> real :=
  let a := angles_fill distvecs dists mask_val natoms a0 in
  if deg then
    let a := where_ (fun x => fne x mask_val && fgt x ceps) (fun _ => Some 1) a in
    let a := where_ (fun x => fne x mask_val && flt x (- ceps)) (fun _ => Some (-1)) a in
    where_ (fun x => fne x mask_val) (fun x => match x with Some x => match facos x with Some y => Some (y * 180 / PI) | None => None end | None => None end) a
  else a.
Definition inside_b (lo hi x : R) : bool := if Rle_dec lo x then if Rle_dec x hi then true else false else false.
(** crys.py 1929-1942; [None] is the AssertionError. *)
Definition angles (s0 : scratch) (a0 : key3 -> real) (coords : nat -> vec) (cell : mat) (natoms : nat) (pbc : bool) (mask_val : R) (deg : bool)
  : option (key3 -> real) :=
  if (if deg then inside_b 0 180 mask_val else inside_b (-1) 1 mask_val) then None else
  let '(dists, distvecs, _) := distances s0 coords cell natoms pbc false in
  Some (flib_angles distvecs dists mask_val deg natoms a0).
