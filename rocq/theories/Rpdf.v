(** Model of rmax_smith and rpdf, /repo/src/pwtools/crys.py 1043-1073 and 1076-1580, over the
    real numbers.  An array of shape (nstep, natoms, 3) is the list of the steps, each the list
    of its atoms.  None is an exception or a result with nan or inf. *)
From Coq Require Import String Reals List ZArith Bool Arith.
From Verif Require Import Vec3 Wrap Traj.
Import ListNotations.
Local Open Scope list_scope.
Local Open Scope R_scope.
Local Notation length := List.length.

(** 1062-1073 *)
Definition rmax_smith (cell : mat) : R :=
  let a := ra cell in let b := rb cell in let c := rc cell in
  let bxc := cross b c in let cxa := cross c a in let axb := cross a b in
  let wa := Rabs (dot a bxc) / norm bxc in
  let wb := Rabs (dot b cxa) / norm cxa in
  let wc := Rabs (dot c axb) / norm axb in
  1 / 2 * Rmin (Rmin wa wb) wc.

(** What rpdf uses of a trajectory (struct2traj has been applied). *)
Record traj := Trj { symbols : list string; coords_frac : list (list vec); cells : list mat; volumes : list R }.
(** One entry of amask: slice(None), a bool array, or an atom name; and tmask. *)
Inductive amask1 := All | Bools (l : list bool) | Name (s : string).
Inductive tmask1 := TSlice (s : slice) | TInt (i : Z).

(** 1475-1490: [trajs *= 2], [amask *= 2]; the lists belong to the caller. *)
Definition twice {A} (l : list A) : list A := if (length l =? 1)%nat then l ++ l else l.
(** 1499-1502, for one entry *)
Definition resolve (sy : list string) (m : amask1) : amask1 :=
  match m with Name s => Bools (map (fun x => String.eqb x s) sy) | _ => m end.
(** What the caller's amask list holds after a call with trajectories of these symbols. *)
Definition amask_after (sy : list string) (amask : list amask1) : list amask1 := map (resolve sy) (twice amask).

Fixpoint opt_all {A B} (f : A -> option B) (l : list A) : option (list B) :=
  match l with
  | [] => Some []
  | x :: l => match f x, opt_all f l with Some y, Some r => Some (y :: r) | _, _ => None end
  end.
(** coords_frac[tmask,amask,:], with the time axis added back (1503-1512).  A bool array of
    another length raises. *)
Definition pick_atoms (m : amask1) (row : list vec) : option (list vec) :=
  match m with
  | All => Some row
  | Bools l => if (length l =? length row)%nat then Some (map fst (filter snd (combine row l))) else None
  | Name _ => None
  end.
Definition pick_steps (t : tmask1) (c : list (list vec)) : option (list (list vec)) :=
  match t with TSlice s => slice_list s c | TInt i => option_map (fun r => [r]) (item_list i c) end.
Definition coords_of (t : traj) (m : amask1) (tm : tmask1) : option (list (list vec)) :=
  match pick_steps tm (coords_frac t) with Some c => opt_all (pick_atoms m) c | None => None end.

(** 1493-1497 *)
Definition vec_eqb (u v : vec) : bool :=
  (if Req_EM_T (vx u) (vx v) then true else false) && (if Req_EM_T (vy u) (vy v) then true else false) &&
  (if Req_EM_T (vz u) (vz v) then true else false).
Definition mat_eqb (m n : mat) : bool := vec_eqb (ra m) (ra n) && vec_eqb (rb m) (rb n) && vec_eqb (rc m) (rc n).
Fixpoint all2b {A} (f : A -> A -> bool) (l l' : list A) : bool :=
  match l, l' with [], [] => true | x :: l, y :: l' => f x y && all2b f l l' | _, _ => false end.
Definition compatible (t0 t1 : traj) : bool :=
  (if list_eq_dec string_dec (symbols t0) (symbols t1) then true else false) &&
  (length (coords_frac t0) =? length (coords_frac t1))%nat && all2b mat_eqb (cells t0) (cells t1).

(** np.arange(0, stop, dr) for dr > 0: ceil(stop/dr) numbers (1525) *)
Definition ceil (x : R) : Z := (- Int_part (- x))%Z.
Definition nbins (rmax dr : R) : nat := Z.to_nat (ceil ((rmax + dr) / dr)).
Definition bin (dr : R) (k : nat) : R := INR k * dr.

(** 1534-1546: differences of all pairs, minimum image, Cartesian length *)
Definition comps (v : vec) : list R := [vx v; vy v; vz v].
Fixpoint regroup (shape : list vec) (l : list R) : list vec :=
  match shape, l with
  | _ :: shape, x :: y :: z :: l => Vec x y z :: regroup shape l
  | _, _ => []
  end.
Fixpoint split_steps (shape : list (list vec)) (l : list vec) : list (list vec) :=
  match shape with
  | [] => []
  | s :: shape => firstn (length s) l :: split_steps shape (skipn (length s) l)
  end.
Definition differences (c0 c1 : list (list vec)) : list (list vec) :=
  map (fun q => map (fun uv => vsub (fst uv) (snd uv)) (list_prod (fst q) (snd q))) (combine c0 c1).
Definition wrap_all (fuel : nat) (sij : list (list vec)) : option (list (list vec)) :=
  match min_image_convention fuel (concat (map comps (concat sij))) with
  | Some l => Some (split_steps sij (regroup (concat sij) l))
  | None => None
  end.
Definition dists_all (fuel : nat) (pbc : bool) (cell : mat) (c0 c1 : list (list vec)) : option (list (list R)) :=
  let sij := differences c0 c1 in
  match (if pbc then wrap_all fuel sij else Some sij) with
  | Some sij => Some (map (map (fun s => norm (vecmat s cell))) sij)
  | None => None
  end.

(** np.histogram(x, bins): the last bin contains its right end (1571) *)
Definition in_bin (dr : R) (nb k : nat) (x : R) : bool :=
  geb x (bin dr k) && (if (k =? nb - 2)%nat then geb (bin dr (S k)) x else ltb x (bin dr (S k))).
Definition histogram (dr : R) (nb : nat) (x : list R) : list R :=
  map (fun k => INR (length (filter (in_bin dr nb k) x))) (seq 0 (nb - 1)).
(** 1572-1573 *)
Definition zero_first (h : list R) : list R := match h with [] => [] | _ :: h => 0 :: h end.
Fixpoint cumsum (acc : R) (l : list R) : list R :=
  match l with [] => [] | x :: l => (acc + x) :: cumsum (acc + x) l end.
Definition total (l : list R) : R := fold_left Rplus l 0.

Definition rpdf (fuel : nat) (trajs : list traj) (dr : R) (rmax : option R) (amask : option (list amask1))
    (tmask : option tmask1) (dmask : option (R -> bool)) (pbc norm_vmd : bool) (maxmem : R) : option (list (R * R * R)) :=
  if Rle_dec dr 0 then None else
  let amask := twice (match amask with Some m => m | None => [All] end) in
  let tmask := match tmask with Some t => t | None => TSlice (Slice None None None) end in
  match twice trajs, amask with
  | [t0; t1], [m0; m1] =>
    if negb (length trajs =? 1)%nat && negb (compatible t0 t1) then None else
    match coords_of t0 (resolve (symbols t0) m0) tmask, coords_of t1 (resolve (symbols t0) m1) tmask, cells t0, volumes t0 with
    | Some ((r0 :: _) as c0), Some ((r1 :: _) as c1), cell :: _, volume :: _ =>
      let natoms0 := INR (length r0) in
      let natoms1 := INR (length r1) in
      let nstep := INR (length c0) in
      let rmax := match rmax with Some r => r | None => rmax_smith cell end in
      let nb := nbins rmax dr in
      if (nb <? 2)%nat then None else
      if Rlt_dec maxmem (nstep * natoms0 * natoms1 * 24 / 1000000000) then None else
      match dists_all fuel pbc cell c0 c1 with
      | None => None
      | Some dists =>
        let dups := map (fun d => if norm_vmd then INR (length (filter (fun x => ltb x (/ 10 ^ 15)) d)) else 0) dists in   (* 1548-1552 *)
        let cut := map (map (fun x => if geb x rmax then 0 else x)) dists in                                          (* 1557 *)
        let masked := match dmask with Some p => map (map (fun x => if p x then x else 0)) cut | None => cut end in   (* 1559-1565 *)
        if (length r0 =? 0)%nat || existsb (fun dup => if Req_EM_T (natoms0 * natoms1 - dup) 0 then true else false) dups then None else
        let hists := map (fun d => zero_first (histogram dr nb d)) masked in
        let volume_shell k := 4 / 3 * PI * (bin dr (S k) ^ 3 - bin dr k ^ 3) in
        Some (map (fun k =>
          (bin dr k + 1 / 2 * dr,
           total (map (fun hd => nth k (fst hd) 0 * (volume / volume_shell k / (natoms0 * natoms1 - snd hd))) (combine hists dups)) / nstep,
           total (map (fun h => nth k (cumsum 0 h) 0 / natoms0) hists) / nstep)) (seq 0 (nb - 1)))
      end
    | _, _, _, _ => None
    end
  | _, _ => None
  end.
