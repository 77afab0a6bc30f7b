(** Model of functions that evaluate trajectories: velocity_traj, rmsd and mean in
    /repo/src/pwtools/crys.py 673-764 and 3099-3142, and rms, rms3d in
    /repo/src/pwtools/num.py 1109-1168 (rms3d for axis 0, the time axis).

    Real arithmetic. An array with a time axis is the list of its frames, a frame the list of
    its numbers in memory order. *)
From Coq Require Import Reals List Arith ZArith String Bool.
From Verif Require Import StructGetters Traj Signal.
Import ListNotations.
Local Open Scope list_scope.
Local Open Scope R_scope.
Local Notation length := List.length.

Notation frame := (list R).
Fixpoint zip_with {A B C : Type} (f : A -> B -> C) (l : list A) (m : list B) : list C :=
  match l, m with a :: l, b :: m => f a b :: zip_with f l m | _, _ => [] end.

(** *** velocity_traj; arr[2:,...] - arr[:-2,...] pairs frame i+2 with frame i *)
Definition central (dt : R) (arr : list frame) : list frame :=
  zip_with (zip_with (fun x y => (x - y) / 2 / dt)) (skipn 2 arr) (firstn (length arr - 2) arr).
(** 710-720, for an array of floats; dt <> 0. [None]: the AssertionError of another axis, and
    the IndexError of tmp[0] when there are less than three frames. *)
Definition velocity_traj (arr : list frame) (dt : R) (axis : Z) (endpoints : bool) : option (list frame) :=
  if negb (axis =? 0)%Z then None else
  let tmp := central dt arr in
  if endpoints then
    match tmp with [] => None | first :: _ => Some ([first] ++ tmp ++ [last tmp first]) end
  else Some tmp.
(** For an array of integers np.empty_like(arr) is an array of integers, to which the
    velocities are cast (truncated towards zero). *)
Definition trunc (x : R) : Z := if Rle_dec 0 x then Int_part x else (- Int_part (- x))%Z.
Definition velocity_traj_int (arr : list (list Z)) (dt : R) (endpoints : bool) : option (list frame) :=
  let r := velocity_traj (map (map IZR) arr) dt 0 endpoints in
  if endpoints then option_map (map (map (fun x => IZR (trunc x)))) r else r.

(** *** rms, rms3d, rmsd; [None]: 0/0 or x/0 *)
Definition sumsq (l : frame) : R := rsum (map (fun x => x * x) l).
Definition rms_n (l : frame) (nitems : R) : option R := if Req_EM_T nitems 0 then None else Some (sqrt (sumsq l / nitems)).
(** num.rms 1125-1129; nitems=None is 'all' *)
Definition rms (l : frame) (nitems : option R) : option R :=
  rms_n l (match nitems with Some n => n | None => INR (length l) end).
(** num.rms3d with axis=0, 1155-1163; arr[0] must exist for nitems='all' *)
Definition rms3d (arr : list frame) (nitems : option R) : option (list (option R)) :=
  match nitems with
  | Some n => Some (map (fun l => rms_n l n) arr)
  | None => match arr with [] => None | first :: _ => Some (map (fun l => rms_n l (INR (length first))) arr) end
  end.
(** rmsd 751-764: coords of shape (nstep, natoms, 3). [None]: IndexError *)
Definition rmsd (coords : list frame) (natoms : nat) (ref_idx : Z) : option (list (option R)) :=
  match item_list ref_idx coords with
  | None => None
  | Some ref => rms3d (map (fun l => zip_with Rminus l ref) coords) (Some (INR natoms))
  end.

(** *** mean 3126-3142 *)
Section Mean.
Variable X : Type.
Notation obj := (Traj.obj frame X R).
(** attr.mean(axis=0); [None] for an array without frames (numpy: nan and a warning) *)
Definition mean_rows (l : list frame) : option frame :=
  match l with
  | [] => None
  | first :: _ => Some (map (fun k => rsum (map (fun r => nth k r 0) l) / INR (length l)) (seq 0 (length first)))
  end.
Definition only_traj3 : list string := ["time"; "timestep"; "nstep"]%string.
(** One round of the first loop. An attribute that is not an array fails. *)
Definition mean_step (self : obj) (o : option obj) (name : string) : option obj :=
  match o with
  | None => None
  | Some o => match self name with
              | None => Some o
              | Some (Arr l) => match mean_rows l with Some r => Some (setattr o name (Some (Row r))) | None => None end
              | Some _ => None
              end
  end.
(** One round of the second loop. *)
Definition copy_step (self : obj) (o : option obj) (name : string) : option obj :=
  match o with
  | None => None
  | Some o => match self name with None => Some o | Some v => Some (setattr o name (Some v)) end
  end.
(** The loops run over python sets: [averaged] and [copied] are the orders in which these
    are met. *)
Definition averaged_set (name : string) : bool := Traj.mem name attrs_nstep && negb (Traj.mem name only_traj3).
Definition copied_set (name : string) : bool := Traj.mem name (attr_lst true) && negb (Traj.mem name (attrs_nstep ++ only_traj3)).
Definition mean (averaged copied : list string) (self : obj) : option obj :=
  fold_left (copy_step self) copied (fold_left (mean_step self) averaged (Some (Traj.none))).
End Mean.
