(** Model of grid_in_cell and kgrid, /repo/src/pwtools/crys.py 312-440. Real arithmetic. *)
From Coq Require Import Reals List ZArith Bool.
From Verif Require Import Vec3 Cells.
Import ListNotations.
Local Open Scope R_scope.

(** np.round: to the nearest integer, half way cases to the even one *)
Definition np_round (x : R) : Z :=
  let f := Int_part x in let d := x - IZR f in
  if Rlt_dec d (1/2) then f else if Rlt_dec (1/2) d then (f + 1)%Z else if Z.even f then f else (f + 1)%Z.
(** 366 *)
Definition norms (cell : mat) : list R := map (fun v => sqrt (vx v ^ 2 + vy v ^ 2 + vz v ^ 2)) [ra cell; rb cell; rc cell].
(** 368-374, one entry *)
Definition points (h : R) (minpoints : Z) (even : bool) (norm : R) : Z :=
  let size := np_round (norm / h) in
  let size := if even then (size + size mod 2)%Z else size in
  if (size <? minpoints)%Z then minpoints else size.
Inductive grid := Size (size : list Z) | Both (size : list Z) (spacing : list R) | Spacing (spacing : list R).
Definition spacing_of (norms : list R) (size : list Z) : list R := map (fun p => fst p * 1 / IZR (snd p)) (combine norms size).
(** 363-387. [None]: an exception. Also [None], where numpy goes on with infinities: h = 0, and
    a zero or missing entry of a given size. A given size that is not of length three (broadcast
    by numpy) is not modelled. *)
Definition grid_in_cell (cell : mat) (h : option R) (size : option (list Z)) (minpoints : Z) (even fullout : bool) : option grid :=
  match h, size with
  | Some _, Some _ => None                                                             (* 363 *)
  | _, _ =>
    if negb (0 <=? minpoints)%Z then None else                                         (* 364 *)
    match size, h with
    | None, None => None                                                               (* norms / None *)
    | None, Some h =>
      if Req_EM_T h 0 then None else
      let size := map (points h minpoints even) (norms cell) in
      if existsb (Z.eqb 0) size then None else                                         (* 376-378 *)
      if fullout then Some (Both size (spacing_of (norms cell) size)) else Some (Size size)
    | Some size, _ =>
      if negb (Nat.eqb (length size) 3) || existsb (Z.eqb 0) size then None else Some (Spacing (spacing_of (norms cell) size))
    end
  end.
(** 390-440: grid_in_cell(recip_cell(cell), ...) *)
Definition kgrid (cell : mat) (h : option R) (size : option (list Z)) (minpoints : Z) (even fullout : bool) : option grid :=
  grid_in_cell (recip_cell cell) h size minpoints even fullout.
