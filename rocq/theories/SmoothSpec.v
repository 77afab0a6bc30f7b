(** Smoothing: weighted means over a window of the data, continued beyond their ends. *)
From Coq Require Import Reals List Arith ZArith String.
From Verif Require Import VacfSpec.
Import ListNotations.
Local Open Scope list_scope.
Local Open Scope R_scope.

Definition item (l : list R) (z : Z) : R := nth (Z.to_nat z) l 0.
(** Mirrored at the first and at the last element (which are not repeated), zero further out. *)
Definition mirrored (data : list R) (z : Z) : R :=
  let N := Z.of_nat (List.length data) in
  if (z <? 0)%Z then (if (- z <? N)%Z then item data (- z) else 0)
  else if (z <? N)%Z then item data z
  else if (z <=? 2 * N - 2)%Z then item data (2 * N - 2 - z) else 0.
(** The first and the last element for ever. *)
Definition held (data : list R) (z : Z) : R :=
  let N := Z.of_nat (List.length data) in
  if (z <? 0)%Z then item data 0 else if (z <? N)%Z then item data z else item data (N - 1).
Definition continued (edge : string) : list R -> Z -> R := if (edge =? "m")%string then mirrored else held.

(** The value at [i]: kernel element [k] meets the data at [i + (M-1)/2 - k]; for odd M the
    middle of the kernel is at [i]. *)
Definition window_sum (edge : string) (data : list R) (weight : nat -> R) (M i : nat) : R :=
  total M (fun k => weight k * continued edge data (Z.of_nat i + Z.of_nat ((M - 1) / 2) - Z.of_nat k)).
(** The weights: the kernel, or the kernel divided by its sum. *)
Definition weight (kern : list R) (norm : bool) (k : nat) : R :=
  if norm then nth k kern 0 / total (List.length kern) (fun j => nth j kern 0) else nth k kern 0.
