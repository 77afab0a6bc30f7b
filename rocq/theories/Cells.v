(** Model of angle, volume_cell, volume_cc, cell2cc, cc2cell, recip_cell, cc2celldm
    and celldm2cc, /repo/src/pwtools/crys.py:25-34, 42-79, 100-123, 145-176,
    197-249, 271-309, 452-498, over the real numbers. *)
From Coq Require Import Reals.
From Verif Require Import Vec3.
Open Scope R_scope.

(** cryst_const: lengths a, b, c and angles in degrees *)
Record cc := CC { a_ : R; b_ : R; c_ : R; alpha : R; beta : R; gamma : R }.
Definition angle (x y : vec) : R := acos (dot x y / norm x / norm y) * 180 / PI.          (* 34 *)
Definition volume_cell (cell : mat) : R := Rabs (det cell).                               (* 79 *)
Definition volume_cc (k : cc) : R :=                                                       (* 114-123 *)
  let alpha := alpha k * PI / 180 in let beta := beta k * PI / 180 in let gamma := gamma k * PI / 180 in
  a_ k * b_ k * c_ k * sqrt (1 + 2 * cos alpha * cos beta * cos gamma - cos alpha ^ 2 - cos beta ^ 2 - cos gamma ^ 2).
Definition cell2cc (cell : mat) : cc :=                                                    (* 162-176 *)
  CC (norm (ra cell)) (norm (rb cell)) (norm (rc cell))
     (angle (rb cell) (rc cell)) (angle (ra cell) (rc cell)) (angle (ra cell) (rb cell)).
Definition cc2cell (k : cc) : mat :=                                                       (* 222-249 *)
  let alpha := alpha k * PI / 180 in let beta := beta k * PI / 180 in let gamma := gamma k * PI / 180 in
  let cx := c_ k * cos beta in
  let cy := c_ k * (cos alpha - cos beta * cos gamma) / sin gamma in
  let cz := sqrt (c_ k ^ 2 - cy ^ 2 - cx ^ 2) in
  Mat (Vec (a_ k) 0 0) (Vec (b_ k * cos gamma) (b_ k * sin gamma) 0) (Vec cx cy cz).
Definition recip_cell (cell : mat) : mat :=                                                (* 298-309 *)
  let vol := volume_cell cell in
  Mat (scale (2 * PI / vol) (cross (rb cell) (rc cell))) (scale (2 * PI / vol) (cross (rc cell) (ra cell)))
      (scale (2 * PI / vol) (cross (ra cell) (rb cell))).
Record celldm := Celldm { d1 : R; d2 : R; d3 : R; d4 : R; d5 : R; d6 : R }.
Definition cc2celldm (k : cc) (fac : R) : celldm :=                                        (* 466-475 *)
  Celldm (a_ k * fac) (b_ k / a_ k) (c_ k / a_ k) (cos (alpha k * PI / 180)) (cos (beta k * PI / 180))
         (cos (gamma k * PI / 180)).
Definition celldm2cc (d : celldm) (fac : R) : cc :=                                        (* 488-498 *)
  let a := d1 d * fac in
  CC a (d2 d * a) (d3 d * a) (acos (d4 d) / PI * 180) (acos (d5 d) / PI * 180) (acos (d6 d) / PI * 180).
