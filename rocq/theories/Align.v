(** Model of align_cart, /repo/src/pwtools/crys.py 3272-3353, and center_on_atom, 2110-2120.

    Real arithmetic. An array with one entry per frame is the list of its frames; a Structure
    is modelled with one frame. Of the attributes of a Structure or Trajectory those that the
    two functions read or recompute are fields, all others are in [other]. *)
From Coq Require Import Reals List Arith ZArith String Bool.
From Verif Require Import Vec3 Signal TrajStat.
Import ListNotations.
Local Open Scope list_scope.
Local Open Scope R_scope.
Local Notation length := List.length.

Section Align.
Variable V : Type.
Record obj := Obj {
  is_traj : bool; coords_frac : option (list (list vec)); coords : option (list (list vec)); cell : option (list mat);
  symbols : option (list string); timestep : option R; velocity : option (list (list R)); other : string -> option V }.

(** 2584-2610: coords_frac times cell, frame by frame *)
Definition to_coords (s : list (list vec)) (h : list mat) : list (list vec) := zip_with (fun f c => map (fun x => vecmat x c) f) s h.
Definition in_memory (f : list vec) : list R := flat_map (fun v => [vx v; vy v; vz v]) f.
(** set_all (2446-2452) for the fields above: get_coords 2584-2610, get_velocity 2528-2541. *)
Definition set_all (o : obj) : option obj :=
  let x := match coords o with Some x => Some x | None =>
             match coords_frac o, cell o with Some s, Some h => Some (to_coords s h) | _, _ => None end end in
  match velocity o, x, timestep o, is_traj o with
  | None, Some x', Some dt, true =>
      match velocity_traj (map in_memory x') dt 0 true with
      | None => None
      | Some v => Some (Obj (is_traj o) (coords_frac o) x (cell o) (symbols o) (timestep o) (Some v) (other o))
      end
  | v, _, _, _ => Some (Obj (is_traj o) (coords_frac o) x (cell o) (symbols o) (timestep o) v (other o))
  end.

(** a[i] of numpy: indices from -n to n-1 *)
Definition get {A} (i : Z) (l : list A) : option A :=
  let n := Z.of_nat (length l) in
  if ((- n <=? i) && (i <? n))%Z then nth_error l (Z.to_nat (if i <? 0 then i + n else i)%Z) else None.
Definition bind {A B} (o : option A) (f : A -> option B) : option B := match o with Some a => f a | None => None end.

(** *** align_cart *)
(** numpy.linalg.inv; [None]: LinAlgError *)
Definition inv (m : mat) : option mat :=
  if Req_EM_T (det m) 0 then None else
  let x := cross (rb m) (rc m) in let y := cross (rc m) (ra m) in let z := cross (ra m) (rb m) in
  Some (Mat (scale (/ det m) (Vec (vx x) (vx y) (vx z))) (scale (/ det m) (Vec (vy x) (vy y) (vy z))) (scale (/ det m) (Vec (vz x) (vz y) (vz z)))).
Definition transpose (m : mat) : mat :=
  Mat (Vec (vx (ra m)) (vx (rb m)) (vx (rc m))) (Vec (vy (ra m)) (vy (rb m)) (vy (rc m))) (Vec (vz (ra m)) (vz (rb m)) (vz (rc m))).
(** numpy.allclose(a, b, atol=eps) with its default rtol=1e-5 *)
Definition close (eps a b : R) : bool := if Rle_dec (Rabs (a - b)) (eps + / 100000 * Rabs b) then true else false.
Definition close_vec (eps : R) (u v : vec) : bool := close eps (vx u) (vx v) && close eps (vy u) (vy v) && close eps (vz u) (vz v).
Definition allclose (eps : R) (a b : mat) : bool := close_vec eps (ra a) (ra b) && close_vec eps (rb a) (rb b) && close_vec eps (rc a) (rc b).
(** np.dot(cell, cart.T) *)
Definition turn_vec (c : mat) (v : vec) : vec := Vec (dot v (ra c)) (dot v (rb c)) (dot v (rc c)).
Definition turn_cell (c h : mat) : mat := Mat (turn_vec c (ra h)) (turn_vec c (rb h)) (turn_vec c (rc h)).

Record args := Args { arg_x : option vec; arg_y : option vec; arg_vecs : option mat; arg_indices : option (list Z); arg_cart : option mat }.
(** 3320-3333; [None]: an exception, among them that of a call on None *)
Definition three_points (o : obj) (a : args) : option (vec * vec * vec) :=
  match arg_indices a with
  | None => option_map (fun v => (ra v, rb v, rc v)) (arg_vecs a)
  | Some [t; i; j; k] => if is_traj o then bind (coords o) (fun x => bind (get t x) (fun f => bind (get i f) (fun u => bind (get j f) (fun v => bind (get k f) (fun w => Some (u, v, w)))))) else None
  | Some [i; j; k] => if is_traj o then None else bind (coords o) (fun x => bind (get 0 x) (fun f => bind (get i f) (fun u => bind (get j f) (fun v => bind (get k f) (fun w => Some (u, v, w))))))
  | Some _ => None
  end.
(** 3319-3336. A zero vector gives a matrix of nan, modelled as [None]; so is a Trajectory with
    three indices and a Structure with four, which index the wrong axes. *)
Definition new_axes (o : obj) (a : args) : option mat :=
  match arg_cart a with
  | Some c => Some c
  | None =>
    bind (match arg_x a, arg_y a with
          | None, None => option_map (fun p => match p with (v0, v1, v2) => (vsub v1 v0, vsub v2 v0) end) (three_points o a)
          | Some x, Some y => Some (x, y)
          | _, _ => None
          end) (fun xy =>
      let (x, y) := xy in
      if Req_EM_T (norm x) 0 then None else if Req_EM_T (norm y) 0 then None else
      let xx := scale (/ norm x) x in let yy := scale (/ norm y) y in
      Some (Mat xx yy (cross xx yy)))
  end.
(** 3337-3347 *)
Definition orthogonal_check (eps : R) (c : mat) : bool :=
  if Rlt_dec 0 eps then match inv c with Some i => allclose eps i (transpose c) | None => false end else true.
Definition align_cart (o : obj) (a : args) (eps : R) : option obj :=
  bind (new_axes o a) (fun c =>
  if negb (orthogonal_check eps c) then None else
  bind (coords_frac o) (fun s => bind (symbols o) (fun sy => bind (cell o) (fun h =>
  set_all (Obj (is_traj o) (Some s) None (Some (map (turn_cell c) h)) (Some sy) None None (fun _ => None)))))).

(** *** center_on_atom: the value returned ([None]: an exception) and the argument afterwards *)
Definition set_coords (o : obj) (x : option (list (list vec))) : obj := Obj (is_traj o) (coords_frac o) x (cell o) (symbols o) (timestep o) (velocity o) (other o).
Definition set_frac (o : obj) (s : list (list vec)) : obj := Obj (is_traj o) (Some s) (coords o) (cell o) (symbols o) (timestep o) (velocity o) (other o).
Definition center_frame (idx : Z) (f : list vec) : option (list vec) :=
  bind (get idx f) (fun c => Some (map (fun v => vadd (vsub v c) (Vec (1/2) (1/2) (1/2))) f)).
Fixpoint all_frames {A B} (g : A -> option B) (l : list A) : option (list B) :=
  match l with [] => Some [] | a :: l => bind (g a) (fun b => bind (all_frames g l) (fun m => Some (b :: m))) end.
Definition center_on_atom (o : obj) (idx : option Z) (copy : bool) : option obj * obj :=
  match idx with
  | None => (None, o)
  | Some i =>
    let o1 := set_coords o None in                                                     (* 2116 *)
    match bind (coords_frac o1) (all_frames (center_frame i)) with
    | None => (None, if copy then o else o1)
    | Some s =>
      let o2 := set_frac o1 s in                                                       (* 2118 *)
      match set_all o2 with
      | None => (None, if copy then o else Obj (is_traj o2) (coords_frac o2) (bind (cell o2) (fun h => Some (to_coords s h))) (cell o2) (symbols o2) (timestep o2) (velocity o2) (other o2))
      | Some r => (Some r, if copy then o else r)
      end
    end
  end.
End Align.
