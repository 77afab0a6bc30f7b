(** Model of what Structure and Trajectory compute from the arrays given to them:
    _extend, _extend_array, _extend_cell, _extend_cc, get_natoms, get_coords, get_coords_frac,
    get_volume, get_cell, get_cryst_const, get_pressure, get_time, get_nstep,
    /repo/src/pwtools/crys.py:2447-2487, 2570-2730, and volume_cell3d, cell2cc3d, cc2cell3d 82-96,
    179-193, 252-267 along the time axis 0.  Real arithmetic.  [None] for the whole object is an
    exception in the constructor (set_all); [None] for an attribute is Python's None.
    Simplified: no units (C23, C69); velocity, ekin and temperature are in TrajStat.v. *)
From Coq Require Import List Reals Arith Bool.
From Verif Require Import Vec3 Cells.
Import ListNotations.

(** ** one structure *)
(** np.dot(coords_frac, cell), 2592 *)
Definition frac2cart (x : list vec) (cell : mat) : list vec := map (fun v => vecmat v cell) x.
(** _flib.cart2frac, 2618: the solution of v = x . cell; for a singular cell the result is
    undefined, taken as an exception here *)
Definition solve3 (v : vec) (cell : mat) : vec :=
  Vec (det (Mat v (rb cell) (rc cell)) / det cell) (det (Mat (ra cell) v (rc cell)) / det cell) (det (Mat (ra cell) (rb cell) v) / det cell).
Definition cart2frac (x : list vec) (cell : mat) : option (list vec) :=
  if Req_EM_T (det cell) 0 then None else Some (map (fun v => solve3 v cell) x).
(** np.trace(stress)/3, 2684-2686 *)
Definition third_trace (s : mat) : R := ((vx (ra s) + vy (rb s) + vz (rc s)) / 3)%R.
(** what can be given *)
Record sgiven := SGiven { s_cell : option mat; s_cc : option cc; s_coords : option (list vec); s_frac : option (list vec); s_stress : option mat }.
Record sattrs := SAttrs { a_cell : option mat; a_cc : option cc; a_coords : option (list vec); a_frac : option (list vec);
  a_volume : option R; a_pressure : option R }.
Definition or_else {A} (o p : option A) : option A := match o with Some x => Some x | None => p end.
(** 2588-2596, 2614-2622, 2638-2689 *)
Definition make_struct (g : sgiven) : option sattrs :=
  let cell := or_else (s_cell g) (option_map cc2cell (s_cc g)) in
  let ccs := or_else (s_cc g) (option_map cell2cc (s_cell g)) in
  let coords := or_else (s_coords g) match s_frac g, cell with Some x, Some c => Some (frac2cart x c) | _, _ => None end in
  match match s_frac g with Some x => Some (Some x) | None =>
        match s_coords g, cell with Some x, Some c => option_map Some (cart2frac x c) | _, _ => Some None end end with
  | None => None
  | Some frac => Some (SAttrs cell ccs coords frac (option_map volume_cell cell) (option_map third_trace (s_stress g)))
  end.

(** ** a trajectory *)
(** an array of shape (3,3) or (6,), or one with a time axis in front *)
Inductive tarr (A : Type) := Single (x : A) | Series (l : list A).
Arguments Single {A}. Arguments Series {A}.
(** an array (nstep, natoms, 3) *)
Record arr3 := Arr3 { natoms3 : nat; frames : list (list vec) }.
Record tgiven := TGiven { t_cell : option (tarr mat); t_cc : option (tarr cc); t_coords : option arr3; t_frac : option arr3;
  t_stress : option (list mat); t_timestep : option R; t_nsym : option nat }.
Record tattrs := TAttrs { u_cell : option (list mat); u_cc : option (list cc); u_coords : option arr3; u_frac : option arr3;
  u_volume : option (list R); u_pressure : option (list R); u_time : option (list R); u_nstep : option nat }.
(** get_nstep 2715-2723, get_natoms 2570-2582 *)
Definition get_nstep (g : tgiven) : option nat := option_map (fun x => List.length (frames x)) (or_else (t_coords g) (t_frac g)).
Definition get_natoms (g : tgiven) : option nat := or_else (t_nsym g) (option_map natoms3 (or_else (t_coords g) (t_frac g))).
(** _extend_cell, _extend_cc 2469-2487: AssertionError without nstep *)
Definition extend {A} (nstep : option nat) (a : tarr A) : option (list A) :=
  match a with
  | Single x => option_map (repeat x) nstep
  | Series [x] => option_map (repeat x) nstep
  | Series l => Some l
  end.
(** _extend 2456-2461 *)
Definition extend_given {A} (nstep : option nat) (a : tarr A) : tarr A :=
  match nstep with Some _ => match extend nstep a with Some l => Series l | None => a end | None => a end.
(** the loops of volume_cell3d, cell2cc3d, cc2cell3d; "assert cell.ndim == 3" *)
Definition loop3d {A B} (f : A -> B) (a : tarr A) : option (list B) := match a with Series l => Some (map f l) | Single _ => None end.
(** get_cell / get_cryst_const 2652-2676: "cc = self._extend_cc(self.cryst_const); return cc2cell3d(cc)" *)
Definition get_by_other {A B} (nstep : option nat) (f : B -> A) (a : option (tarr A)) (b : option (tarr B)) : option (option (tarr A)) :=
  match a, b with
  | Some x, _ => Some (Some x)
  | None, Some y => match extend nstep y with Some l => Some (Some (Series (map f l))) | None => None end
  | None, None => Some None
  end.
(** the shape tests in get_coords and get_coords_frac, 2600-2607, 2626-2633 *)
Definition shape_ok (x : arr3) (natoms : nat) (cell : tarr mat) : bool :=
  (natoms3 x =? natoms)%nat && match cell with Series l => (List.length l =? List.length (frames x))%nat | Single _ => false end.
Fixpoint map2o {A B C} (f : A -> B -> option C) (l : list A) (m : list B) : option (list C) :=
  match l, m with
  | x :: l', y :: m' => match f x y, map2o f l' m' with Some z, Some r => Some (z :: r) | _, _ => None end
  | _, _ => Some []
  end.
(** frac2cart_traj, cart2frac_traj: frame by frame *)
Definition trans_traj (f : list vec -> mat -> option (list vec)) (x : arr3) (cell : tarr mat) : option arr3 :=
  match cell with Series l => option_map (Arr3 (natoms3 x)) (map2o f (frames x) l) | Single _ => None end.
Definition get_trans (f : list vec -> mat -> option (list vec)) (a other : option arr3) (cell : option (tarr mat)) (natoms : option nat) : option (option arr3) :=
  match a with Some x => Some (Some x) | None =>
  match other, cell, natoms with
  | Some x, Some c, Some n => if shape_ok x n c then option_map Some (trans_traj f x c) else None
  | _, _, _ => Some None
  end end.
(** np.linspace(0, (nstep-1)*timestep, nstep), 2696 *)
Definition linspace (b : R) (n : nat) : list R := map (fun i => (INR i * (b / INR (n - 1)))%R) (seq 0 n).
Definition get_time (timestep : option R) (nstep : option nat) : option (list R) :=
  match timestep, nstep with Some dt, Some n => Some (linspace ((INR n - 1) * dt)%R n) | _, _ => None end.
(** an attribute with the time axis; an array without one stays what it is and can not be read frame by frame *)
Definition series {A} (o : option (tarr A)) : option (option (list A)) :=
  match o with Some (Series l) => Some (Some l) | Some (Single _) => None | None => Some None end.
(** set_all 2447-2461 and the getters; volume_cell3d refuses a cell without time axis *)
Definition make_traj (g : tgiven) : option tattrs :=
  let nstep := get_nstep g in
  let natoms := get_natoms g in
  let cell1 := option_map (extend_given nstep) (t_cell g) in
  let cc1 := option_map (extend_given nstep) (t_cc g) in
  match get_by_other nstep cc2cell cell1 cc1, get_by_other nstep cell2cc cc1 cell1 with
  | Some cell, Some ccs =>
    match get_trans (fun x c => Some (frac2cart x c)) (t_coords g) (t_frac g) cell natoms,
          get_trans cart2frac (t_frac g) (t_coords g) cell natoms,
          match cell with Some c => option_map Some (loop3d volume_cell c) | None => Some None end, series cell, series ccs with
    | Some coords, Some frac, Some vol, Some cell', Some ccs' =>
      Some (TAttrs cell' ccs' coords frac vol (option_map (map third_trace) (t_stress g)) (get_time (t_timestep g) nstep) nstep)
    | _, _, _, _, _ => None
    end
  | _, _ => None
  end.
