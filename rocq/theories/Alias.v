(** Which objects share memory: copy, get_traj, slicing, compress, pbc_wrap and the constructor of
    Structure and Trajectory, /repo/src/pwtools/crys.py 814-836, 2127-2191, 2281-2457, 2489-2528,
    2870-2889, 2938-2974, 2997-3018. Attributes which are mutable (arrays, lists, dicts) are
    references to buffers in a heap; arrays may be views of a part of a buffer. Simplified: real
    numbers stand for floats; of the getters called by set_all only the one for coords is modelled
    (the others create new arrays, or return what is there); dicts and lists are flat; indices of
    time steps are not negative (C25 has these). *)
From Coq Require Import List String ZArith Bool Reals.
From Verif Require Import StructGetters Traj.
Import ListNotations.
Local Open Scope list_scope.
Local Notation length := List.length.

Inductive item := Num (x : R) | Txt (s : string).
Inductive kind := F64 | F32 | Other_.
(** offsets into the buffer, in C order; shape *)
Record view := View { buf : nat; offs : list nat; dims : list nat; kind_ : kind }.
Inductive value := Imm (x : item) | Mut (v : view).
Definition heap := list (list item).
Record object := Obj { attrs : list (string * value); units : string -> R; applied : bool }.
Definition get (o : object) (n : string) : option value :=
  match find (fun nv => String.eqb n (fst nv)) (attrs o) with Some nv => Some (snd nv) | None => None end.
Definition del (n : string) (l : list (string * value)) : list (string * value) := filter (fun nv => negb (String.eqb n (fst nv))) l.
Definition put (o : object) (n : string) (v : value) : object := Obj ((n, v) :: del n (attrs o)) (units o) (applied o).
Definition unset (o : object) (n : string) : object := Obj (del n (attrs o)) (units o) (applied o).
(** reading and writing *)
Definition buffer (h : heap) (b : nat) : list item := nth b h [].
Definition contents (h : heap) (v : view) : list item := map (fun o => nth o (buffer h (buf v)) (Num 0)) (offs v).
Fixpoint set_nth {A} (k : nat) (x : A) (l : list A) : list A :=
  match l, k with [], _ => [] | _ :: l, O => x :: l | a :: l, S k => a :: set_nth k x l end.
Definition store (h : heap) (b o : nat) (x : item) : heap := set_nth b (set_nth o x (buffer h b)) h.
Definition alloc (h : heap) (l : list item) (d : list nat) (k : kind) : heap * view := (h ++ [l], View (length h) (seq 0 (length l)) d k).
(** arr[:] = f(arr), element by element *)
Definition update_with (f : item -> item) (h : heap) (v : view) : heap :=
  fold_left (fun h o => store h (buf v) o (f (nth o (buffer h (buf v)) (Num 0)))) (offs v) h.

(** *** copy 2510-2526 *)
Definition copy_value (h : heap) (v : value) : heap * value :=
  match v with Imm x => (h, Imm x) | Mut v => let (h', v') := alloc h (contents h v) (dims v) (kind_ v) in (h', Mut v') end.
Fixpoint copy_attrs (h : heap) (l : list (string * value)) : heap * list (string * value) :=
  match l with
  | [] => (h, [])
  | (n, v) :: l => let (h1, v1) := copy_value h v in let (h2, l2) := copy_attrs h1 l in (h2, (n, v1) :: l2)
  end.
Definition no_units : string -> R := fun _ => 1%R.
Definition copy (h : heap) (o : object) : heap * object := let (h', l) := copy_attrs h (attrs o) in (h', Obj l no_units false).

(** *** units: 2148-2176; a product makes a new array. [attr * unit] of a number is a number. *)
Definition mul_item (f : R) (x : item) : item := match x with Num y => Num (y * f) | Txt s => Txt s end.
Definition units_map : list (string * list string) :=
  [("length", ["cell"; "coords"; "abc"]); ("energy", ["etot"; "ekin"]); ("stress", ["stress"]); ("forces", ["forces"]);
   ("temperature", ["temperature"]); ("velocity", ["velocity"]); ("time", ["timestep"])]%string.
Definition times (f : R) (h : heap) (v : value) : heap * value :=
  match v with
  | Imm x => (h, Imm (mul_item f x))
  | Mut v => let (h', v') := alloc h (map (mul_item f) (contents h v)) (dims v) (kind_ v) in (h', Mut v')
  end.
Definition times_attr (f : R) (ho : heap * object) (n : string) : heap * object :=
  match get (snd ho) n with None => ho | Some v => let (h', v') := times f (fst ho) v in (h', put (snd ho) n v') end.
(** the first three of six columns; 1d arrays of six, or 2d arrays with rows of six *)
Definition scale_abc (f : R) (l : list item) : list item := map (fun ix => if (fst ix mod 6 <? 3)%nat then mul_item f (snd ix) else snd ix) (combine (seq 0 (length l)) l).
Definition times_cc (f : R) (ho : heap * object) : heap * object :=
  match get (snd ho) "cryst_const" with
  | Some (Mut v) => let (h', v') := alloc (fst ho) (scale_abc f (contents (fst ho) v)) (dims v) (kind_ v) in (h', put (snd ho) "cryst_const" (Mut v'))
  | _ => ho
  end.
Definition apply_units (ho : heap * object) : heap * object :=
  let o := snd ho in
  if applied o then ho else
  let ho1 := times_cc (units o "length"%string) ho in
  let ho2 := fold_left (fun ho ul => if Req_EM_T (units o (fst ul)) 1 then ho else fold_left (times_attr (units o (fst ul))) (snd ul) ho) units_map ho1 in
  (fst ho2, Obj (attrs (snd ho2)) (units (snd ho2)) true).
(** the constructor 2281-2430 up to the getters: the arrays of the caller are attributes *)
Definition construct (h : heap) (kwds : list (string * value)) (u : string -> R) : heap * object := apply_units (h, Obj kwds u false).

(** *** Trajectory.__getitem__ 2938-2974 *)
Definition rowlen (d : list nat) : nat := fold_right Nat.mul 1 (tl d).
Definition row (v : view) (i : nat) : list nat := firstn (rowlen (dims v)) (skipn (i * rowlen (dims v)) (offs v)).
Definition attrs_only_traj : list string := ["nstep"; "timestep"; "time"; "ekin"; "velocity"; "temperature"]%string.
(** attr[i], attr[i,...]: a number for a 1d array, else a view *)
Definition item_of (h : heap) (v : view) (i : nat) : option value :=
  match dims v with
  | [] => None
  | [n] => if (i <? n)%nat then Some (Imm (nth i (contents h v) (Num 0))) else None
  | n :: d => if (i <? n)%nat then Some (Mut (View (buf v) (row v i) d (kind_ v))) else None
  end.
Definition nstep_of (o : object) : option nat := match get o "nstep" with Some (Imm (Num x)) => Some (Z.to_nat (Int_part x)) | _ => None end.
Definition has_nstep (o : object) (v : view) : bool := match dims v, nstep_of o with n :: _, Some m => (n =? m)%nat | _, _ => false end.
Fixpoint frame_attrs (h : heap) (tr : object) (i : nat) (l : list (string * value)) : option (list (string * value)) :=
  match l with
  | [] => Some []
  | (n, v) :: l =>
    match frame_attrs h tr i l with
    | None => None
    | Some r =>
      if mem n attrs_only_traj then Some r else
      if mem n attrs_nstep then
        match v with
        | Mut w => if has_nstep tr w then match item_of h w i with Some x => Some ((n, x) :: r) | None => None end else Some r
        | Imm _ => None
        end
      else Some ((n, v) :: r)
    end
  end.
Definition frame (h : heap) (tr : object) (i : nat) : option object :=
  match frame_attrs h tr i (attrs tr) with Some l => Some (Obj l no_units false) | None => None end.
(** tr[a:b:c]: views of the chosen steps; numbers are read by reference too *)
Definition part (v : view) (idx : list nat) : view := View (buf v) (List.concat (map (row v) idx)) (length idx :: tl (dims v)) (kind_ v).
Fixpoint part_attrs (tr : object) (idx : list nat) (l : list (string * value)) : option (list (string * value)) :=
  match l with
  | [] => Some []
  | (n, v) :: l =>
    match part_attrs tr idx l with
    | None => None
    | Some r =>
      if mem n attrs_nstep then
        match v with Mut w => Some (if has_nstep tr w then (n, Mut (part w idx)) :: r else r) | Imm _ => None end
      else Some ((n, v) :: r)
    end
  end.
Definition step_of (s : slice) : R := match step s with Some d => IZR d | None => 1%R end.
(** [*=] changes an array in place *)
Definition slice_traj (h : heap) (tr : object) (s : slice) : option (heap * object) :=
  match nstep_of tr with
  | None => None
  | Some n =>
    match slice_list s (seq 0 n) with
    | None => None
    | Some idx =>
      match part_attrs tr idx (attrs tr) with
      | None => None
      | Some l =>
        let o := put (Obj l no_units false) "nstep" (Imm (Num (INR (length idx)))) in
        match get o "timestep" with
        | None => Some (h, o)
        | Some (Imm x) => Some (h, put o "timestep" (Imm (mul_item (step_of s) x)))
        | Some (Mut v) => Some (update_with (mul_item (step_of s)) h v, o)
        end
      end
    end
  end.

(** *** Structure.get_traj 2870-2889, without set_all *)
Definition repeat_value (h : heap) (n : nat) (v : value) : heap * value :=
  match v with
  | Imm x => let (h', w) := alloc h (repeat x n) [n] F64 in (h', Mut w)
  | Mut w => let (h', w') := alloc h (List.concat (repeat (contents h w) n)) (n :: dims w) (kind_ w) in (h', Mut w')
  end.
Fixpoint traj_attrs (h : heap) (nstep : nat) (l : list (string * value)) : heap * list (string * value) :=
  match l with
  | [] => (h, [])
  | (n, v) :: l =>
    let (h1, v1) := if mem n attrs_nstep then repeat_value h nstep v else copy_value h v in
    let (h2, l2) := traj_attrs h1 nstep l in (h2, (n, v1) :: l2)
  end.
Definition get_traj (h : heap) (o : object) (nstep : nat) : heap * object := let (h', l) := traj_attrs h nstep (attrs o) in (h', Obj l no_units false).

(** *** in-place changes *)
Section CHANGES.
(** np.remainder(x, 1); coords from coords_frac and cell; a number as float32 *)
Variable wrap : R -> R.
Variable cart : list item -> list item -> list item.
Variable cast : R -> R.
Definition num_item (f : R -> R) (x : item) : item := match x with Num y => Num (f y) | Txt s => Txt s end.
(** get_coords *)
Definition set_coords (h : heap) (o : object) : heap * object :=
  match get o "coords", get o "coords_frac", get o "cell" with
  | None, Some (Mut v), Some (Mut c) => let (h', w) := alloc h (cart (contents h v) (contents h c)) (dims v) F64 in (h', put o "coords" (Mut w))
  | _, _, _ => (h, o)
  end.
(** pbc_wrap 814-836; nothing more happens when coords_frac is missing (an exception) *)
Definition wrap_here (h : heap) (o : object) : heap * object :=
  let o1 := unset o "coords" in
  match get o1 "coords_frac" with
  | Some (Mut v) => let h1 := update_with (num_item wrap) h v in let (h2, o2) := apply_units (h1, o1) in set_coords h2 o2
  | _ => (h, o1)
  end.
Definition pbc_wrap (h : heap) (o : object) (cp : bool) : heap * object := if cp then let (h', o') := copy h o in wrap_here h' o' else wrap_here h o.
(** compress 2489-2508, 2997-3018; float arrays of another type are converted, which makes a new array *)
Definition cast_value (h : heap) (v : value) : heap * value :=
  match v with
  | Mut w => match kind_ w with F64 => let (h', w') := alloc h (map (num_item cast) (contents h w)) (dims w) F32 in (h', Mut w') | _ => (h, Mut w) end
  | Imm x => (h, Imm x)
  end.
Fixpoint compress_attrs (forget : list string) (h : heap) (l : list (string * value)) : heap * list (string * value) :=
  match l with
  | [] => (h, [])
  | (n, v) :: l =>
    if mem n forget then compress_attrs forget h l else
    let (h1, v1) := cast_value h v in
    let (h2, l2) := compress_attrs forget h1 l in (h2, (n, v1) :: l2)
  end.
Definition compress_here (forget : list string) (h : heap) (o : object) : heap * object := let (h', l) := compress_attrs forget h (attrs o) in (h', Obj l (units o) (applied o)).
Definition compress (forget : list string) (h : heap) (o : object) (cp : bool) : heap * object := if cp then let (h', o') := copy h o in compress_here forget h' o' else compress_here forget h o.
(** what a user does with an object: assignment to an element, assignment to an attribute (of a new
    array), deletion (None), functions with copy=False, set_all *)
Inductive change := Poke (n : string) (k : nat) (x : item) | Rebind (n : string) (l : list item) (d : list nat) | Unset (n : string) | Wrap | Compress (forget : list string) | SetAll.
Definition perform (c : change) (ho : heap * object) : heap * object :=
  let (h, o) := ho in
  match c with
  | Poke n k x => match get o n with Some (Mut v) => match nth_error (offs v) k with Some p => (store h (buf v) p x, o) | None => ho end | _ => ho end
  | Rebind n l d => let (h', v) := alloc h l d F64 in (h', put o n (Mut v))
  | Unset n => (h, unset o n)
  | Wrap => wrap_here h o
  | Compress forget => compress_here forget h o
  | SetAll => let (h1, o1) := apply_units (h, o) in set_coords h1 o1
  end.
(** two objects; the boolean tells which one is changed *)
Definition step2 (s : heap * object * object) (bc : bool * change) : heap * object * object :=
  let '(h, a, b) := s in
  if fst bc then let (h', b') := perform (snd bc) (h, b) in (h', a, b') else let (h', a') := perform (snd bc) (h, a) in (h', a', b).
Definition run2 (l : list (bool * change)) (s : heap * object * object) : heap * object * object := fold_left step2 l s.
End CHANGES.
