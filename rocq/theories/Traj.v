(** Model of Trajectory.__getitem__, __iter__, __next__, struct2traj and
    concatenate, /repo/src/pwtools/crys.py:2338-2408, 2870-2889, 2935-2982,
    3037-3096.  Simplified: an array with a time axis is the list of its rows; the
    shapes of the rows are not modelled (np.concatenate also checks these). *)
From Coq Require Import List String ZArith Bool.
From Verif Require Import StructGetters.
Import ListNotations.
Open Scope string_scope.

Section Traj.
Variables A X T : Type.
Variable mul : T -> Z -> T.   (* timestep times an integer *)

(** A value of an attribute: array along the time axis, one row (in a Structure),
    an integer (nstep), a number (timestep) or anything else. *)
Inductive val := Arr (l : list A) | Row (a : A) | Int (n : Z) | Num (t : T) | Other (x : X).
Definition obj := string -> option val.
Definition none : obj := fun _ => None.                                  (* init_attr_lst *)
Definition setattr (o : obj) (a : string) (v : option val) : obj :=
  fun b => if a =? b then v else o b.
Definition mem (a : string) (l : list string) : bool := existsb (String.eqb a) l.

(** 2365-2398 *)
Definition attrs_nstep_2d_3d : list string :=
  ["coords"; "coords_frac"; "stress"; "forces"; "velocity"; "cell"; "cryst_const"].
Definition attrs_nstep_1d : list string := ["pressure"; "volume"; "etot"; "ekin"; "temperature"; "time"].
Definition attrs_nstep : list string := (attrs_nstep_2d_3d ++ attrs_nstep_1d)%list.

(** Python's slice objects and slice.indices: bounds and number of elements of a
    slice of a sequence with n elements. *)
Record slice := Slice { start : option Z; stop : option Z; step : option Z }.
Definition clip (lower upper n x : Z) : Z :=
  if (x <? 0)%Z then Z.max lower (x + n) else Z.min upper x.
Definition slice_indices (s : slice) (n : Z) : option (Z * Z * Z) :=
  let d := match step s with Some d => d | None => 1%Z end in
  if (d =? 0)%Z then None else
  let lower := if (d <? 0)%Z then (-1)%Z else 0%Z in
  let upper := if (d <? 0)%Z then (n - 1)%Z else n in
  let a := match start s with Some x => clip lower upper n x | None => if (d <? 0)%Z then upper else lower end in
  let b := match stop s with Some x => clip lower upper n x | None => if (d <? 0)%Z then lower else upper end in
  Some (a, b, d).
Definition range_len (a b d : Z) : nat :=
  if (d <? 0)%Z then (if (b <? a)%Z then Z.to_nat ((a - b - 1) / (- d) + 1) else 0)
  else (if (a <? b)%Z then Z.to_nat ((b - a - 1) / d + 1) else 0).
Fixpoint pick {B} (l : list B) (a d : Z) (cnt : nat) : list B :=
  match cnt with
  | 0 => []
  | S cnt => match nth_error l (Z.to_nat a) with
             | Some x => x :: pick l (a + d)%Z d cnt
             | None => pick l (a + d)%Z d cnt
             end
  end.
(** arr[slice]; None for step 0, which is an error *)
Definition slice_list {B} (s : slice) (l : list B) : option (list B) :=
  match slice_indices s (Z.of_nat (List.length l)) with
  | None => None
  | Some (a, b, d) => Some (pick l a d (range_len a b d))
  end.
(** arr[i]; None for IndexError *)
Definition item_list {B} (i : Z) (l : list B) : option B :=
  let n := Z.of_nat (List.length l) in
  if (- n <=? i)%Z && (i <? n)%Z then nth_error l (Z.to_nat (if (i <? 0)%Z then i + n else i)) else None.

(** attr.shape[self.timeaxis] == self.nstep, 2959 and 2962 *)
Definition nstep_is (o : obj) (l : list A) : bool :=
  match o "nstep" with Some (Int n) => (Z.of_nat (List.length l) =? n)%Z | _ => false end.
(** get_nstep, 2722-2730 *)
Definition get_nstep (o : obj) : option val :=
  match o "coords" with
  | Some (Arr l) => Some (Int (Z.of_nat (List.length l)))
  | Some _ => None
  | None => match o "coords_frac" with Some (Arr l) => Some (Int (Z.of_nat (List.length l))) | _ => None end
  end.

(** The loop of __getitem__, 2946-2968; [cut] is what [idx] does to an array. *)
Definition getitem_step (self : obj) (want_traj : bool) (cut : list A -> option val) (o : option obj) (name : string)
  : option obj :=
  match o with
  | None => None
  | Some o =>
    if negb want_traj && mem name attrs_only_traj then Some o else
    match self name with
    | None => Some (setattr o name None)
    | Some v =>
      if mem name attrs_nstep then
        match v with
        | Arr l => if nstep_is self l then
                     match cut l with Some r => Some (setattr o name (Some r)) | None => None end
                   else Some o
        | _ => Some o
        end
      else Some (setattr o name (Some v))
    end
  end.
Definition getitem_loop (self : obj) (want_traj : bool) (cut : list A -> option val) : option obj :=
  fold_left (getitem_step self want_traj cut) (attr_lst true) (Some none).

(** tr[i], 2938-2974; None for an exception *)
Definition getitem_int (self : obj) (i : Z) : option obj :=
  getitem_loop self false (fun l => option_map Row (item_list i l)).
(** tr[a:b:s] *)
Definition getitem_slice (self : obj) (s : slice) : option obj :=
  match getitem_loop self true (fun l => option_map Arr (slice_list s l)) with
  | None => None
  | Some o =>
    let o := setattr o "nstep" (get_nstep o) in
    match o "timestep" with
    | Some (Num t) => Some (setattr o "timestep" (Some (Num (mul t (match step s with Some d => d | None => 1%Z end)))))
    | _ => Some o
    end
  end.

(** __next__, 2976-2982; the state is _index; None is StopIteration. *)
Definition next (nstep : Z) (index : Z) : option Z * Z :=
  let index := (index + 1)%Z in
  if (index =? nstep)%Z then (None, (-1)%Z) else (Some index, index).
(** "for st in tr: body": the state of the body and the index; [body] says with
    false that the loop is left.  None: still running after [fuel] rounds. *)
Fixpoint for_loop {S : Type} (nstep : Z) (body : Z -> S -> Z -> S * Z * bool) (fuel : nat) (s : S) (index : Z)
  : option (S * Z) :=
  match fuel with
  | 0 => None
  | Datatypes.S fuel =>
    match next nstep index with
    | (None, index) => Some (s, index)
    | (Some i, index) =>
      match body i s index with
      | (s, index, true) => for_loop nstep body fuel s index
      | (s, index, false) => Some (s, index)
      end
    end
  end.

(** get_traj(nstep), 2870-2889.  Simplified: the final set_all is only modelled for
    nstep, that is for a Structure whose derivable attributes are set. *)
Definition get_traj (st : obj) (nstep : nat) : obj :=
  let tr := fold_left (fun tr name => setattr tr name
      (match st name with
       | None => None
       | Some (Row r) => if mem name attrs_nstep then Some (Arr (repeat r nstep)) else Some (Row r)
       | Some v => Some v
       end)) (attr_lst false) none in
  setattr tr "nstep" (get_nstep tr).
(** struct2traj, 3037-3042 *)
Definition struct2traj (o : bool * obj) : obj := if fst o then snd o else get_traj (snd o) 1.

(** populated_attrs, 3061-3065, the intersection of the populated names *)
Definition is_some (o : option val) : bool := match o with Some _ => true | None => false end.
Definition populated_attrs (l : list obj) : list string :=
  filter (fun a => forallb (fun o => is_some (o a)) l) (attr_lst true).
Definition rows (o : obj) (a : string) : list A := match o a with Some (Arr l) => l | _ => [] end.
Definition symmetric_difference (l l' : list string) : list string :=
  (filter (fun a => negb (mem a l')) l ++ filter (fun a => negb (mem a l)) l')%list.
(** concatenate, 3068-3096; None for an empty list, which is an error *)
Definition concatenate (lst : list (bool * obj)) : option obj :=
  let trlst := map struct2traj lst in
  match trlst with
  | [] => None
  | first :: _ =>
    let com := populated_attrs trlst in
    let o := fold_left (fun o a => setattr o a (Some (Arr (List.concat (map (fun x => rows x a) trlst)))))
                       (filter (fun a => mem a attrs_nstep) com) none in
    let o := fold_left (fun o a => setattr o a (first a)) (symmetric_difference com (attrs_nstep ++ attrs_only_traj)) o in
    let o := setattr o "timestep" None in
    let o := setattr o "time" None in
    Some (setattr o "nstep" (get_nstep o))
  end.
End Traj.
Arguments Arr {A X T}. Arguments Row {A X T}. Arguments Int {A X T}. Arguments Num {A X T}. Arguments Other {A X T}.
Arguments none {A X T}. Arguments setattr {A X T}. Arguments nstep_is {A X T}. Arguments get_nstep {A X T}.
Arguments getitem_step {A X T}. Arguments getitem_loop {A X T}. Arguments getitem_int {A X T}.
Arguments getitem_slice {A X T}. Arguments get_traj {A X T}. Arguments struct2traj {A X T}.
Arguments is_some {A X T}. Arguments populated_attrs {A X T}. Arguments rows {A X T}. Arguments concatenate {A X T}.
