(** Model of UnitsHandler (/repo/src/pwtools/crys.py:2127-2191), of
    Structure.set_all (2444-2478) and of StructureFileParser.get_cont
    (/repo/src/pwtools/parse.py:249-308). *)
From Coq Require Import List String Arith.
From Verif Require Import Getters StructGetters.
Import ListNotations.
Open Scope string_scope.

Section Units.
(** Numbers with a product; in Python floats.  [eqb] is ==. *)
Variable num : Type.
Variable one : num.
Variable mul : num -> num -> num.
Variable eqb : num -> num -> bool.

(** A quantity: one row of numbers for each time step.  Quantities without a time
    axis have one row; that coords is a table of atoms and not a row does not
    matter here. *)
Definition quantity := list (list num).

(** units_map, crys.py:2134-2142. *)
Definition units_map : list (string * list string) :=
  [("length", ["cell"; "coords"; "abc"]); ("energy", ["etot"; "ekin"]); ("stress", ["stress"]); ("forces", ["forces"]);
   ("temperature", ["temperature"]); ("velocity", ["velocity"]); ("time", ["timestep"])].
Definition all_units : list string := map fst units_map.

Record handler := Handler {
  store : string -> option quantity;
  units : string -> num;
  applied : bool }.

Definition scale (f : num) (q : quantity) : quantity := map (map (fun x => mul x f)) q.
(** cc[:3] *= f, cc[:,:3] *= f: 2155-2162 *)
Definition scale_cc (f : num) (q : quantity) : quantity := map (fun row => (map (fun x => mul x f) (firstn 3 row) ++ skipn 3 row)%list) q.

Definition scale_attr (f : num) (s : string -> option quantity) (a : string) : string -> option quantity :=
  match s a with Some q => set a (Some (scale f q)) s | None => s end.

(** _apply_units_raw, 2147-2170: the assertion, cryst_const, then all units other
    than 1. *)
Definition apply_units_raw (h : handler) : option handler :=
  if applied h then None
  else
    let s0 := match store h "cryst_const" with
              | Some q => set "cryst_const" (Some (scale_cc (units h "length") q)) (store h)
              | None => store h
              end in
    let s1 := fold_left (fun s ul => if eqb (units h (fst ul)) one then s
                                     else fold_left (scale_attr (units h (fst ul))) (snd ul) s) units_map s0 in
    Some (Handler s1 (units h) true).

(** apply_units, 2172-2175. *)
Definition apply_units (h : handler) : handler :=
  if applied h then h else match apply_units_raw h with Some h' => h' | None => h end.

(** update_units, 2177-2191: checks all keys first; [d] are the items of the dict. *)
Definition update_units (d : list (string * num)) (h : handler) : option handler :=
  if forallb (fun kv => existsb (String.eqb (fst kv)) all_units) d
  then Some (Handler (store h) (fold_left (fun u kv => fun k => if String.eqb (fst kv) k then snd kv else u k) d (units h)) (applied h))
  else None.

(** _extend, 2453-2478, for a Trajectory: cell and cryst_const with one step get
    nstep steps.  nstep is that of coords or coords_frac (2722-2730). *)
Definition nsteps (s : string -> option quantity) : option nat :=
  match s "coords" with Some q => Some (List.length q) | None => option_map (@List.length _) (s "coords_frac") end.
Definition extend_q (n : nat) (q : quantity) : quantity := match q with [row] => repeat row n | _ => q end.
Definition extend (s : string -> option quantity) : string -> option quantity :=
  match nsteps s with
  | None => s
  | Some n =>
    let s1 := match s "cell" with Some q => set "cell" (Some (extend_q n q)) s | None => s end in
    match s1 "cryst_const" with Some q => set "cryst_const" (Some (extend_q n q)) s1 | None => s1 end
  end.

(** Structure.set_all, 2444-2451; [l] and [get] are the attribute list and the
    getters, any; [fuel] bounds their recursion.  None if a getter raised; the
    object is then left as it was at that point, which is not modelled. *)
Variable get : string -> getter quantity.
Variable fuel : nat.
Definition extend_apply (is_traj : bool) (h : handler) : handler :=
  let h1 := apply_units h in
  if is_traj then Handler (extend (store h1)) (units h1) (applied h1) else h1.
Definition set_all_h (is_traj : bool) (l : list string) (h : handler) : option handler :=
  let h2 := extend_apply is_traj h in
  match set_all get fuel l (Obj (store h2) []) with
  | Done _ s => Some (Handler (attrs s) (units h2) (applied h2))
  | _ => None
  end.

(** The calls a user can make on a Structure or Trajectory. *)
Inductive op := Apply | SetAll (l : list string) | Update (d : list (string * num)).
Definition step (is_traj : bool) (o : op) (h : handler) : option handler :=
  match o with
  | Apply => Some (apply_units h)
  | SetAll l => set_all_h is_traj l h
  | Update d => update_units d h
  end.
Fixpoint steps (is_traj : bool) (os : list op) (h : handler) : option handler :=
  match os with
  | [] => Some h
  | o :: os => match step is_traj o h with Some h' => steps is_traj os h' | None => None end
  end.

(** get_cont, parse.py:279-302: a parser keeps one container, puts its own
    attributes into it and lets it apply the units. *)
Record parser := Parser { parsed : string -> option quantity; cont : handler }.
Definition get_cont (is_traj auto_calc : bool) (l : list string) (p : parser) : option parser :=
  let h := Handler (fun a => if existsb (String.eqb a) l then parsed p a else store (cont p) a) (units (cont p)) (applied (cont p)) in
  match (if auto_calc then set_all_h is_traj l h else Some (extend_apply is_traj h)) with
  | Some h' => Some (Parser (parsed p) h')
  | None => None
  end.
End Units.
