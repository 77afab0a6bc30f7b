(** Model of the getters of Structure and Trajectory,
    /repo/src/pwtools/crys.py:2528-2800 as getters of FlexibleGetters.
    Simplified: the numbers are not modelled, only which function is applied to
    which attributes; the assertions about array shapes (2600-2606, 2626-2632) and
    lookups of unknown chemical symbols are taken to succeed. *)
From Coq Require Import List String Arith Bool.
From Verif Require Import Getters.
Import ListNotations.
Open Scope string_scope.

Section Struct.
Variable V : Type.

(** The functions called: np.dot / frac2cart_traj, cart2frac(_traj), volume_cell(3d),
    cc2cell(3d), cell2cc(3d), the third of the trace, velocity_traj, the kinetic
    energy, the temperature, np.linspace, len and shape, np.unique and so on. *)
Record funs := Funs {
  frac2cart : V -> V -> V; cart2frac : V -> V -> V; volume_of : V -> V; cc2cell : V -> V; cell2cc : V -> V;
  third_trace : V -> V; velocity_of : V -> V -> V; ekin_of : V -> V -> V; temp_of : V -> V -> V; time_of : V -> V -> V;
  len_symbols : V -> V; natoms_of : V -> V; nstep_of : V -> V;
  unique_of : V -> V; order_of : V -> V; typat_of : V -> V -> V; numbers_of : V -> V; length_of : V -> V;
  counts_of : V -> V -> V; masses_of : V -> V; masses_of_numbers : V -> V }.
Variable F : funs.
Variable is_traj : bool.

(** The pattern "if not self.is_set_attr(a): ... else: return self.a". *)
Definition unless_set (a : string) (p : getter V) : getter V :=
  Look a (fun o => match o with Some v => Return (Some v) | None => p end).
(** "return f(self.a) if self.check_set_attr(a) else None" *)
Definition from1 (a : string) (f : V -> V) : getter V := Ask a (fun o => Return (option_map f o)).
Definition from2 (a b : string) (f : V -> V -> V) : getter V :=
  ask_all [a; b] (fun o => Return (match o with Some [x; y] => Some (f x y) | _ => None end)).
Definition itself (a : string) : getter V := Look a Return.
Definition traj_only (p : getter V) : getter V := if is_traj then p else Raise.

Definition get_natoms : getter V := (* 2570-2582 *)
  Look "symbols" (fun s => match s with Some s => Return (Some (len_symbols F s)) | None =>
  Look "coords" (fun x => match x with Some x => Return (Some (natoms_of F x)) | None =>
  Look "coords_frac" (fun x => Return (option_map (natoms_of F) x)) end) end).
Definition get_nstep : getter V := traj_only (* 2722-2730 *)
  (Look "coords" (fun x => match x with Some x => Return (Some (nstep_of F x)) | None =>
   Look "coords_frac" (fun x => Return (option_map (nstep_of F) x)) end)).
(** "if self.is_set_attr(other) and self.check_set_attr('cell')" or, for a
    trajectory, "and self.check_set_attr_lst(['cell', 'natoms'])": 2584-2636. *)
Definition get_transformed (a other : string) (f : V -> V -> V) : getter V :=
  unless_set a (Look other (fun x =>
    match x with
    | None => Return None
    | Some _ =>
      ask_all (if is_traj then ["cell"; "natoms"] else ["cell"]) (fun o =>
        match o with
        | Some (cell :: _) => Look other (fun x => Return (option_map (fun x => f x cell) x))
        | _ => Return None
        end)
    end)).
Definition get_by_other (a other : string) (f : V -> V) : getter V := (* 2650-2676 *)
  unless_set a (Look other (fun x => Return (option_map f x))).

Definition getter_of (a : string) : getter V :=
  if a =? "cell" then get_by_other "cell" "cryst_const" (cc2cell F) else
  if a =? "cryst_const" then get_by_other "cryst_const" "cell" (cell2cc F) else
  if a =? "coords" then get_transformed "coords" "coords_frac" (frac2cart F) else
  if a =? "coords_frac" then get_transformed "coords_frac" "coords" (cart2frac F) else
  if a =? "volume" then unless_set "volume" (from1 "cell" (volume_of F)) else
  if a =? "pressure" then unless_set "pressure" (from1 "stress" (third_trace F)) else
  if a =? "velocity" then traj_only (unless_set "velocity" (from2 "coords" "timestep" (velocity_of F))) else
  if a =? "ekin" then traj_only (unless_set "ekin" (from2 "mass" "velocity" (ekin_of F))) else
  if a =? "temperature" then traj_only (unless_set "temperature" (from2 "ekin" "natoms" (temp_of F))) else
  if a =? "time" then traj_only (from2 "timestep" "nstep" (time_of F)) else
  if a =? "timestep" then traj_only (itself "timestep") else
  if a =? "nstep" then get_nstep else
  if a =? "natoms" then get_natoms else
  if a =? "symbols_unique" then from1 "symbols" (unique_of F) else
  if a =? "order" then from1 "symbols_unique" (order_of F) else
  if a =? "typat" then from2 "symbols" "order" (typat_of F) else
  if a =? "znucl_unique" then from1 "symbols_unique" (numbers_of F) else
  if a =? "znucl" then from1 "symbols" (numbers_of F) else
  if a =? "ntypat" then from1 "symbols_unique" (length_of F) else
  if a =? "nspecies" then from2 "order" "typat" (counts_of F) else
  if a =? "mass" then from1 "symbols" (masses_of F) else
  if a =? "mass_unique" then from1 "znucl_unique" (masses_of_numbers F) else
  itself a. (* symbols, forces, stress, etot: 2732-2745 *)

(** attr_lst, 2338-2408: the input and derived attributes, without those that
    only a trajectory has. *)
Definition input_attr_lst : list string :=
  ["cell"; "coords"; "coords_frac"; "cryst_const"; "ekin"; "etot"; "forces"; "pressure"; "stress"; "symbols";
   "temperature"; "timestep"; "velocity"; "volume"].
Definition derived_attr_lst : list string :=
  ["mass"; "mass_unique"; "natoms"; "nspecies"; "nstep"; "ntypat"; "order"; "symbols_unique"; "typat"; "time"; "znucl";
   "znucl_unique"].
Definition attrs_only_traj : list string := ["nstep"; "timestep"; "time"; "ekin"; "velocity"; "temperature"].
Definition attr_lst : list string :=
  let l := (input_attr_lst ++ derived_attr_lst)%list in
  if is_traj then l else filter (fun a => negb (existsb (String.eqb a) attrs_only_traj)) l.
End Struct.
Arguments attr_lst : clear implicits.
Arguments getter_of {V}.
