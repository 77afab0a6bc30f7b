(** Model of FlexibleGetters, /repo/src/pwtools/base.py:11-330. *)
From Coq Require Import List String Arith.
Import ListNotations.

Section Getters.
Variable V : Type.

(** A getter, reduced to what it does with attributes of self: ask for one with
    try_set_attr or check_set_attr and look at it (base.py:215-262), look at one
    with is_set_attr or getattr (190-206), raise, or return a value or None.
    What is computed in between is the continuation. *)
Inductive getter : Type :=
| Return (v : option V)
| Raise
| Ask (a : string) (k : option V -> getter)
| Look (a : string) (k : option V -> getter).

(** check_set_attr_lst, base.py:264-267: asks for all, then tests all. *)
Fixpoint ask_all (l : list string) (k : option (list V) -> getter) : getter :=
  match l with
  | [] => k (Some [])
  | a :: l => Ask a (fun o => ask_all l (fun r => k (match o, r with Some v, Some vs => Some (v :: vs) | _, _ => None end)))
  end.

(** The attributes of an object, None if not set, and the getters executed so
    far, latest first. *)
Record obj := Obj { attrs : string -> option V; log : list string }.
Definition set (a : string) (o : option V) (s : string -> option V) : string -> option V :=
  fun b => if String.eqb a b then o else s b.

Inductive res (A : Type) := Done (x : A) (s : obj) | Raised (s : obj) | NoFuel.
Arguments Done {A}. Arguments Raised {A}. Arguments NoFuel {A}.

Variable get : string -> getter.

(** Runs a getter; [try] is try_set_attr for the attributes it asks for. *)
Fixpoint run (try : string -> obj -> res unit) (p : getter) (s : obj) : res (option V) :=
  match p with
  | Return v => Done v s
  | Raise => Raised s
  | Ask a k => match try a s with
               | Done _ s' => run try (k (attrs s' a)) s'
               | Raised s' => Raised s'
               | NoFuel => NoFuel
               end
  | Look a k => run try (k (attrs s a)) s
  end.

(** try_set_attr, base.py:215-231; [fuel] bounds the depth of the recursion. *)
Fixpoint try_set (fuel : nat) (a : string) (s : obj) : res unit :=
  match attrs s a with
  | Some _ => Done tt s
  | None =>
    match fuel with
    | 0 => NoFuel
    | S fuel =>
      match run (try_set fuel) (get a) (Obj (attrs s) (a :: log s)) with
      | Done v s' => Done tt (Obj (set a v (attrs s')) (log s'))
      | Raised s' => Raised s'
      | NoFuel => NoFuel
      end
    end
  end.

(** set_all, base.py:139-143. *)
Fixpoint set_all (fuel : nat) (l : list string) (s : obj) : res unit :=
  match l with
  | [] => Done tt s
  | a :: l => match try_set fuel a s with
              | Done _ s' => set_all fuel l s'
              | r => r
              end
  end.
End Getters.
Arguments Return {V}. Arguments Raise {V}. Arguments Ask {V}. Arguments Look {V}.
Arguments Done {V A}. Arguments Raised {V A}. Arguments NoFuel {V A}.
Arguments Obj {V}. Arguments attrs {V}. Arguments log {V}. Arguments set {V}.
Arguments ask_all {V}. Arguments run {V}. Arguments try_set {V}. Arguments set_all {V}.
