(** Specification vocabulary for FlexibleGetters: the value of an attribute
    without any memory. *)
From Coq Require Import List String Arith.
From Verif Require Import Getters.
Import ListNotations.

Section Spec.
Context {V : Type}.
Variable get : string -> getter V.

(** An attribute the user has set has that value; another one has the value its
    getter gives, where every attribute asked for has its own value. *)
Inductive value (init : string -> option V) : string -> option V -> Prop :=
| v_given a v : init a = Some v -> value init a (Some v)
| v_got a o : init a = None -> gives init (get a) o -> value init a o
with gives (init : string -> option V) : getter V -> option V -> Prop :=
| g_return o : gives init (Return o) o
| g_ask a k o o' : value init a o -> gives init (k o) o' -> gives init (Ask a k) o'.

(** The attributes that are needed to get those in l. *)
Inductive asks (init : string -> option V) : getter V -> string -> Prop :=
| a_here a k : asks init (Ask a k) a
| a_later a k o b : value init a o -> asks init (k o) b -> asks init (Ask a k) b.
Inductive needed (init : string -> option V) (l : list string) : string -> Prop :=
| n_listed a : In a l -> needed init l a
| n_asked a b : needed init l a -> init a = None -> asks init (get a) b -> needed init l b.

(** Getters that only ask for attributes of lower rank. *)
Fixpoint below (rank : string -> nat) (r : nat) (p : getter V) : Prop :=
  match p with
  | Return _ | Raise => True
  | Ask a k => rank a < r /\ forall o, below rank r (k o)
  | Look _ k => forall o, below rank r (k o)
  end.
Definition acyclic (rank : string -> nat) : Prop := forall a, below rank (rank a) (get a).
(** A getter that does not raise and does not look at attributes without asking
    for them. *)
Fixpoint plain (p : getter V) : Prop :=
  match p with
  | Return _ => True
  | Ask _ k => forall o, plain (k o)
  | Raise | Look _ _ => False
  end.
End Spec.

(** Number of times a getter was executed. *)
Definition times (a : string) (l : list string) : nat := count_occ string_dec l a.
