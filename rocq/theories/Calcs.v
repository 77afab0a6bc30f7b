(** Model of the template lists of Calculation objects (src/pwtools/batch.py:256-329)
    as objects on a heap: lists are shared by reference, and the default argument
    templates=[] (line 282) is one list object for all calls. *)
From Coq Require Import List Arith.
Import ListNotations.

Section Calcs.
Variable T : Type.                       (* FileTemplate objects *)

(** Addresses of list objects; object 0 is the default argument. *)
Definition heap := list (list T).
Definition heap0 : heap := [[]].
Definition deref (h : heap) (a : nat) : list T := nth a h [].
Fixpoint append_at (h : heap) (a : nat) (x : T) : heap :=
  match h, a with
  | [], _ => []
  | l :: r, O => (l ++ [x]) :: r
  | l :: r, S a' => l :: append_at r a' x
  end.

(** How Calculation(...) is called: without templates, with a list object the
    caller holds (by address), or with a fresh list such as templates[:]
    (batch.py:570-571). [mach] is the template of the machine, if any. *)
Inductive arg := ADefault | AShared (a : nat) | AFresh (l : list T).
Record ctor := Ctor { k_arg : arg; k_mach : option T }.

(** Calculation.__init__, lines 303-316: self.templates is the given object; the
    template of the machine is appended to it in place. *)
Definition init (h : heap) (k : ctor) : heap * nat :=
  let '(h1, a) := match k_arg k with
                  | ADefault => (h, 0)
                  | AShared a => (h, a)
                  | AFresh l => (h ++ [l], length h)
                  end in
  (match k_mach k with Some t => append_at h1 a t | None => h1 end, a).

(** A program constructing calculations one after the other; the addresses of
    their template lists are returned in order. *)
Fixpoint inits (h : heap) (ks : list ctor) : heap * list nat :=
  match ks with
  | [] => (h, [])
  | k :: r => let '(h1, a) := init h k in
              let '(h2, l) := inits h1 r in (h2, a :: l)
  end.
End Calcs.
Arguments ADefault {T}. Arguments AShared {T} a. Arguments AFresh {T} l.
Arguments Ctor {T}. Arguments k_arg {T}. Arguments k_mach {T}.
Arguments heap0 {T}. Arguments deref {T}. Arguments append_at {T}. Arguments init {T}. Arguments inits {T}.

Definition opt_list {T} (o : option T) : list T := match o with Some x => [x] | None => [] end.
