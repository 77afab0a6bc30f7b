(** Model of an OpenMP parallel loop as flib.f90 uses it: [!$omp parallel / !$omp do] over
    an index [t], whose body is a sequence of updates [c(t) = f(c(t))] of cells of a
    shared array (/repo/src/_ext_src/flib.f90 196-207, 212-223, 253-258, 281-285).

    Every update is two machine steps, reading the cell into a register and writing the
    result back. The steps of the threads interleave in any order. The assignment of
    iterations to threads is arbitrary (static, dynamic, guided, any number of threads).
    The loop variables of the inner loops are private, as OpenMP prescribes for Fortran. *)
From Coq Require Import List Arith Permutation.
Import ListNotations.

Section Omp.
  Context {A : Type}.
  Definition op := (nat * (A -> A))%type.
  Record thread := Thread { todo : list op; reg : option A }.
  Record config := Config { mem : nat -> A; threads : list thread }.

  Definition write (m : nat -> A) (t : nat) (a : A) : nat -> A := fun i => if i =? t then a else m i.

  Inductive step : config -> config -> Prop :=
  | Read m pre post t f rest :
      step (Config m (pre ++ Thread ((t, f) :: rest) None :: post))
           (Config m (pre ++ Thread ((t, f) :: rest) (Some (m t)) :: post))
  | Write m pre post t f rest a :
      step (Config m (pre ++ Thread ((t, f) :: rest) (Some a) :: post))
           (Config (write m t (f a)) (pre ++ Thread rest None :: post)).

  Inductive steps : nat -> config -> config -> Prop :=
  | Done c : steps 0 c c
  | More n c c' c'' : step c c' -> steps n c' c'' -> steps (S n) c c''.

  Definition finished (c : config) : Prop := Forall (fun th => todo th = []) (threads c).

  (** [body t] is what iteration [t] does; [assign] lists the iterations of each thread. *)
  Definition start (m : nat -> A) (body : nat -> list op) (assign : list (list nat)) : config :=
    Config m (map (fun its => Thread (flat_map body its) None) assign).

  (** The memory [m'] is a possible result of the loop over [0 .. n-1]. *)
  Definition parallel_do (n : nat) (body : nat -> list op) (m m' : nat -> A) : Prop :=
    exists assign k c, Permutation (concat assign) (seq 0 n) /\
      steps k (start m body assign) c /\ finished c /\ m' = mem c.

  (** The loop without threads. *)
  Definition run1 (m : nat -> A) (o : op) : nat -> A := write m (fst o) (snd o (m (fst o))).
  Definition sequential_do (n : nat) (body : nat -> list op) (m : nat -> A) : nat -> A :=
    fold_left run1 (flat_map body (seq 0 n)) m.
End Omp.
Arguments op : clear implicits.
Arguments thread : clear implicits.
Arguments config : clear implicits.
