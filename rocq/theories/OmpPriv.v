(** OpenMP loops whose iterations use scratch arrays: [!$omp parallel private(...)] and
    [!$omp do] (/repo/src/_ext_src/flib.f90 323-331 and 504-513).

    An iteration is a list of assignments, either to the scratch arrays ([Loc]) or of one
    element of the shared result array, computed from the scratch arrays ([Put]). An
    assignment is one machine step: it reads scratch arrays and constant input only. The
    steps of the threads interleave in any order, the assignment of iterations to threads is
    arbitrary, and the scratch arrays start with arbitrary content. *)
From Coq Require Import List Arith Permutation.
Import ListNotations.

Section OmpPriv.
  Context {K S A : Type}.
  Variable eqb : K -> K -> bool.

  Inductive instr := Loc (f : S -> S) | Put (k : K) (g : S -> A).
  Definition set (m : K -> A) (k : K) (a : A) : K -> A := fun k' => if eqb k' k then a else m k'.
  Definition exec (i : instr) (s : S) (m : K -> A) : S * (K -> A) :=
    match i with Loc f => (f s, m) | Put k g => (s, set m k (g s)) end.
  (** One thread on its own. *)
  Fixpoint run (p : list instr) (s : S) (m : K -> A) : S * (K -> A) :=
    match p with [] => (s, m) | i :: p => let (s, m) := exec i s m in run p s m end.

  (** *** private(scratch): each thread has its own scratch arrays *)
  Record pthread := PThread { ptodo : list instr; ploc : S }.
  Record pconfig := PConfig { pmem : K -> A; pthreads : list pthread }.
  Inductive pstep : pconfig -> pconfig -> Prop :=
  | PStep m pre post i rest s s' m' : exec i s m = (s', m') ->
      pstep (PConfig m (pre ++ PThread (i :: rest) s :: post)) (PConfig m' (pre ++ PThread rest s' :: post)).
  Inductive psteps : pconfig -> pconfig -> Prop :=
  | PDone c : psteps c c
  | PMore c c' c'' : pstep c c' -> psteps c' c'' -> psteps c c''.
  Definition pfinished (c : pconfig) : Prop := Forall (fun th => ptodo th = []) (pthreads c).
  (** [assign]: for each thread its iterations, in order, and its initial scratch. *)
  Definition pstart (m : K -> A) (body : nat -> list instr) (assign : list (list nat * S)) : pconfig :=
    PConfig m (map (fun a => PThread (flat_map body (fst a)) (snd a)) assign).
  (** [m'] is a possible content of the result array after the loop over [0 .. n-1]. *)
  Definition private_do (n : nat) (body : nat -> list instr) (m m' : K -> A) : Prop :=
    exists assign c, Permutation (concat (map fst assign)) (seq 0 n) /\
      psteps (pstart m body assign) c /\ pfinished c /\ m' = pmem c.

  (** *** The same loop without the private clause: one scratch for all threads *)
  Record sconfig := SConfig { smem : K -> A; sloc : S; sthreads : list (list instr) }.
  Inductive sstep : sconfig -> sconfig -> Prop :=
  | SStep m s pre post i rest s' m' : exec i s m = (s', m') ->
      sstep (SConfig m s (pre ++ (i :: rest) :: post)) (SConfig m' s' (pre ++ rest :: post)).
  Inductive ssteps : sconfig -> sconfig -> Prop :=
  | SDone c : ssteps c c
  | SMore c c' c'' : sstep c c' -> ssteps c' c'' -> ssteps c c''.
  Definition shared_do (n : nat) (body : nat -> list instr) (m m' : K -> A) : Prop :=
    exists assign s c, Permutation (concat assign) (seq 0 n) /\
      ssteps (SConfig m s (map (flat_map body) assign)) c /\ Forall (fun p => p = []) (sthreads c) /\ m' = smem c.
End OmpPriv.
Arguments instr : clear implicits.
