(** Model of the velocity autocorrelation functions: pyvacf in
    /repo/src/pwtools/pydos.py 22-72, fvacf in the same file 75-170, and the Fortran
    subroutines vacf and vect_loops in /repo/src/_ext_src/flib.f90 155-285.

    An array [vel] of shape (nstep, natoms, 3) is a function of step, atom and component.
    Arithmetic is that of the reals, so the order in which numpy and Fortran add up does
    not matter; dividing by [c[0] = 0] gives no result (numpy: nan). *)
From Coq Require Import Reals List Arith ZArith.
From Verif Require Import Signal Omp.
Import ListNotations.
Local Open Scope R_scope.

Definition velocity := nat -> nat -> nat -> R.

(** A loop [for x in l: c += f(x)]. *)
Definition acc {X} (f : X -> R) (l : list X) (c0 : R) : R := fold_left (fun c x => c + f x) l c0.

(** [.sum()] of an array of shape (natoms, 3), and of one of shape (n, natoms, 3). *)
Definition sum2 (natoms : nat) (a : nat -> nat -> R) : R :=
  rsum (map (fun i => rsum (map (fun k => a i k) (seq 0 3))) (seq 0 natoms)).
Definition sum3 (n natoms : nat) (a : nat -> nat -> nat -> R) : R :=
  rsum (map (fun j => sum2 natoms (a j)) (seq 0 n)).

(** np.dot(vel[j,i,:], vel[j+t,i,:]). *)
Definition dot3 (a b : nat -> R) : R := rsum (map (fun k => a k * b k) (seq 0 3)).

(** pydos.py 70-71: [c = c / c[0]]. *)
Definition over_first (nstep : nat) (c : nat -> R) : option (list R) :=
  if Req_EM_T (c 0%nat) 0 then None else Some (map (fun t => c t / c 0%nat) (seq 0 nstep)).

(** pydos.py 43-72. [None] stands for the ValueError and for division by zero. *)
Definition pyvacf (vel : velocity) (nstep natoms : nat) (m : option (nat -> R)) (method : Z) : option (list R) :=
  let m := match m with Some m => m | None => fun _ => 1 end in
  if (method =? 1)%Z then
    over_first nstep (fun t =>
      acc (fun ji => dot3 (vel (fst ji) (snd ji)) (vel (fst ji + t)%nat (snd ji)) * m (snd ji))
          (list_prod (seq 0 (nstep - t)) (seq 0 natoms)) 0)
  else if (method =? 2)%Z then
    over_first nstep (fun t =>
      acc (fun j => sum2 natoms (fun i k => vel j i k * vel (j + t)%nat i k * m i)) (seq 0 (nstep - t)) 0)
  else if (method =? 3)%Z then
    over_first nstep (fun t => sum3 (nstep - t) natoms (fun j i k => vel j i k * vel (t + j)%nat i k * m i))
  else None.

(** flib.f90 196-207 and 212-223: what iteration [t] of the parallel loop of method 1 does. *)
Definition loop1 (v : velocity) (nstep natoms : nat) (m : nat -> R) (use_m : bool) (t : nat) : list (op R) :=
  map (fun ji => let (j, i) := (ji : nat * nat) in
        let d := v (j + t)%nat i 0%nat * v j i 0%nat + v (j + t)%nat i 1%nat * v j i 1%nat + v (j + t)%nat i 2%nat * v j i 2%nat in
        (t, fun c => c + (if use_m then d * m i else d)))
      (list_prod (seq 0 (nstep - t)) (seq 0 natoms)).

(** flib.f90 253-258: iteration [j] fills the slices [vv(j,:,k)], k = 0, 1, 2; the cell [j]
    of the shared array is the block [vv(j,:,:)]. *)
Definition scale_loop (v : velocity) (m : nat -> R) (j : nat) : list (op (nat -> nat -> R)) :=
  map (fun k => (j, fun (b : nat -> nat -> R) i k' => if k' =? k then sqrt (m i) * v j i k else b i k')) (seq 0 3).

(** vect_loops, flib.f90 280-285: one assignment per iteration. *)
Definition vect_loop (v : velocity) (nstep natoms : nat) (t : nat) : list (op R) :=
  [(t, fun _ => sum3 (nstep - t) natoms (fun j i k => v j i k * v (t + j)%nat i k))].

(** Subroutine vacf. [res] is a possible result; [vv0] is the content of the local array
    [vv] on entry, which is arbitrary. An illegal method leaves [c] as it is. *)
Definition flib_vacf (v : velocity) (m : nat -> R) (c : nat -> R) (method : Z) (use_m : bool)
    (nstep natoms : nat) (res : option (list R)) : Prop :=
  if (method =? 1)%Z then
    exists c', parallel_do nstep (loop1 v nstep natoms m use_m) c c' /\ res = over_first nstep c'
  else if (method =? 2)%Z then
    if use_m then
      exists vv0 vv c', parallel_do nstep (scale_loop v m) vv0 vv /\
        parallel_do nstep (vect_loop vv nstep natoms) c c' /\ res = over_first nstep c'
    else exists c', parallel_do nstep (vect_loop v nstep natoms) c c' /\ res = over_first nstep c'
  else res = Some (map c (seq 0 nstep)).

(** fvacf, pydos.py 137-170. Without masses an uninitialised array [dummy] is passed. The
    number of threads does not appear: [parallel_do] allows any number. *)
Definition fvacf (vel : velocity) (nstep natoms : nat) (m : option (nat -> R)) (method : Z) (res : option (list R)) : Prop :=
  match m with
  | Some m => flib_vacf vel m (fun _ => 0) method true nstep natoms res
  | None => exists dummy, flib_vacf vel dummy (fun _ => 0) method false nstep natoms res
  end.
