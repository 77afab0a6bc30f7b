(** Frames of a trajectory. *)
From Coq Require Import List Reals.
From Verif Require Import Vec3 Cells TrajFrames.
Import ListNotations.
(** the i-th item of a series; what has no time axis, or one item only, counts for every frame *)
Definition item {A} (a : tarr A) (i : nat) : option A :=
  match a with Single x => Some x | Series [x] => Some x | Series l => nth_error l i end.
Definition bind {A B} (o : option A) (f : A -> option B) : option B := match o with Some x => f x | None => None end.
(** what is given for the frame i *)
Definition frame_given (g : tgiven) (i : nat) : sgiven :=
  SGiven (bind (t_cell g) (fun a => item a i)) (bind (t_cc g) (fun a => item a i))
    (bind (t_coords g) (fun x => nth_error (frames x) i)) (bind (t_frac g) (fun x => nth_error (frames x) i))
    (bind (t_stress g) (fun l => nth_error l i)).
(** the frame i of all attributes of a trajectory *)
Definition frame_of (t : tattrs) (i : nat) : sattrs :=
  SAttrs (bind (u_cell t) (fun l => nth_error l i)) (bind (u_cc t) (fun l => nth_error l i))
    (bind (u_coords t) (fun x => nth_error (frames x) i)) (bind (u_frac t) (fun x => nth_error (frames x) i))
    (bind (u_volume t) (fun l => nth_error l i)) (bind (u_pressure t) (fun l => nth_error l i)).
(** all arrays given have n frames, apart from cells given once *)
Definition fits {A} (a : tarr A) (n : nat) : Prop := match a with Single _ => True | Series l => length l = 1%nat \/ length l = n end.
Definition all_steps (g : tgiven) (n : nat) : Prop :=
  (forall a, t_cell g = Some a -> fits a n) /\ (forall a, t_cc g = Some a -> fits a n) /\
  (forall x, t_coords g = Some x -> length (frames x) = n) /\ (forall x, t_frac g = Some x -> length (frames x) = n) /\
  (forall l, t_stress g = Some l -> length l = n) /\ (t_coords g <> None \/ t_frac g <> None).
