(** Model of smooth, /repo/src/pwtools/crys.py 3145-3227, and of signal.smooth (signal.py
    802-840) for data of more than one dimension with a kernel of shape (M,1) or (M,1,1).

    Real arithmetic, timeaxis 0. An array is the list of its frames, a frame the list of its
    numbers in memory order: the axes of an array of shape (nstep,natoms,3) other than the
    first are treated as one, as the kernel has length one along both; numbers per time step
    are frames of length one. *)
From Coq Require Import Reals List Arith ZArith String Bool.
From Verif Require Import StructGetters Traj Signal Smooth TrajStat.
Import ListNotations.
Local Open Scope list_scope.
Local Open Scope R_scope.
Local Notation length := List.length.

Definition ncol (data : list frame) : nat := length (hd [] data).
Definition column (c : nat) (data : list frame) : list R := map (fun f => nth c f 0) data.

(** fftconvolve(sig, kk, 'valid') in two dimensions for a kernel with rows of length one *)
Definition convolve2_valid (sig kk : list frame) : list frame :=
  let M := length kk in
  map (fun i => map (fun c => rsum (map (fun k => rsum (map (fun l => nth (c + 1 - 1 - l) (nth (i + M - 1 - k) sig []) 0 * nth l (nth k kk []) 0) (seq 0 1))) (seq 0 M)))
    (seq 0 (ncol sig - 1 + 1))) (seq 0 (length sig - M + 1)).
(** signal.py 802-827 *)
Definition smooth2_pads (data : list frame) (M : nat) (edge : string) : option (list frame * list frame) :=
  let N := length data in
  if (edge =? "m")%string then
    let npad := Z.of_nat (Nat.min M N) in
    match slice_list (Slice (Some npad) (Some 0%Z) (Some (-1)%Z)) data,
          slice_list (Slice (Some (-2)%Z) (Some (- (npad + 2))%Z) (Some (-1)%Z)) data with
    | Some dleft, Some dright =>
      if negb (length dleft =? length dright)%nat then None else
      let K := length dleft in
      let zero := repeat 0 (ncol data) in
      if (K <? M)%nat then Some (repeat zero (M - K) ++ dleft, dright ++ repeat zero (M - K)) else Some (dleft, dright)
    | _, _ => None
    end
  else if (edge =? "c")%string then
    match item_list 0 data, item_list (-1) data with
    | Some first, Some last => Some (repeat first M, repeat last M)
    | _, _ => None
    end
  else None.
(** signal.py 828-840. scipy returns an empty array if there are no columns, and the assertion
    about its shape fails. *)
Definition smooth2 (data kern : list frame) (edge : string) (norm : bool) : option (list frame) :=
  let N := length data in
  let M := length kern in
  match smooth2_pads data M edge with
  | None => None
  | Some (dleft, dright) =>
    let sig := dleft ++ data ++ dright in
    let sum := rsum (List.concat kern) in
    match (if norm then (if Req_EM_T sum 0 then None else Some (map (map (fun x => x / sum)) kern)) else Some kern) with
    | None => None
    | Some kk =>
      if (ncol sig =? 0)%nat then None else
      let ret := convolve2_valid sig kk in
      if negb (length ret =? N + M + 1)%nat then None else
      let h := Z.of_nat (M / 2) in
      let sl := if Nat.even M then Slice (Some h) (Some (- h - 1)%Z) None else Slice (Some (h + 1)%Z) (Some (- h - 1)%Z) None in
      match slice_list sl ret with
      | None => None
      | Some out => if (length out =? N)%nat then Some out else None
      end
    end
  end.

(** crys.py 3190-3206, method 1: column by column into np.empty_like(attr) *)
Fixpoint sequence {A} (l : list (option A)) : option (list A) :=
  match l with [] => Some [] | None :: _ => None | Some a :: l => match sequence l with Some r => Some (a :: r) | None => None end end.
Definition smooth_columns (data : list frame) (kern : list R) : option (list frame) :=
  match sequence (map (fun c => smooth (column c data) kern "m" true) (seq 0 (ncol data))) with
  | None => None
  | Some cols => Some (map (fun i => map (fun col => nth i col 0) cols) (seq 0 (length data)))
  end.
(** The same for an array of integers of two or three dimensions: np.empty_like(attr) has
    integer elements, to which the smoothed values are cast. *)
Definition smooth_columns_int (data : list (list Z)) (kern : list R) : option (list (list Z)) :=
  option_map (map (map trunc)) (smooth_columns (map (map IZR) data) kern).
(** 3208-3216, method 2: kern[:,None] *)
Definition smooth_broadcast (data : list frame) (kern : list R) : option (list frame) := smooth2 data (map (fun x => [x]) kern) "m" true.

Section Traj.
Variable X : Type.
Notation obj := (Traj.obj frame X R).
(** One round of the loop 3187-3219. *)
Definition smooth_step (kern : list R) (method : Z) (self : obj) (o : option obj) (name : string) : option obj :=
  match o with
  | None => None
  | Some o => match self name with
              | None => Some o
              | Some (Arr l) =>
                match (if (method =? 1)%Z then smooth_columns l kern else if (method =? 2)%Z then smooth_broadcast l kern else None) with
                | Some r => Some (setattr o name (Some (Arr r)))
                | None => None
                end
              | Some _ => None
              end
  end.
(** 3222-3227, over a python set in the order [copied]; None is copied as well. *)
Definition not_nstep (name : string) : bool := Traj.mem name (attr_lst true) && negb (Traj.mem name attrs_nstep).
Definition smooth_traj (copied : list string) (self : obj) (kern : list R) (method : Z) : option obj :=
  option_map (fun o => fold_left (fun o name => setattr o name (self name)) copied o)
    (fold_left (smooth_step kern method self) attrs_nstep (Some (Traj.none))).
End Traj.
