(** Model of smooth, /repo/src/pwtools/signal.py:584-840, for one-dimensional data and kernels.
    For more dimensions the code is used with kernels of length 1 along all other axes, which
    treats every line of the data along [axis] in this way.

    fftconvolve(sig, kk, 'valid') is the exact convolution. pad_zeros appends or prepends
    zeros (C44). Dividing by a kernel sum of zero gives no result (numpy: inf, nan). *)
From Coq Require Import Reals List Arith ZArith String.
From Verif Require Import Signal Traj.
Import ListNotations.
Local Open Scope list_scope.
Local Open Scope R_scope.

(** scipy.signal.fftconvolve(sig, kk, 'valid') for len(sig) >= len(kk) *)
Definition convolve_valid (sig kk : list R) : list R :=
  let M := List.length kk in
  map (fun j => rsum (map (fun k => nth (j + M - 1 - k) sig 0 * nth k kk 0) (seq 0 M))) (seq 0 (List.length sig - M + 1)).

(** 788-816; None: unknown edge or IndexError *)
Definition smooth_pads (data : list R) (M : nat) (edge : string) : option (list R * list R) :=
  let N := List.length data in
  if (edge =? "m")%string then
    let npad := Z.of_nat (Nat.min M N) in
    match slice_list (Slice (Some npad) (Some 0%Z) (Some (-1)%Z)) data,
          slice_list (Slice (Some (-2)%Z) (Some (- (npad + 2))%Z) (Some (-1)%Z)) data with
    | Some dleft, Some dright =>
      if negb (List.length dleft =? List.length dright)%nat then None else          (* assert *)
      let K := List.length dleft in
      if (K <? M)%nat then Some (repeat 0 (M - K) ++ dleft, dright ++ repeat 0 (M - K)) else Some (dleft, dright)
    | _, _ => None
    end
  else if (edge =? "c")%string then
    match item_list 0 data, item_list (-1) data with
    | Some first, Some last => Some (repeat first M, repeat last M)
    | _, _ => None
    end
  else None.

(** 786-840 *)
Definition smooth (data kern : list R) (edge : string) (norm : bool) : option (list R) :=
  let N := List.length data in
  let M := List.length kern in
  match smooth_pads data M edge with
  | None => None
  | Some (dleft, dright) =>
    let sig := dleft ++ data ++ dright in
    match (if norm then (if Req_EM_T (rsum kern) 0 then None else Some (map (fun x => x / rsum kern) kern)) else Some kern) with
    | None => None
    | Some kk =>
      let ret := convolve_valid sig kk in
      if negb (List.length ret =? N + M + 1)%nat then None else                     (* assert *)
      let h := Z.of_nat (M / 2) in
      let sl := if Nat.even M then Slice (Some h) (Some (- h - 1)%Z) None else Slice (Some (h + 1)%Z) (Some (- h - 1)%Z) None in
      match slice_list sl ret with
      | None => None
      | Some out => if (List.length out =? N)%nat then Some out else None           (* assert *)
      end
    end
  end.
