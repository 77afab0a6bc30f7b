(** Model of [RandomStructure], src/pwtools/random.py lines 15-256, over the real numbers.  The random
    number generator is a stream [u] of numbers in [0,1); a position in the stream is threaded through
    the calls.  [volume_cc] and [cc2cell] are those of Cells, [_flib.distsq_frac] that of Wrap. *)
From Coq Require Import Reals List Bool Arith.
From Verif Require Import Vec3 Cells Wrap.
Import ListNotations.
Local Open Scope R_scope.

(** arguments of [__init__], lines 41-50; [cov_radii] are looked up in the periodic table, line 85 *)
Record settings := Settings {
  cov_radii : list R; vol_scale : R; angle_range : R * R; vol_range_scale : R * R;
  length_range_scale : R * R; close_scale : R; cell_maxtry : nat; atom_maxtry : nat }.

(** default arguments, lines 43-49 *)
Definition defaults (radii : list R) : settings :=
  Settings radii 4 (60, 120) (7/10, 13/10) (7/10, 13/10) 1 100 1000.

Section Run.
Variable s : settings.
Variable u : nat -> R.

Definition natoms : nat := length (cov_radii s).                                        (* 81 *)
Definition dij_min (i j : nat) : R :=                                                   (* 87 *)
  (nth j (cov_radii s) 0 + nth i (cov_radii s) 0) * close_scale s.
Definition vol_mean : R :=                                                              (* 88 *)
  4 / 3 * PI * fold_right Rplus 0 (map (fun r => r ^ 3) (cov_radii s)) * vol_scale s.
Definition length_mean : R := Rpower vol_mean (1 / 3).                                  (* 89 *)
Definition vol_range : R * R :=                                                         (* 90-91 *)
  (vol_mean * fst (vol_range_scale s), vol_mean * snd (vol_range_scale s)).
Definition length_range : R * R :=                                                      (* 92-93 *)
  (length_mean * fst (length_range_scale s), length_mean * snd (length_range_scale s)).

(** a returned value with the position in the stream behind it, [RandomStructureFail], or ValueError *)
Inductive outcome (A : Type) := Done (a : A) (pos : nat) | Fail (pos : nat) | Raise.
Arguments Done {A} a pos. Arguments Fail {A} pos. Arguments Raise {A}.

(** numpy.random.uniform(lo, hi) *)
Definition uniform (r : R * R) (pos : nat) : R := fst r + (snd r - fst r) * u pos.

(** lines 107-111, [_get()]: six numbers *)
Definition get_cc (pos : nat) : cc :=
  CC (uniform length_range pos) (uniform length_range (pos + 1)) (uniform length_range (pos + 2))
     (uniform (angle_range s) (pos + 3)) (uniform (angle_range s) (pos + 4)) (uniform (angle_range s) (pos + 5)).

Definition rleb (x y : R) : bool := if Rle_dec x y then true else false.

(** [volume_cc]: math.sqrt raises for a negative argument *)
Definition volume (k : cc) : option R :=
  let al := alpha k * PI / 180 in let be := beta k * PI / 180 in let ga := gamma k * PI / 180 in
  if Rle_dec 0 (1 + 2 * cos al * cos be * cos ga - cos al ^ 2 - cos be ^ 2 - cos ga ^ 2)
  then Some (volume_cc k) else None.

(** lines 112-122, [get_random_cryst_const]: [while cnt <= cell_maxtry].  [fuel] bounds the number of
    turns and never runs out.  A rejected candidate is followed by a second draw, which is not used. *)
Fixpoint cell_loop (fuel cnt pos : nat) : outcome (cc * nat) :=
  match fuel with
  | O => Raise
  | S fuel' =>
      if (cnt <=? cell_maxtry s)%nat then
        match volume (get_cc pos) with
        | None => Raise
        | Some vol =>
            if negb (rleb (fst vol_range) vol && rleb vol (snd vol_range))
            then cell_loop fuel' (cnt + 1) (pos + 6 + 6)
            else Done (get_cc pos, cnt) (pos + 6)
        end
      else Fail pos
  end.
Definition get_random_cryst_const (pos : nat) : outcome (cc * nat) :=
  cell_loop (S (S (cell_maxtry s))) 1 pos.

(** lines 124-166, [_atoms_too_close]: [np.triu(dist < dij_min, k=1).any()].  The differences of two
    coordinates in [0,1) need at most one turn of every wrapping loop; two turns are allowed. *)
Definition too_close_pair (cell : mat) (coords : list vec) (ij : nat * nat) : bool :=
  match distsq_entry 3 coords cell true (fst ij) (snd ij) with
  | Some (d2, _, _) => if Rlt_dec (sqrt d2) (dij_min (fst ij) (snd ij)) then true else false
  | None => false
  end.
Definition pairs (n : nat) : list (nat * nat) :=
  flat_map (fun i => map (fun j => (i, j)) (seq (i + 1) (n - (i + 1)))) (seq 0 n).
Definition atoms_too_close (cell : mat) (coords : list vec) : bool :=
  existsb (too_close_pair cell coords) (pairs (length coords)).

(** line 169, [_add_random_atom]: np.random.rand(3) *)
Definition rand3 (pos : nat) : vec := Vec (u pos) (u (pos + 1)) (u (pos + 2)).

(** lines 202-209: [while cnt <= atom_maxtry]; the result is the last atom drawn, the counter and the
    position *)
Fixpoint atom_loop (fuel : nat) (cell : mat) (coords : list vec) (last : vec) (cnt pos : nat)
    : outcome (vec * nat) :=
  match fuel with
  | O => Raise
  | S fuel' =>
      if (cnt <=? atom_maxtry s)%nat then
        let a := rand3 pos in
        if atoms_too_close cell (coords ++ [a])
        then atom_loop fuel' cell coords (rand3 (pos + 3)) (cnt + 1) (pos + 3 + 3)
        else Done (a, cnt) (pos + 3)
      else Done (last, cnt) pos
  end.

(** lines 197-214, one turn of [for iatom in range(natoms)] *)
Definition place_atom (cell : mat) (coords : list vec) (pos : nat) : outcome (list vec) :=
  let r := match coords with
           | [] => Done (rand3 pos, 1%nat) (pos + 3)
           | _ => atom_loop (S (S (atom_maxtry s))) cell coords (Vec 0 0 0) 1 pos
           end in
  match r with
  | Done (a, cnt) pos' =>
      if (atom_maxtry s <? cnt)%nat then Fail pos' else Done (coords ++ [a]) pos'
  | Fail pos' => Fail pos'
  | Raise => Raise
  end.

Fixpoint place_atoms (n : nat) (cell : mat) (coords : list vec) (pos : nat) : outcome (list vec) :=
  match n with
  | O => Done coords pos
  | S n' =>
      match place_atom cell coords pos with
      | Done coords' pos' => place_atoms n' cell coords' pos'
      | Fail pos' => Fail pos'
      | Raise => Raise
      end
  end.

(** lines 181-218, [_get_random_struct]: cell and fractional coordinates *)
Definition get_random_struct (pos : nat) : outcome (mat * list vec) :=
  match get_random_cryst_const pos with
  | Done (k, _) pos' =>
      match place_atoms natoms (cc2cell k) [] pos' with
      | Done coords pos'' => Done (cc2cell k, coords) pos''
      | Fail pos'' => Fail pos''
      | Raise => Raise
      end
  | Fail pos' => Fail pos'
  | Raise => Raise
  end.

(** lines 220-237, [get_random_struct(fail=False)]: try again after [RandomStructureFail].  [fuel]
    bounds the number of tries; [None] when it runs out (the code would go on). *)
Fixpoint get_random_struct_nofail (fuel pos : nat) : option (outcome (mat * list vec)) :=
  match fuel with
  | O => None
  | S fuel' =>
      match get_random_struct pos with
      | Fail pos' => get_random_struct_nofail fuel' pos'
      | r => Some r
      end
  end.
End Run.
Arguments Done {A} a pos. Arguments Fail {A} pos. Arguments Raise {A}.
