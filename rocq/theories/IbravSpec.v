(** The fourteen Bravais lattices. A lattice is the set of all integer combinations of
    three vectors; a centred lattice is described by its conventional vectors A, B, C
    and the halves of them that are also lattice points. *)
From Coq Require Import Reals ZArith.
From Verif Require Import Vec3 Ibrav.
Open Scope R_scope.
Definition comb (x y z : R) (m : mat) : vec := vadd (vadd (scale x (ra m)) (scale y (rb m))) (scale z (rc m)).
(** v is a point of the lattice spanned by the rows of m. *)
Definition lattice (m : mat) (v : vec) : Prop := exists i j k : Z, v = comb (IZR i) (IZR j) (IZR k) m.
Inductive centring := Simple | Face | Body | BaseAB | BaseAC.
(** Which points i A/2 + j B/2 + k C/2 belong to the lattice. Face: the centres of all
    faces. Body: the centre of the cell. BaseAB (BaseAC): the centre of the face
    spanned by A and B (A and C). *)
Definition even (n : Z) : Prop := exists k, n = (2 * k)%Z.
Definition belongs (c : centring) (i j k : Z) : Prop :=
  match c with
  | Simple => even i /\ even j /\ even k
  | Face => (even i /\ even j /\ even k) \/ (even i /\ ~ even j /\ ~ even k) \/
            (~ even i /\ even j /\ ~ even k) \/ (~ even i /\ ~ even j /\ even k)
  | Body => (even i /\ even j /\ even k) \/ (~ even i /\ ~ even j /\ ~ even k)
  | BaseAB => even k /\ ((even i /\ even j) \/ (~ even i /\ ~ even j))
  | BaseAC => even j /\ ((even i /\ even k) \/ (~ even i /\ ~ even k))
  end.
Definition centred (c : centring) (conv : mat) (v : vec) : Prop :=
  exists i j k : Z, belongs c i j k /\ v = comb (IZR i / 2) (IZR j / 2) (IZR k / 2) conv.
(** Lattice points per conventional cell. *)
Definition points (c : centring) : R := match c with Simple => 1 | Face => 4 | Body => 2 | _ => 2 end.
(** The conventional vectors have lengths a, b, c and the angles between them have
    these cosines (alpha between B and C, beta between A and C, gamma between A and B);
    A points along x, B lies in the xy plane above the x axis. *)
Record shape := Shape { la : R; lb : R; lc : R; cosA : R; cosB : R; cosG : R }.
Definition has_shape (s : shape) (m : mat) : Prop :=
  norm (ra m) = la s /\ norm (rb m) = lb s /\ norm (rc m) = lc s /\
  dot (rb m) (rc m) = lb s * lc s * cosA s /\ dot (ra m) (rc m) = la s * lc s * cosB s /\
  dot (ra m) (rb m) = la s * lb s * cosG s.
Definition shape_volume (s : shape) : R :=
  la s * lb s * lc s * sqrt (1 + 2 * cosA s * cosB s * cosG s - Rsqr (cosA s) - Rsqr (cosB s) - Rsqr (cosG s)).
(** [cell] is a right-handed primitive cell of the lattice with the given centring and
    conventional shape. *)
Definition primitive_cell (c : centring) (s : shape) (cell : mat) : Prop :=
  exists conv, has_shape s conv /\ (forall v, lattice cell v <-> centred c conv v) /\
               det cell = shape_volume s / points c.
(** The lattice PWscf calls ibrav, as conventional shape: cubic, hexagonal (120
    degrees), trigonal (three equal angles), tetragonal, orthorhombic, monoclinic
    (unique axis c), triclinic. *)
Definition named (ibrav : Z) (a b c ca cb cg : R) : option (centring * shape) :=
  match ibrav with
  | 1%Z => Some (Simple, Shape a a a 0 0 0)
  | 2%Z => Some (Face, Shape a a a 0 0 0)
  | 3%Z => Some (Body, Shape a a a 0 0 0)
  | 4%Z => Some (Simple, Shape a a c 0 0 (-1/2))
  | 5%Z => Some (Simple, Shape a a a ca ca ca)
  | 6%Z => Some (Simple, Shape a a c 0 0 0)
  | 7%Z => Some (Body, Shape a a c 0 0 0)
  | 8%Z => Some (Simple, Shape a b c 0 0 0)
  | 9%Z => Some (BaseAB, Shape a b c 0 0 0)
  | 10%Z => Some (Face, Shape a b c 0 0 0)
  | 11%Z => Some (Body, Shape a b c 0 0 0)
  | 12%Z => Some (Simple, Shape a b c 0 0 cg)
  | 13%Z => Some (BaseAC, Shape a b c 0 0 cg)
  | 14%Z => Some (Simple, Shape a b c ca cb cg)
  | _ => None
  end.
(** The conventional shape exists as three independent vectors. *)
Definition proper (s : shape) : Prop :=
  0 < la s /\ 0 < lb s /\ 0 < lc s /\ -1 < cosA s < 1 /\ -1 < cosB s < 1 /\ -1 < cosG s < 1 /\
  0 < 1 + 2 * cosA s * cosB s * cosG s - Rsqr (cosA s) - Rsqr (cosB s) - Rsqr (cosG s).
(** celldm entries (beyond the first) that ibrav needs: b/a, c/a, cos alpha, beta, gamma. *)
Definition needs (ibrav : Z) : bool * bool * bool * bool * bool :=
  match ibrav with
  | 4%Z | 6%Z | 7%Z => (false, true, false, false, false)
  | 5%Z => (false, false, true, false, false)
  | 8%Z | 9%Z | 10%Z | 11%Z => (true, true, false, false, false)
  | 12%Z | 13%Z => (true, true, false, false, true)
  | 14%Z => (true, true, true, true, true)
  | _ => (false, false, false, false, false)
  end.
(** The entries of celldm that ibrav needs are given, for the lengths a, b, c; other
    entries are arbitrary, except that cos gamma, when given, is a cosine. *)
Definition given (n : bool) (o : option R) (x : R) : Prop := if n then o = Some x else True.
Definition supplied (ibrav : Z) (d : dm) (a b c ca cb cg : R) : Prop :=
  let '(nb, nc, na, nbeta, ng) := needs ibrav in
  aa_ d = Some a /\ given nb (bb_aa_ d) (b / a) /\ given nc (cc_aa_ d) (c / a) /\
  given na (cos_alpha_ d) ca /\ given nbeta (cos_beta_ d) cb /\ given ng (cos_gamma_ d) cg /\
  (forall g, cos_gamma_ d = Some g -> -1 <= g <= 1).
Definition is_given (n : bool) (o : option R) : Prop := n = true -> o <> None.
Definition agrees (n : bool) (o o' : option R) : Prop := n = true -> o = o'.
