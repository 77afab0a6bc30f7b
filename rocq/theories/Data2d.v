(** Data2D, /repo/src/pwtools/mpl.py 316-505, and num.meshgridt (num.py 1772-1787). A 2d array is the
    list of its rows, XY a list of pairs; numbers of x and y (not nan) are compared exactly. None is an
    exception. Other attributes and unknown keys (an assertion) are not modelled. *)
From Coq Require Import List Bool Arith.
Import ListNotations.

Section D.
Variables (A B : Type) (eqb : A -> A -> bool).
Record data := Data { d_x : option (list A); d_y : option (list A); d_xx : option (list A); d_yy : option (list A); d_zz : option (list B);
  d_X : option (list (list A)); d_Y : option (list (list A)); d_Z : option (list (list B)); d_XY : option (list (A * A)) }.
(** num.meshgridt: indexing "ij" *)
Definition meshgridt (x y : list A) : list (list A) * list (list A) := (map (fun a => repeat a (length y)) x, repeat y (length x)).
(** _unique 440-451: first occurrences, in order *)
Fixpoint uniq (l : list A) : list A := match l with [] => [] | a :: r => a :: filter (fun b => negb (eqb a b)) (uniq r) end.
(** np.array([xx, yy]).T *)
Definition pair_up (xx yy : list A) : option (list (A * A)) := if length xx =? length yy then Some (combine xx yy) else None.
(** zz.reshape(nx, ny) *)
Definition reshape (zz : list B) (nx ny : nat) : option (list (list B)) :=
  if length zz =? nx * ny then Some (map (fun i => firstn ny (skipn (i * ny) zz)) (seq 0 nx)) else None.
(** X[:,0] and Y[0,:] *)
Fixpoint first_col (X : list (list A)) : option (list A) :=
  match X with [] => Some [] | r :: X' => match r, first_col X' with a :: _, Some c => Some (a :: c) | _, _ => None end end.
(** _update 453-486; the first lines *)
Definition update_xy (d : data) : option (list A * list A * list A * list A * list (list A) * list (list A) * list (A * A)) :=
  match d_x d, d_y d with
  | Some x, Some y =>
      let '(X, Y) := meshgridt x y in let xx := concat X in let yy := concat Y in
      option_map (fun XY => (x, y, xx, yy, X, Y, XY)) (pair_up xx yy)
  | _, _ => match d_X d, d_Y d with
  | Some X, Some Y =>
      match first_col X, Y with
      | Some x, y :: _ => let xx := concat X in let yy := concat Y in option_map (fun XY => (x, y, xx, yy, X, Y, XY)) (pair_up xx yy)
      | _, _ => None
      end
  | _, _ => match d_xx d, d_yy d with
  | Some xx, Some yy =>
      let x := uniq xx in let y := uniq yy in let '(X, Y) := meshgridt x y in
      option_map (fun XY => (x, y, xx, yy, X, Y, XY)) (pair_up xx yy)
  | _, _ => match d_XY d with
  | Some XY =>
      let xx := map fst XY in let yy := map snd XY in let x := uniq xx in let y := uniq yy in let '(X, Y) := meshgridt x y in
      Some (x, y, xx, yy, X, Y, XY)
  | None => None
  end end end end.
(** 476-486: z *)
Definition refresh (d : data) : option data :=
  match update_xy d with
  | None => None
  | Some (x, y, xx, yy, X, Y, XY) =>
      let mk zz Z := Data (Some x) (Some y) (Some xx) (Some yy) zz (Some X) (Some Y) Z (Some XY) in
      match d_Z d with
      | Some Z => Some (mk (Some (concat Z)) (Some Z))
      | None => match d_zz d with
                | Some zz => option_map (fun Z => mk (Some zz) (Some Z)) (reshape zz (length x) (length y))
                | None => Some (mk None None)
                end
      end
  end.
(** __init__ 335-438 *)
Definition data2d (d : data) : option data := refresh d.
(** update 488-494: keywords in order *)
Inductive kw := Kx (v : option (list A)) | Ky (v : option (list A)) | Kxx (v : option (list A)) | Kyy (v : option (list A)) | Kzz (v : option (list B))
  | KX (v : option (list (list A))) | KY (v : option (list (list A))) | KZ (v : option (list (list B))) | KXY (v : option (list (A * A))).
Definition set_kw (d : data) (k : kw) : data :=
  let '(Data x y xx yy zz X Y Z XY) := d in
  match k with
  | Kx v => Data v y xx yy zz X Y Z XY | Ky v => Data x v xx yy zz X Y Z XY | Kxx v => Data x y v yy zz X Y Z XY | Kyy v => Data x y xx v zz X Y Z XY
  | Kzz v => Data x y xx yy v X Y Z XY | KX v => Data x y xx yy zz v Y Z XY | KY v => Data x y xx yy zz X v Z XY | KZ v => Data x y xx yy zz X Y v XY | KXY v => Data x y xx yy zz X Y Z v
  end.
Definition update (d : data) (ks : list kw) : option data := refresh (fold_left set_kw ks d).
(** copy 496-505 *)
Definition copy (d : data) : option data := data2d d.
End D.
Arguments Data {A B}.
