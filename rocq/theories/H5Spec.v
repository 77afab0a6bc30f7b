(** What a user expects of HDF5 dict files: a map from names with a leading slash to values. *)
From Coq Require Import List Bool Ascii String.
From Verif Require Import H5.
Import ListNotations.
Local Open Scope list_scope.

(** looking up a key of a dict *)
Fixpoint dget {V} (k : string) (d : list (string * V)) : option V :=
  match d with [] => None | (x, v) :: d' => if String.eqb k x then Some v else dget k d' end.

(** the name of a key in the file: a single slash before every component *)
Definition name (k : string) : string := String "/" (join (comps k)).

Definition prefix (p q : list string) : Prop := exists r, q = p ++ r.

(** two keys cannot be in one file: one is the other, or names a group on the way to it *)
Definition clash (k k' : string) : Prop := prefix (comps k) (comps k') \/ prefix (comps k') (comps k).

(** keys that one file can hold *)
Definition writable (l : list string) : Prop :=
  Forall (fun k => comps k <> []) l /\ ForallOrdPairs (fun k k' => ~ clash k k') l.

Definition not_bytes {other bytes text} (v : value other bytes text) : Prop :=
  match v with Bytes _ => False | _ => True end.

(** [old.update(new)] on dicts *)
Fixpoint update {V} (old new : list (string * V)) : list (string * V) :=
  match new with
  | [] => old
  | (k, v) :: new' =>
      update (if existsb (fun kv => String.eqb k (fst kv)) old
              then map (fun kv => if String.eqb k (fst kv) then (fst kv, v) else kv) old
              else old ++ [(k, v)]) new'
  end.

(** the files [write_h5] makes *)
Inductive made {other bytes text} (enc : text -> bytes) : option (tree other bytes) -> Prop :=
| made_new : made enc None
| made_write m f d : made enc f -> made enc (fst (write_h5 other bytes text enc m f d)).

(** the value that reading gives for a written one: text and arrays come back, bytes come back as text,
    or not at all if they are not utf-8 *)
Definition readback {other bytes text} (dec : bytes -> option text) (v : value other bytes text)
    : option (value other bytes text) :=
  match v with Str s => Some (Str s) | Other x => Some (Other x) | Bytes b => option_map Str (dec b) end.

Definition readable {other bytes text} (dec : bytes -> option text) (d : list (string * value other bytes text)) : Prop :=
  Forall (fun kv => readback dec (snd kv) <> None) d.

(** any number of calls in the default mode, whether they raise or not *)
Fixpoint appends {other bytes text} (enc : text -> bytes) (f : option (tree other bytes))
    (ds : list (list (string * value other bytes text))) : option (tree other bytes) :=
  match ds with [] => f | d :: ds' => appends enc (fst (write_h5 other bytes text enc A f d)) ds' end.
