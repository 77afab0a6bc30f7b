(** Model of [write_h5] and [read_h5], src/pwtools/io.py lines 251-311.  h5py and HDF5 are modelled from
    their documentation: a file is a tree of groups and datasets; [fh[key] = val] creates the groups on
    the way and raises if the name exists or the way leads through a dataset; [visititems] visits every
    object once, with its path relative to the root without a leading slash.  The order of the visit is
    not modelled (the result is a dict).  An array or number is stored as it is; text is stored as utf-8
    bytes.  A '.' in a key, attributes, links and open file handles are not modelled. *)
From Coq Require Import List Bool Ascii String.
Import ListNotations.
Local Open Scope list_scope.

Section H5.
(** arrays and numbers; the utf-8 codec, [dec] is [None] for bytes that are not utf-8 *)
Variable other bytes text : Type.
Variable enc : text -> bytes.
Variable dec : bytes -> option text.

(** a value of the caller's dict, and one in the file *)
Inductive value := Str (s : text) | Bytes (b : bytes) | Other (v : other).
Inductive stored := SBytes (b : bytes) | SOther (v : other).

(** h5py: str and bytes both become HDF5 strings *)
Definition store (v : value) : stored :=
  match v with Str s => SBytes (enc s) | Bytes b => SBytes b | Other x => SOther x end.

(** lines 306-307: [val = obj[()]], [obj.asstr()[()] if isinstance(val, bytes) else val] *)
Definition load (v : stored) : option value :=
  match v with SBytes b => option_map Str (dec b) | SOther x => Some (Other x) end.

Inductive node := Dset (v : stored) | Group (c : list (string * node)).
Definition tree := list (string * node).

Definition slash : ascii := "/"%char.

(** HDF5 path names: components between slashes, empty ones ignored *)
Definition cons_comp (w : string) (l : list string) : list string :=
  match w with EmptyString => l | _ => w :: l end.
Fixpoint comps_from (w : string) (s : string) : list string :=
  match s with
  | EmptyString => cons_comp w []
  | String c s' =>
      if Ascii.eqb c slash then cons_comp w (comps_from EmptyString s')
      else comps_from (w ++ String c EmptyString)%string s'
  end.
Definition comps (s : string) : list string := comps_from EmptyString s.

Fixpoint child (n : string) (t : tree) : option node :=
  match t with [] => None | (m, x) :: t' => if String.eqb n m then Some x else child n t' end.
Fixpoint replace (n : string) (x : node) (t : tree) : tree :=
  match t with
  | [] => []
  | (m, y) :: t' => if String.eqb n m then (m, x) :: t' else (m, y) :: replace n x t'
  end.

(** line 281, [fh[key] = val] *)
Fixpoint setitem (p : list string) (v : stored) (t : tree) : option tree :=
  match p with
  | [] => None
  | n :: p' =>
      match p' with
      | [] => match child n t with None => Some (t ++ [(n, Dset v)]) | Some _ => None end
      | _ => match child n t with
             | None => option_map (fun c => t ++ [(n, Group c)]) (setitem p' v [])
             | Some (Dset _) => None
             | Some (Group c) => option_map (fun c' => replace n (Group c') t) (setitem p' v c)
             end
      end
  end.

(** lines 280-281: the loop over [dct.items()]; [false] when it raised, the tree is what was written
    until then *)
Fixpoint write_items (t : tree) (d : list (string * value)) : tree * bool :=
  match d with
  | [] => (t, true)
  | (k, v) :: d' =>
      match setitem (comps k) (store v) t with
      | Some t' => write_items t' d'
      | None => (t, false)
      end
  end.

(** lines 278-279: mode 'a' creates or opens, mode 'w' truncates; [None] is a file that does not exist *)
Inductive mode := A | W.
Definition opened (m : mode) (f : option tree) : tree :=
  match m, f with A, Some t => t | _, _ => [] end.
Definition write_h5 (m : mode) (f : option tree) (d : list (string * value)) : option tree * bool :=
  let r := write_items (opened m f) d in (Some (fst r), snd r).

(** [fh.visititems]: the datasets with their paths *)
Fixpoint visit_node (n : string) (x : node) : list (list string * stored) :=
  match x with
  | Dset v => [([n], v)]
  | Group c => map (fun pv => (n :: fst pv, snd pv))
                 ((fix go (l : list (string * node)) : list (list string * stored) :=
                     match l with [] => [] | (m, y) :: l' => visit_node m y ++ go l' end) c)
  end.
Definition visit (t : tree) : list (list string * stored) :=
  flat_map (fun ny => visit_node (fst ny) (snd ny)) t.

Fixpoint join (p : list string) : string :=
  match p with
  | [] => EmptyString
  | [n] => n
  | n :: p' => (n ++ String slash (join p'))%string
  end.

(** line 305: [name if name.startswith('/') else '/' + name] *)
Definition with_slash (s : string) : string :=
  match s with
  | String c _ => if Ascii.eqb c slash then s else String slash s
  | EmptyString => String slash s
  end.

Fixpoint traverse {X Y} (f : X -> option Y) (l : list X) : option (list Y) :=
  match l with
  | [] => Some []
  | x :: l' => match f x, traverse f l' with Some y, Some r => Some (y :: r) | _, _ => None end
  end.

(** lines 301-311 *)
Definition read_h5 (f : option tree) : option (list (string * value)) :=
  match f with
  | None => None
  | Some t => traverse (fun pv => option_map (fun v => (with_slash (join (fst pv)), v)) (load (snd pv))) (visit t)
  end.
End H5.
Arguments Str {other bytes text}. Arguments Bytes {other bytes text}. Arguments Other {other bytes text}.
Arguments SBytes {other bytes}. Arguments SOther {other bytes}.
Arguments Dset {other bytes}. Arguments Group {other bytes}.
