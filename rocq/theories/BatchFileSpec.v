(** Specification vocabulary for the files of a parameter study. *)
From Coq Require Import Ascii String ZArith.
From stdpp Require Import base gmap strings pretty list.
From Verif Require Import Comb Template TemplateSpec Sql SqlSpec Fs Batch BatchSpec.
Local Open Scope string_scope.
Local Open Scope list_scope.

(** Everything that does not belong to the call: not in a machine directory, not
    the database, not excl_push. *)
Definition outside (root : path) (db_name : string) (c : call) (q : path) : Prop :=
  (forall m, m ∈ c_machines c -> ~ under (calc_dir root c m) q) /\
  q <> dbfn root db_name /\ q <> root ++ ["excl_push"].

(** No machine directory and no database is named like a backup of another. *)
Definition names_ok (db_name : string) (c : call) : Prop :=
  forall m (n : nat), m ∈ c_machines c ->
    db_name <> bak_name (dir_name c m) "." n /\
    dir_name c m <> bak_name db_name "." n /\
    forall m', m' ∈ c_machines c -> dir_name c m <> bak_name (dir_name c m') "." n.

(** The former content of root/x is where it was, or copied to root/x.n, which did
    not exist. *)
Definition in_place (root : path) (s : st) (x : string) (s' : st) : Prop :=
  forall r, fs s' !! (root ++ [x] ++ r) = fs s !! (root ++ [x] ++ r).
Definition saved (root : path) (s : st) (x : string) (s' : st) : Prop :=
  exists n : nat, fs s !! (root ++ [bak_name x "." n]) = None /\
    forall r, fs s' !! (root ++ [bak_name x "." n] ++ r) = fs s !! (root ++ [x] ++ r).

(** The path r in the directory of calculation z. *)
Definition calc_path (root : path) (dir : string) (z : Z) (r : path) : path := root ++ [dir; pretty z] ++ r.

(** The text of a template: given as text, or the content of its file, which the
    call must not overwrite. *)
Definition text_at (root : path) (db_name : string) (c : call) (s : st) (t : templ) (txt : pstr) : Prop :=
  tm_txt t = Some txt \/
  (tm_txt t = None /\ outside root db_name c (tm_file t) /\ fs s !! tm_file t = Some (EFile txt)).

(** The replacement rules of a template: placeholder and value of every key that
    has a value, or of every key the template names. *)
Definition used (t : templ) (k : string) : Prop :=
  match tm_keys t with None => True | Some l => k ∈ l end.
Definition describes (t : templ) (value : string -> option val) (rules : list (pstr * rval)) : Prop :=
  NoDup rules /\ forall p v, (p, v) ∈ rules <-> exists k x, used t k /\ value k = Some x /\ p = tm_func t k /\ v = rval_of x.
Definition texts_of (rules : list (pstr * rval)) : list (pstr * pstr) := map (fun kv => (fst kv, frepr (snd kv))) rules.

(** run.sh: a header and one line per calculation first, first+1, ..., first+n-1. *)
Definition run_sh (m : machine) (job : string) (sleep : Z) (first n : nat) : string :=
  ("here=$(pwd)
" ++ String.concat "" (map (fun i => "cd " ++ pretty (first + i)%nat ++ " && " ++ default "None" (m_subcmd m) ++ " " ++ job
   ++ " && cd $here && sleep " ++ pretty sleep ++ "
")%string (seq 0 n)))%string.
