(** Specification vocabulary for parameter studies. *)
From Coq Require Import Ascii String ZArith.
From stdpp Require Import base gmap strings pretty list.
From Verif Require Import Comb Template TemplateSpec Sql SqlSpec Fs Batch.
Local Open Scope string_scope.
Local Open Scope list_scope.

Section Spec.
Variable aff : string -> val -> val.
Variable root : path.
Variable db_name : string.
Notation db := (dbfn root db_name).

(** What is asked of a call: list(set(l)) lists the elements of l once each;
    the database file is neither one of the machine directories nor excl_push. *)
Record call_ok (c : call) : Prop := CallOk {
  ok_ord : forall l, NoDup (c_ord c l) /\ forall x, x ∈ c_ord c l <-> x ∈ l;
  ok_dirs : forall m, m ∈ c_machines c -> dir_name c m <> db_name;
  ok_excl : db_name <> "excl_push" }.

(** All file trees that histories of write_input calls can leave behind, starting
    without a database.  A call may be stopped after any effect; then the open
    transaction is lost ([r_killed]) or committed by the destructor of the
    connection ([r_ended], which includes calls that end normally and calls that
    raise).  Between calls anything may happen to other files, and the database
    may be removed. *)
Inductive reach : gmap path entry -> Prop :=
| r_init f : f !! db = None -> reach f
| r_killed f c s : reach f -> call_ok c ->
    s ∈ stops (write_input aff root db_name c) (St f None) -> reach (fs s)
| r_ended f c s : reach f -> call_ok c ->
    s ∈ stops (write_input aff root db_name c) (St f None) -> reach (fs (commit db s))
| r_other f f' : reach f -> f' !! db = f !! db \/ f' !! db = None -> reach f'.

(** A table in the database file. *)
Definition stored (f : gmap path entry) (name : string) (t : table) : Prop :=
  exists tb, f !! db = Some (EDb tb) /\ tb !! name = Some t.

(** idx reads 0, 1, ..., n-1. *)
Definition numbered (t : table) : Prop :=
  forall i, i < nrows t -> cell_at t i "idx" = Some (VInt (Z.of_nat i)).

(** The revisions start with 0 and from row to row stay or grow by one. *)
Definition revisions (t : table) : Prop :=
  (forall i, i < nrows t -> exists z, cell_at t i "revision" = Some (VInt z)) /\
  (0 < nrows t -> cell_at t 0 "revision" = Some (VInt 0)) /\
  (forall i z z', cell_at t i "revision" = Some (VInt z) ->
     cell_at t (S i) "revision" = Some (VInt z') -> z' = z \/ z' = (z + 1)%Z).
End Spec.

(** Flattening: the entries of a nested parameter set from left to right. *)
Inductive entries : pset -> list entry_t -> Prop :=
| en_leaf e : entries (Leaf e) [e]
| en_node l ls : Forall2 entries l ls -> entries (Node l) (concat ls).

(** Python dict built from entries: a key has the value of its last entry. *)
Definition last_entry (l : list entry_t) (k : string) : option entry_t :=
  List.find (fun e => String.eqb (e_key e) k) (rev l).

(** The value a calculation must have in the database under a column. *)
Definition db_value (study : string) (hosts : list string) (revision idx : Z)
  (params : list entry_t) (k : string) : option val :=
  if String.eqb k "hostname" then Some (VText (String.concat "," hosts))
  else if String.eqb k "calc_name" then Some (VText (study ++ "_run" ++ pretty idx)%string)
  else if String.eqb k "idx" then Some (VInt idx)
  else if String.eqb k "study_name" then Some (VText study)
  else if String.eqb k "revision" then Some (VInt revision)
  else e_sqlval <$> last_entry params k.

(** The value put into the files of a calculation for a key. *)
Definition file_value (study : string) (m : machine) (revision idx : Z)
  (params : list entry_t) (k : string) : option val :=
  if String.eqb k "home" then Some (oval (m_home m))
  else if String.eqb k "scratch" then Some (oval (m_scratch m))
  else if String.eqb k "subcmd" then Some (oval (m_subcmd m))
  else if String.eqb k "calc_name" then Some (VText (study ++ "_run" ++ pretty idx)%string)
  else if String.eqb k "idx" then Some (VInt idx)
  else if String.eqb k "study_name" then Some (VText study)
  else if String.eqb k "revision" then Some (VInt revision)
  else e_fileval <$> last_entry params k.
