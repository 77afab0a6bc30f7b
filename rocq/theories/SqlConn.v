(** Model of the connection of an SQLiteDB object, /repo/src/pwtools/sql.py: __init__ 211-225,
    _get_table, set_table, get_table 227-248, execute 250-252, has_table 265-268, the methods
    add_column 284-300, fill_column 333-381, attach_column 383-415, create_table 434-446 as
    sequences of sqlite statements, get_max_rowid 323-331, commit, finish, __del__ 500-511.

    Python's sqlite3 module (default settings, Python 3.6 and later) opens a transaction before
    INSERT and UPDATE; ALTER TABLE and CREATE TABLE do not open one and take effect on disk at
    once unless a transaction is open.  Table names are compared exactly.  Rows are not deleted. *)
From stdpp Require Import base gmap strings list.
From Coq Require Import String.
From Verif Require Import Sql.
Local Open Scope string_scope.
Local Open Scope list_scope.

Notation db := (gmap string table).
(** [work]: what the open transaction has made of the data on disk *)
Record conn := Conn { disk : db; work : option db; cursor_open : bool; deflt : option string }.
(** what SELECT sees *)
Definition visible (c : conn) : db := default (disk c) (work c).
(** sqlite statements that change something *)
Inductive prim := Dml (tab : string) (t : table) | Ddl (tab : string) (t : table) | CommitP.
Definition prim_run (c : conn) (p : prim) : conn :=
  match p with
  | Dml tab t => Conn (disk c) (Some (<[tab := t]> (visible c))) (cursor_open c) (deflt c)
  | Ddl tab t =>
    match work c with
    | None => Conn (<[tab := t]> (disk c)) None (cursor_open c) (deflt c)
    | Some w => Conn (disk c) (Some (<[tab := t]> w)) (cursor_open c) (deflt c)
    end
  | CommitP => Conn (visible c) None (cursor_open c) (deflt c)
  end.
Definition prims_run (c : conn) (ps : list prim) : conn := fold_left prim_run ps c.
(** the process is killed, then SQLiteDB(db_fn, table) in a new one, 222-225 *)
Definition reopen (c : conn) (table : option string) : conn := Conn (disk c) None true table.

Section Calls.
Variable aff : string -> val -> val.
(** the loop of fill_column, 364-381: the table after each UPDATE or INSERT that is executed *)
Fixpoint fill_tables (t : table) (col : string) (values : list val) (rowid maxrowid : Z) (extend overwrite : bool) : list table * bool :=
  match values with
  | [] => ([], true)
  | v :: vs =>
    let '(t', ok) := fill_loop aff t col [v] rowid maxrowid extend overwrite in
    if ok then
      let '(ts, ok') := fill_tables t' col vs (rowid + 1) maxrowid extend overwrite in
      (if (rowid <=? maxrowid)%Z || extend then t' :: ts else ts, ok')
    else ([], false)
  end.
(** 357-363 as in Sql.fill_column *)
Definition fill_steps (t : table) (col : string) (values : list val) (start : Z) (extend overwrite : bool) : list table * bool :=
  if negb (has_column t col) then ([], false)
  else match t_rows t with
       | [] => ([], extend && match values with [] => true | _ => false end)
       | _ => let maxrowid := Z.of_nat (List.length (t_rows t)) in
              if negb extend && negb (start <=? maxrowid)%Z then ([], false)
              else fill_tables t col values start maxrowid extend overwrite
       end.
Inductive call :=
| Create (header : list (string * string)) (tab : option string)
| AddCol (col ty : string) (tab : option string)
| Fill (col : string) (values : list val) (start : Z) (extend overwrite : bool) (tab : option string)
| Attach (col : string) (values : list val) (sqltype : option string) (start : Z) (extend overwrite : bool) (tab : option string)
| Insert (rec : list (string * val)) (tab : string)   (* execute("insert into tab ...") *)
| SetTable (tab : option string) | Commit | Finish.
(** 227-234 *)
Definition get_table (c : conn) (tab : option string) : option string := match tab with Some t => Some t | None => deflt c end.
(** the statements of a call with its table and whether it ends normally *)
Definition on_table (c : conn) (tab : option string) (f : string -> table -> list prim * bool) : list prim * bool :=
  match get_table c tab with None => ([], false) | Some n => match visible c !! n with None => ([], false) | Some t => f n t end end.
Definition add_steps (n : string) (t : table) (col ty : string) : option (list prim * table) :=
  match add_column t col ty with
  | None => None
  | Some t' => Some (if has_column t col then [] else [Ddl n t'], t')
  end.
Definition compile (c : conn) (k : call) : list prim * bool :=
  match k with
  | Create header tab =>
    match get_table c tab with None => ([], false) | Some n =>
    match visible c !! n, create_table header with None, Some t => ([Ddl n t], true) | _, _ => ([], false) end end
  | AddCol col ty tab => on_table c tab (fun n t => match add_steps n t col ty with Some (ps, _) => (ps, true) | None => ([], false) end)
  | Fill col values start extend overwrite tab =>
    on_table c tab (fun n t => let '(ts, ok) := fill_steps t col values start extend overwrite in (map (Dml n) ts, ok))
  | Attach col values sqltype start extend overwrite tab =>
    on_table c tab (fun n t =>
      if negb overwrite && has_column t col then ([], false) else
      match (match sqltype with Some ty => Some ty | None => match values with [] => None | v :: _ => find_sqltype v end end) with
      | None => ([], false)
      | Some ty => match add_steps n t col ty with
                   | None => ([], false)
                   | Some (ps, t') => let '(ts, ok) := fill_steps t' col values start extend overwrite in (ps ++ map (Dml n) ts, ok)
                   end
      end)
  | Insert rec n => match visible c !! n with None => ([], false) | Some t => match insert_row aff t rec with Some t' => ([Dml n t'], true) | None => ([], false) end end
  | SetTable _ => ([], true)
  | Commit | Finish => ([CommitP], true)
  end.
(** one call; a closed cursor raises in every statement, commit works still *)
Definition do_call (c : conn) (k : call) : conn * bool :=
  match k with
  | SetTable tab => (Conn (disk c) (work c) (cursor_open c) tab, true)
  | Commit => (prim_run c CommitP, true)
  | Finish => let c' := prim_run c CommitP in (Conn (disk c') (work c') false (deflt c'), true)
  | _ => if cursor_open c then let '(ps, ok) := compile c k in (prims_run c ps, ok) else (c, false)
  end.
(** the process is killed after the first m statements of the call *)
Definition killed_in (c : conn) (k : call) (m : nat) : conn :=
  if cursor_open c then prims_run c (firstn m (fst (compile c k))) else c.
Definition calls (c : conn) (ks : list call) : conn := fold_left (fun c k => fst (do_call c k)) ks c.
(** 265-268, 323-331; max(rowid) of an empty table is None *)
Definition has_table (c : conn) (n : string) : bool := match visible c !! n with Some t => match t_cols t with [] => false | _ => true end | None => false end.
Definition get_max_rowid (c : conn) (tab : option string) : option val :=
  match get_table c tab with None => None | Some n =>
  match visible c !! n with None => None | Some t =>
    Some (match t_rows t with [] => VNull | _ => VInt (Z.of_nat (List.length (t_rows t))) end) end end.
End Calls.
