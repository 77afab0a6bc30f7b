(** Model of src/pwtools/sql.py: SQLEntry, the column and table operations of
    SQLiteDB, get_dict, sql_column, sql_matrix, makedb.  Definitions only. *)
From stdpp Require Import base gmap strings pretty list.
From Coq Require Import Ascii String.
From stdpp Require Import list.
From Verif Require Import Comb Template.
Local Open Scope string_scope.
Local Open Scope list_scope.

(** Values that cross the sqlite interface (sql.py:29-34).  A float is
    represented by its "%.16e" text, which determines it; [VOther] is any object
    without an sqlite type, represented by its repr(). *)
Inductive val :=
| VNull | VInt (z : Z) | VReal (s : string) | VText (s : string) | VBlob (s : string)
| VOther (repr : string).

Definition is_null (v : val) : bool := match v with VNull => true | _ => false end.

(** ASCII upper and lower case. *)
Definition upper_ascii (c : ascii) : ascii :=
  let n := nat_of_ascii c in
  if (Nat.leb 97 n && Nat.leb n 122)%bool then ascii_of_nat (n - 32) else c.
Definition lower_ascii (c : ascii) : ascii :=
  let n := nat_of_ascii c in
  if (Nat.leb 65 n && Nat.leb n 90)%bool then ascii_of_nat (n + 32) else c.
Fixpoint smap (f : ascii -> ascii) (s : string) : string :=
  match s with EmptyString => EmptyString | String c r => String (f c) (smap f r) end.
Definition upper := smap upper_ascii.
Definition lower := smap lower_ascii.

(** sql.py:18-41 (find_sqltype); [None] is the exception for an unknown type. *)
Definition find_sqltype (v : val) : option string :=
  match v with
  | VNull => Some "NULL" | VInt _ => Some "INTEGER" | VReal _ => Some "REAL"
  | VText _ => Some "TEXT" | VBlob _ => Some "BLOB" | VOther _ => None
  end.

(** sql.py:44-59 (fix_sqltype) *)
Definition fix_sqltype (t : string) : string :=
  let st := upper t in if String.eqb st "FLOAT" then "REAL" else st.

(** sql.py:67-128 (SQLEntry).  A missing key (None) is not represented. *)
Record entry_t := SE { e_key : string; e_type : string; e_sqlval : val; e_fileval : val }.

(** sql.py:118-124; [sqltype = None] and [fileval = VNull] are the defaults. *)
Definition mk_entry (key : string) (sqltype : option string) (sqlval fileval : val)
  : option entry_t :=
  match (match sqltype with None => find_sqltype sqlval | Some t => Some (fix_sqltype t) end) with
  | None => None
  | Some t => Some (SE key t sqlval (if is_null fileval then sqlval else fileval))
  end.

(** What template_replace sees of a value (common.py:193-222). *)
Definition rval_of (v : val) : rval :=
  match v with
  | VText s => RStr (list_ascii_of_string s)
  | VNull => ROther (list_ascii_of_string "None")
  | VInt z => ROther (list_ascii_of_string (pretty z))
  | VReal s => ROther (list_ascii_of_string s)
  | VBlob s => ROther (list_ascii_of_string s)
  | VOther s => ROther (list_ascii_of_string s)
  end.

(** ** One sqlite table
    Columns with declared type in order, rows in rowid order; a row maps column
    names to its non-NULL values.  Rows are never deleted by the code, so row
    number i (from 0) has rowid i+1. *)
Record table := Tab { t_cols : list (string * string); t_rows : list (gmap string val) }.

Definition cell (r : gmap string val) (c : string) : val := default VNull (r !! c).

(** Storing NULL leaves the cell empty. *)
Definition set_cell (r : gmap string val) (c : string) (v : val) : gmap string val :=
  match v with VNull => delete c r | _ => <[c := v]> r end.

(** sql.py:270-282: the comparison of names is exact ... *)
Definition has_column (t : table) (col : string) : bool :=
  existsb (fun c => String.eqb (fst c) col) (t_cols t).

(** ... while sqlite itself treats names that differ in case as the same. *)
Definition ci_has (names : list string) (col : string) : bool :=
  existsb (fun n => String.eqb (lower n) (lower col)) names.

Fixpoint ci_nodup (names : list string) : bool :=
  match names with
  | [] => true
  | n :: r => negb (ci_has r n) && ci_nodup r
  end.

Definition colnames (t : table) : list string := map fst (t_cols t).
Definition coltype (t : table) (col : string) : option string :=
  snd <$> List.find (fun c => String.eqb (fst c) col) (t_cols t).

(** "CREATE TABLE": sqlite rejects an empty column list and duplicate names.
    sql.py:434-446, with fix_sql_header (62-64). *)
Definition create_table (header : list (string * string)) : option table :=
  match header with
  | [] => None
  | _ => if ci_nodup (map fst header)
         then Some (Tab (map (fun x => (fst x, fix_sqltype (snd x))) header) [])
         else None
  end.

(** sql.py:284-300 (add_column); [None]: sqlite's "duplicate column name". *)
Definition add_column (t : table) (col ty : string) : option table :=
  if has_column t col then Some t
  else if ci_has (colnames t) col then None
  else Some (Tab (t_cols t ++ [(col, fix_sqltype ty)]) (t_rows t)).

(** sql.py:302-321 (add_columns): stops at the first failing entry; the columns
    added before stay (ALTER TABLE commits by itself), hence the table is
    returned together with the success flag. *)
Fixpoint add_columns (t : table) (header : list (string * string)) : table * bool :=
  match header with
  | [] => (t, true)
  | (c, ty) :: r =>
    match add_column t c (fix_sqltype ty) with
    | None => (t, false)
    | Some t' => add_columns t' r
    end
  end.

Section Affinity.
(** The conversion sqlite applies to a value stored in a column of a declared
    type ("column affinity").  A parameter of the model; the theorems that need
    it say what they assume about it. *)
Variable aff : string -> val -> val.

(** "insert into t (keys) values (...)": every name must be a column.
    Simplification: names are compared exactly (all callers check with
    has_column first). *)
Definition insert_row (t : table) (rec : list (string * val)) : option table :=
  if forallb (fun kv => has_column t (fst kv)) rec then
    Some (Tab (t_cols t)
      (t_rows t ++ [fold_left (fun r kv => set_cell r (fst kv)
                       (aff (default "" (coltype t (fst kv))) (snd kv))) rec ∅]))
  else None.

(** "update t set col=? where rowid==?" on row number [i] (rowid i+1). *)
Definition update_cell (t : table) (col : string) (i : nat) (v : val) : table :=
  Tab (t_cols t)
    (alter (fun r => set_cell r col (aff (default "" (coltype t col)) v)) i (t_rows t)).

(** sql.py:333-381 (fill_column), the loop of lines 364-381.  [maxrowid] is the
    value read before the loop.  The result is the table as left behind and
    whether the call ended normally. *)
Fixpoint fill_loop (t : table) (col : string) (values : list val) (rowid maxrowid : Z)
  (extend overwrite : bool) : table * bool :=
  match values with
  | [] => (t, true)
  | v :: vs =>
    if (rowid <=? maxrowid)%Z then
      (* rows with rowid < 1 do not exist: get_single raises (line 369), the
         update (line 373) changes nothing *)
      let ok := if overwrite then true
                else if (rowid <? 1)%Z then false
                else match t_rows t !! Z.to_nat (rowid - 1) with
                     | Some r => is_null (cell r col)
                     | None => false
                     end in
      if ok then
        let t' := if (rowid <? 1)%Z then t else update_cell t col (Z.to_nat (rowid - 1)) v in
        fill_loop t' col vs (rowid + 1) maxrowid extend overwrite
      else (t, false)
    else
      if extend then
        match insert_row t [(col, v)] with
        | Some t' => fill_loop t' col vs (rowid + 1) maxrowid extend overwrite
        | None => (t, false)
        end
      else fill_loop t col vs (rowid + 1) maxrowid extend overwrite
  end.

(** sql.py:333-381.  max(rowid) of an empty table is None; comparing it raises
    TypeError: in line 362 without extend, in line 365 as soon as there is a
    value. *)
Definition fill_column (t : table) (col : string) (values : list val) (start : Z)
  (extend overwrite : bool) : table * bool :=
  if negb (has_column t col) then (t, false)
  else match t_rows t with
       | [] => (t, extend && match values with [] => true | _ => false end)
       | _ => let maxrowid := Z.of_nat (List.length (t_rows t)) in
              if negb extend && negb (start <=? maxrowid)%Z then (t, false)
              else fill_loop t col values start maxrowid extend overwrite
       end.

(** sql.py:383-415 (attach_column). [values[0]] of an empty list raises unless
    sqltype is given. *)
Definition attach_column (t : table) (col : string) (values : list val)
  (sqltype : option string) (start : Z) (extend overwrite : bool) : table * bool :=
  if negb overwrite && has_column t col then (t, false)
  else
    match (match sqltype with
           | Some ty => Some ty
           | None => match values with [] => None | v :: _ => find_sqltype v end
           end) with
    | None => (t, false)
    | Some ty =>
      match add_column t col ty with
      | None => (t, false)
      | Some t' => fill_column t' col values start extend overwrite
      end
    end.
End Affinity.

(** ** get_dict, sql.py:473-498
    A Python dict keeps the first position of a key. *)
Fixpoint dict_set {A} (d : list (string * A)) (k : string) (v : A) : list (string * A) :=
  match d with
  | [] => [(k, v)]
  | (k', v') :: r => if String.eqb k' k then (k, v) :: r else (k', v') :: dict_set r k v
  end.
Fixpoint dict_get {A} (d : list (string * A)) (k : string) : option A :=
  match d with
  | [] => None
  | (k', v) :: r => if String.eqb k' k then Some v else dict_get r k
  end.

(** dct = dict((col, []) for col in cols), line 492; dct[col].append(row[idx]),
    lines 496-498.  Rows have as many values as there are columns. *)
Definition dict_append {A} (d : list (string * list A)) (k : string) (v : A) :=
  match dict_get d k with Some l => dict_set d k (l ++ [v]) | None => d end.
Definition get_dict {A} (cols : list string) (rows : list (list A)) : list (string * list A) :=
  let init := fold_left (fun d c => dict_set d c []) cols [] in
  fold_left (fun d row => fold_left (fun d cv => dict_append d (fst cv) (snd cv))
                                    (combine cols row) d) rows init.

(** ** sql_column, sql.py:535-584
    [type(x)] of the values is represented by the constructor. *)
Definition type_tag (v : val) : nat :=
  match v with VNull => 0 | VInt _ => 1 | VReal _ => 2 | VText _ => 3 | VBlob _ => 4 | VOther _ => 5 end.

Fixpoint all_some {A} (l : list (option A)) : option (list A) :=
  match l with
  | [] => Some []
  | None :: _ => None
  | Some x :: r => match all_some r with None => None | Some y => Some (x :: y) end
  end.

Definition sql_column (key : string) (lst : list val) (sqltype : option string)
  (sqlval_func fileval_func : val -> val) : option (list entry_t) :=
  let svs := map sqlval_func lst in
  let fvs := map fileval_func lst in
  match svs with
  | [] => None                                  (* len(set(types)) == 0 *)
  | s0 :: _ =>
    if forallb (fun s => Nat.eqb (type_tag s) (type_tag s0)) svs then
      match (match sqltype with None => find_sqltype s0 | Some t => Some (upper t) end) with
      | None => None
      | Some ty => all_some (map (fun sf => mk_entry key (Some ty) (fst sf) (snd sf)) (combine svs fvs))
      end
    else None
  end.

(** ** sql_matrix, sql.py:587-671 *)
(** lines 641-644: header from colnames and the first row *)
Definition header_of_colnames (lists : list (list val)) (cols : list string)
  : option (list (string * string)) :=
  match lists with
  | [] => None                                             (* lists[0] *)
  | r0 :: _ => match all_some (map find_sqltype r0) with
               | None => None
               | Some tys => Some (combine cols tys)
               end
  end.

(** lines 660-669: header[ii] raises IndexError for a row longer than the header *)
Fixpoint matrix_row (header : list (string * string)) (sf ff : string -> val -> val)
  (row : list val) {struct row} : option (list entry_t) :=
  match row with
  | [] => Some []
  | x :: xs =>
    match header with
    | [] => None
    | (k, ty) :: h =>
      match mk_entry k (Some ty) (sf k x) (ff k x), matrix_row h sf ff xs with
      | Some e, Some es => Some (e :: es)
      | _, _ => None
      end
    end
  end.

(** [sf], [ff]: the dicts _sqlval_funcs and _fileval_funcs (identity by default). *)
Definition sql_matrix_header (lists : list (list val)) (header : list (string * string))
  (sf ff : string -> val -> val) : option (list (list entry_t)) :=
  match lists with
  | [] => None
  | r0 :: _ =>
    if Nat.eqb (List.length header) (List.length r0)
    then all_some (map (matrix_row header sf ff) lists)
    else None
  end.

Definition sql_matrix_colnames (lists : list (list val)) (cols : list string)
  (sf ff : string -> val -> val) : option (list (list entry_t)) :=
  match header_of_colnames lists cols with
  | None => None
  | Some h => sql_matrix_header lists h sf ff
  end.

(** ** makedb, sql.py:674-753, on an optional existing table.  Returns the table
    as committed when the call ends (also on an exception, through __del__) and
    whether it ended normally. *)
Section Makedb.
Variable aff : string -> val -> val.

Fixpoint insert_rows (t : table) (rows : list (list (string * val))) : table * bool :=
  match rows with
  | [] => (t, true)
  | r :: rs => match insert_row aff t r with
               | None => (t, false)
               | Some t' => insert_rows t' rs
               end
  end.

(** lines 731-741 *)
Definition header_matches (t : table) (header : list (string * string)) : bool :=
  forallb (fun ct => match coltype t (fst ct) with
                     | Some ty => String.eqb (snd ct) ty
                     | None => false
                     end) header.

(** lines 743-748: names come from colnames, the number of "?" from the row; a
    row of another length is an sqlite error. *)
Definition named_row (cols : list string) (row : list entry_t) : option (list (string * val)) :=
  if Nat.eqb (List.length cols) (List.length row)
  then Some (combine cols (map e_sqlval row)) else None.

Fixpoint insert_named (t : table) (cols : list string) (rows : list (list entry_t)) : table * bool :=
  match rows with
  | [] => (t, true)
  | r :: rs => match named_row cols r with
               | None => (t, false)
               | Some nr => match insert_row aff t nr with
                            | None => (t, false)
                            | Some t' => insert_named t' cols rs
                            end
               end
  end.

Definition makedb (old : option table) (write_mode : bool) (lists : list (list val))
  (cols : list string) (sf ff : string -> val -> val) : option table * bool :=
  match lists with
  | [] => (old, false)                                             (* lists[0], line 723 *)
  | r0 :: _ =>
    if negb (Nat.eqb (List.length cols) (List.length r0)) then (old, false)
    else
      let old' := if write_mode then None else old in
      match all_some (map find_sqltype r0) with
      | None => (old', false)
      | Some tys =>
        let header := combine cols tys in
        match (match old' with
               | None => match create_table header with None => (None, false) | Some t => (Some t, true) end
               | Some t => (Some t, header_matches t header)
               end) with
        | (Some t, true) =>
          match sql_matrix_header lists header sf ff with
          | None => (Some t, false)
          | Some m => let '(t', ok) := insert_named t cols m in (Some t', ok)
          end
        | (ot, _) => (ot, false)
        end
      end
  end.
End Makedb.
