(** Model of src/pwtools/batch.py: Machine, FileTemplate, Calculation and
    ParameterStudy.write_input, on the file tree and database of Fs.v and Sql.v.
    Definitions only. *)
From Coq Require Import Ascii String ZArith.
From stdpp Require Import base gmap strings pretty list.
From Verif Require Import Comb Template Sql Fs.
Local Open Scope string_scope.
Local Open Scope list_scope.

Definition pst (s : string) : pstr := list_ascii_of_string s.

(** ** Input of a study *)
(** FileTemplate, batch.py:75-253.  [tm_func] is the function from keys to
    placeholders (default "XXX" + key.upper(), [xxx_func] below); [tm_keys = None]
    and [tm_txt = None] are the defaults.  The base name is one path component. *)
Record templ := Templ {
  tm_base : string; tm_file : path; tm_txt : option pstr;
  tm_keys : option (list string); tm_func : string -> pstr }.
(** batch.py:131 *)
Definition xxx_func (k : string) : pstr := pst ("XXX" ++ upper k)%string.

(** Machine, batch.py:17-72.  The host name is one path component. *)
Record machine := Mach {
  m_host : option string; m_subcmd : option string; m_scratch : option string;
  m_home : option string; m_templ : option templ }.

(** A parameter set: an arbitrarily nested list of SQLEntry. *)
Inductive pset := Leaf (e : entry_t) | Node (l : list pset).
(** common.flatten on it (common.py:608-621), as in batch.py:560 *)
Fixpoint flatten_pset (p : pset) : list entry_t :=
  match p with
  | Leaf e => [e]
  | Node l => flat_map flatten_pset l
  end.

(** Arguments of the study and of one call of write_input (batch.py:425, 484).
    [c_ord] is the order in which list(set(...)) delivers the header (line 593). *)
Record call := Call {
  c_w : bool;                       (* mode == 'w' *)
  c_backup : bool; c_sleep : Z; c_excl : bool;
  c_machines : list machine; c_templates : list templ; c_params : list (list pset);
  c_study : string; c_table : string; c_prefix : string;
  c_ord : list (string * string) -> list (string * string) }.

(** ** Records *)
Definition record := list (string * entry_t).

(** SQLEntry(key=key, sqlval=val) for a value with a known type *)
Definition auto_entry (key : string) (v : val) : entry_t :=
  SE key (default "" (find_sqltype v)) v v.
(** Python value of an optional string *)
Definition oval (o : option string) : val := match o with None => VNull | Some s => VText s end.

(** Machine.get_sql_record, batch.py:64-72 *)
Definition machine_record (m : machine) : record :=
  [("subcmd", auto_entry "subcmd" (oval (m_subcmd m)));
   ("scratch", auto_entry "scratch" (oval (m_scratch m)));
   ("home", auto_entry "home" (oval (m_home m)))].

(** dict.update *)
Definition dict_update (d d' : record) : record :=
  fold_left (fun d kv => dict_set d (fst kv) (snd kv)) d' d.

(** batch.py:307-308: dict((entry.key, entry) for entry in params) *)
Definition record_of (l : list entry_t) : record :=
  fold_left (fun d e => dict_set d (e_key e) e) l [].

(** batch.py:563-571 *)
Definition extra_params (study : string) (revision idx : Z) : list entry_t :=
  [auto_entry "revision" (VInt revision);
   auto_entry "study_name" (VText study);
   auto_entry "idx" (VInt idx);
   auto_entry "calc_name" (VText (study ++ "_run" ++ pretty idx)%string)].

(** Calculation.sql_record and sql_record_write, batch.py:307-313 *)
Definition calc_record (c : call) (revision idx : Z) (ps : list pset) : record :=
  record_of (flat_map flatten_pset ps ++ extra_params (c_study c) revision idx).
Definition write_record (m : machine) (rec : record) : record :=
  dict_update rec (machine_record m).

(** ** FileTemplate.write in mode 'sql', batch.py:189-250 *)
Fixpoint rules_set (d : list (pstr * rval)) (k : pstr) (v : rval) : list (pstr * rval) :=
  match d with
  | [] => [(k, v)]
  | (k', v') :: r => if List.list_eq_dec ascii_dec k' k then (k, v) :: r else (k', v') :: rules_set r k v
  end.
(** lines 233-241; a key missing in the record is a KeyError *)
Fixpoint rules_of (func : string -> pstr) (rec : record) (keys : list string)
  (acc : list (pstr * rval)) : option (list (pstr * rval)) :=
  match keys with
  | [] => Some acc
  | k :: ks => match dict_get rec k with
               | None => None
               | Some e => rules_of func rec ks (rules_set acc (func k) (rval_of (e_fileval e)))
               end
  end.

(** With keys=[] the message of lines 228-229 has one %s and two arguments, which
    raises TypeError before anything is copied. *)
Definition write_templ (dir : path) (rec : record) (t : templ) : prog unit :=
  match tm_keys t with
  | Some [] => Fail
  | ks =>
    let keys := match ks with Some l => l | None => map fst rec end in
    txt <- (match tm_txt t with Some x => Ret x | None => file_read (tm_file t) end) ;;
    match rules_of (tm_func t) rec keys [] with
    | None => Fail
    | Some rules =>
      match template_replace true txt rules with
      | None => Fail
      | Some new => file_write (dir ++ [tm_base t]) new
      end
    end
  end.

(** batch.py:310-316: the templates of one calculation *)
Definition calc_templates (c : call) (m : machine) : list templ :=
  c_templates c ++ match m_templ m with Some t => [t] | None => [] end.

(** Calculation.write_input, batch.py:322-329 *)
Definition calc_write_input (dir : path) (ts : list templ) (rec : record) : prog unit :=
  ex <- exists_p dir ;;
  when (negb ex) (makedirs dir) ;;;
  run_all (map (write_templ dir rec) ts).

(** ** The database connection *)
Definition view (dbfn : path) (s : st) : option tables :=
  match txn s with
  | Some tb => Some tb
  | None => match fs s !! dbfn with Some (EDb tb) => Some tb | _ => None end
  end.
(** SQLiteDB.__init__, sql.py:203-216.  A file that is not a database raises at
    the first statement. *)
Definition connect (dbfn : path) : prog unit :=
  Ask (fun s => match fs s !! dbfn with
                | None => if is_dir s (parent dbfn) then Do (put dbfn (EDb ∅)) (Ret tt) else Fail
                | Some (EDb _) => Ret tt
                | Some _ => Fail
                end).
(** Reading; no result if the file is gone or no database. *)
Definition with_view {A} (dbfn : path) (k : tables -> prog A) : prog A :=
  Ask (fun s => match view dbfn s with None => Fail | Some tb => k tb end).
(** DDL statements are effective at once unless a transaction is open; INSERT
    opens one (sqlite3 module, default isolation level). *)
Definition ddl (dbfn : path) (tb : tables) (s : st) : st :=
  match txn s with Some _ => St (fs s) (Some tb) | None => put dbfn (EDb tb) s end.
Definition dml (tb : tables) (s : st) : st := St (fs s) (Some tb).
Definition commit (dbfn : path) (s : st) : st :=
  match txn s with Some tb => St (<[dbfn := EDb tb]> (fs s)) None | None => s end.

(** "select max(col)": NULLs are ignored, [Some None] if there is no value.
    [None]: the column holds something that is not an integer; treated as an
    exception (write_input stores only integers in idx and revision). *)
Fixpoint max_int (l : list val) : option (option Z) :=
  match l with
  | [] => Some None
  | v :: r => match max_int r, v with
              | Some o, VNull => Some o
              | Some None, VInt z => Some (Some z)
              | Some (Some m), VInt z => Some (Some (Z.max m z))
              | _, _ => None
              end
  end.
Definition column (t : table) (c : string) : list val := map (fun r => cell r c) (t_rows t).

(** ** ParameterStudy.write_input, batch.py:484-614 *)
Section Write.
Variable aff : string -> val -> val.
Variable root : path.               (* calc_root *)
Variable db_name : string.
Variable c : call.

Definition dbfn : path := root ++ [db_name].
Definition host_str (m : machine) : string := default "None" (m_host m).
Definition dir_name (m : machine) : string := (c_prefix c ++ "_" ++ host_str m)%string.
Definition calc_dir (m : machine) : path := root ++ [dir_name m].

Definition empty_table : table := Tab [] [].
Definition tab_of (tb : tables) : table := default empty_table (tb !! c_table c).

(** lines 516-540: revision and max_idx (None if the table has no idx values) *)
Definition numbering (new_db : bool) : prog (Z * option Z) :=
  if new_db then Ret (0%Z, Some (-1)%Z)
  else if c_w c then Ret (0%Z, Some (-1)%Z)
  else with_view dbfn (fun tb =>
    let t := tab_of tb in
    if has_column t "idx" then
      match max_int (column t "idx") with
      | None => Fail
      | Some mi =>
        if has_column t "revision" then
          match max_int (column t "revision") with
          | Some (Some r) => Ret ((r + 1)%Z, mi)
          | _ => Fail                                   (* int(None) *)
          end
        else Ret (0%Z, mi)
      end
    else Fail).

(** lines 579-580 *)
Definition run_line (m : machine) (job : string) (idx : Z) : string :=
  ("cd " ++ pretty idx ++ " && " ++ default "None" (m_subcmd m) ++ " " ++ job
   ++ " && cd $here && sleep " ++ pretty (c_sleep c) ++ "
")%string.

(** lines 556-582, the loop over the parameter sets; [k] counts from 0.  Returns
    the records and the lines of run.sh. *)
Fixpoint calc_loop (m : machine) (revision : Z) (max_idx : option Z) (k : nat)
  (params : list (list pset)) : prog (list record * string) :=
  match params with
  | [] => Ret ([], "")
  | ps :: rest =>
    match max_idx with
    | None => Fail                                       (* None + int *)
    | Some mi =>
      let idx := (mi + Z.of_nat k + 1)%Z in
      let sub := calc_dir m ++ [pretty idx] in
      let rec := calc_record c revision idx ps in
      ex <- exists_p sub ;;
      when (c_w c && ex) (rm_tree sub) ;;;
      calc_write_input sub (calc_templates c m) (write_record m rec) ;;;
      match m_templ m with
      | None => Fail                                     (* get_jobfile_basename *)
      | Some t =>
        '(recs, txt) <- calc_loop m revision max_idx (S k) rest ;;
        Ret (rec :: recs, (run_line m (tm_base t) idx ++ txt)%string)
      end
    end
  end.

(** lines 543-583, one machine *)
Definition machine_step (revision : Z) (max_idx : option Z) (m : machine) : prog (list record) :=
  ex <- exists_p (calc_dir m) ;;
  when (ex && c_backup c) (backup root (dir_name m) ".") ;;;
  when (ex && c_w c) (rm_tree (calc_dir m)) ;;;
  '(recs, txt) <- calc_loop m revision max_idx 0 (c_params c) ;;
  file_write (calc_dir m ++ ["run.sh"]) (pst ("here=$(pwd)
" ++ txt)%string) ;;;
  Ret recs.

(** all machines; the records come from the first one (lines 581-582) *)
Fixpoint rest_machines (revision : Z) (max_idx : option Z) (ms : list machine) : prog unit :=
  match ms with
  | [] => Ret tt
  | m :: ms' => machine_step revision max_idx m ;;; rest_machines revision max_idx ms'
  end.
Definition all_machines (revision : Z) (max_idx : option Z) : prog (list record) :=
  match c_machines c with
  | [] => Ret []
  | m :: ms => recs <- machine_step revision max_idx m ;;
               rest_machines revision max_idx ms ;;;
               Ret recs
  end.

(** lines 584-585; SQLEntry(sqlval=...) has no key of its own *)
Definition hostname_val : option string :=
  match all_some (map m_host (c_machines c)) with
  | None => None
  | Some hs => Some (String.concat "," hs)
  end.
Definition add_hostname (h : string) (r : record) : record :=
  dict_set r "hostname" (auto_entry "hostname" (VText h)).

(** lines 588-591 *)
Definition raw_header (recs : list record) : list (string * string) :=
  flat_map (map (fun ke => (fst ke, upper (e_type (snd ke))))) recs.

Definition set_tab (tb : tables) (t : table) : tables := <[c_table c := t]> tb.

(** lines 593-594 *)
Definition create (header : list (string * string)) : prog unit :=
  with_view dbfn (fun tb =>
    match tb !! c_table c with
    | Some _ => Fail
    | None => match create_table header with
              | None => Fail
              | Some t => do (ddl dbfn (set_tab tb t))
              end
    end).
(** lines 596-599: every step is one ALTER TABLE (or nothing) *)
Fixpoint add_cols (l : list (string * string)) : prog unit :=
  match l with
  | [] => Ret tt
  | (k, ty) :: r =>
    with_view dbfn (fun tb =>
      if has_column (tab_of tb) k then add_cols r
      else match tb !! c_table c with
           | None => Fail
           | Some t => match add_column t k ty with
                       | None => Fail
                       | Some t' => do (ddl dbfn (set_tab tb t')) ;;; add_cols r
                       end
           end)
  end.
(** lines 600-605 *)
Fixpoint inserts (recs : list record) : prog unit :=
  match recs with
  | [] => Ret tt
  | r :: rs =>
    with_view dbfn (fun tb =>
      match tb !! c_table c with
      | None => Fail
      | Some t => match insert_row aff t (map (fun ke => (fst ke, e_sqlval (snd ke))) r) with
                  | None => Fail
                  | Some t' => do (dml (set_tab tb t')) ;;; inserts rs
                  end
      end)
  end.

(** lines 606-611; the table name 'calc' is literal.  [str] of other values than
    integers is not needed; their text is the one of frepr. *)
Definition lt_rev (revision : Z) (v : val) : bool :=
  match v with VInt z => (z <? revision)%Z | _ => false end.
Definition old_idx (t : table) (revision : Z) : list val :=
  map (fun r => cell r "idx") (List.filter (fun r => lt_rev revision (cell r "revision")) (t_rows t)).
Fixpoint join_lines (l : list pstr) : pstr :=
  match l with
  | [] => []
  | [x] => x
  | x :: r => x ++ pst "
" ++ join_lines r
  end.
Definition write_excl (revision : Z) : prog unit :=
  with_view dbfn (fun tb =>
    if c_excl c && (0 <? revision)%Z && has_column (tab_of tb) "revision" then
      match tb !! "calc" with
      | None => Fail
      | Some t =>
        if has_column t "idx" && has_column t "revision" then
          file_write (root ++ ["excl_push"])
            (join_lines (map (fun v => frepr (rval_of v)) (old_idx t revision)))
        else Fail
      end
    else Ret tt).

(** os.remove, line 513 *)
Definition remove_file (p : path) : prog unit :=
  Ask (fun s => match fs s !! p with
                | None | Some EDir => Fail
                | Some _ => Do (del p) (Ret tt)
                end).

Definition write_input : prog unit :=
  ex <- exists_p dbfn ;;
  when (ex && c_backup c) (backup root db_name ".") ;;;
  when (ex && c_w c) (remove_file dbfn) ;;;
  ex' <- exists_p dbfn ;;
  makedirs root ;;;
  connect dbfn ;;;
  '(revision, max_idx) <- numbering (negb ex') ;;
  recs0 <- all_machines revision max_idx ;;
  match recs0, hostname_val with
  | _ :: _, None => Fail
  | _, h =>
    let recs := map (add_hostname (default "" h)) recs0 in
    (if negb ex' then create (c_ord c (raw_header recs))
     else add_cols (raw_header recs)) ;;;
    inserts recs ;;;
    write_excl revision ;;;
    do (commit dbfn)
  end.
End Write.
