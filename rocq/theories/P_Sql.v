(** Properties C11-C14 and C59: tables, columns and entries of sql.py. *)
From Coq Require Import String Lia.
From stdpp Require Import base gmap strings list.
From Verif Require Import Sql SqlSpec SqlProofs.
Local Open Scope list_scope.

(** C11.  An existing column: nothing happens. *)
Theorem C11_add_column_present t c ty : c ∈ colnames t -> add_column t c ty = Some t.
Proof. exact (add_column_present t c ty). Qed.
Print Assumptions C11_add_column_present.

(** A missing one: it is appended to the columns, every stored value stays, and
    the new cells are NULL. *)
Theorem C11_add_column_missing t c ty t' :
  tab_ok t -> c ∉ colnames t -> add_column t c ty = Some t' ->
  (exists u, declared ty u /\ t_cols t' = t_cols t ++ [(c, u)]) /\ nrows t' = nrows t /\
  (forall i c', cell_at t' i c' = cell_at t i c') /\
  (forall i, i < nrows t -> cell_at t' i c = Some VNull) /\ tab_ok t'.
Proof.
  intros H1 H2 H3. destruct (add_column_missing_all t c ty t' H1 H2 H3) as (K1 & K). split; [|exact K].
  exists (fix_sqltype ty). split; [apply fix_sqltype_declared|exact K1].
Qed.
Print Assumptions C11_add_column_missing.

(** The only failure: the column is not there, but one whose name differs in
    case is. *)
Theorem C11_add_column_raises t c ty :
  add_column t c ty = None <-> c ∉ colnames t /\ exists n, n ∈ colnames t /\ lower n = lower c.
Proof. exact (add_column_raises t c ty). Qed.
Print Assumptions C11_add_column_raises.

Theorem C11_add_column_idempotent t c ty ty' t' :
  add_column t c ty = Some t' -> add_column t' c ty' = Some t'.
Proof. exact (add_column_idem t c ty ty' t'). Qed.
Print Assumptions C11_add_column_idempotent.

(** add_columns, also when it raises halfway. *)
Theorem C11_add_columns t h t' ok :
  add_columns t h = (t', ok) ->
  (forall i c, cell_at t' i c = cell_at t i c) /\ (exists l, t_cols t' = t_cols t ++ l) /\
  (tab_ok t -> tab_ok t') /\
  (ok = true -> forall c ty, In (c, ty) h -> c ∈ colnames t').
Proof. exact (add_columns_spec t h t' ok). Qed.
Print Assumptions C11_add_columns.

Definition ex_tab : table :=
  Tab [("a", "INTEGER"); ("b", "TEXT")]%string
      [<["a" := VInt 1]> (<["b" := VText "x"]> ∅); <["b" := VText "y"]> ∅]%string.

Example C11_case :
  tab_ok ex_tab /\ ("c"%string ∉ colnames ex_tab) /\
  add_column ex_tab "c" "float" = Some (Tab (t_cols ex_tab ++ [("c", "REAL")]%string) (t_rows ex_tab)) /\
  add_column ex_tab "A" "TEXT" = None.
Proof.
  split; [|split; [|split; reflexivity]].
  - intros i r c v Hi Hv. unfold colnames; simpl.
    destruct i as [|[|i]]; simpl in Hi; [| |discriminate]; injection Hi as <-;
      repeat (apply lookup_insert_Some in Hv as [[<- _]|[_ Hv]]; [set_solver|]);
      rewrite lookup_empty in Hv; discriminate.
  - unfold colnames. simpl. set_solver.
Qed.

(** C12.  Non-empty table, existing column.  Either the start is behind the table
    and extend is off: nothing is written and the call raises; or the first k
    values are written exactly, where k is the number of values when the call
    returns, and otherwise value k would hit a non-NULL (or absent) cell.  With
    overwrite it always returns; without, no written cell held a value. *)
Theorem C12_fill_column aff t col vs start extend overwrite t' ok :
  col ∈ colnames t -> 0 < nrows t ->
  fill_column aff t col vs start extend overwrite = (t', ok) ->
  (extend = false /\ (Z.of_nat (nrows t) < start)%Z /\ t' = t /\ ok = false)
  \/ exists k, k <= length vs /\ filled aff (nrows t) t col (take k vs) start extend t' /\
    (ok = true -> k = length vs) /\ (overwrite = true -> ok = true) /\
    (overwrite = false -> forall j, j < k -> (start + Z.of_nat j <= Z.of_nat (nrows t))%Z ->
         writable t col (start + Z.of_nat j)) /\
    (ok = false -> k < length vs /\ (start + Z.of_nat k <= Z.of_nat (nrows t))%Z /\
                   ~ writable t col (start + Z.of_nat k)).
Proof. exact (fill_column_spec aff t col vs start extend overwrite t' ok). Qed.
Print Assumptions C12_fill_column.

(** Without overwrite no stored value is ever lost. *)
Theorem C12_fill_column_keeps_values aff t col vs start extend t' ok i c v :
  col ∈ colnames t -> 0 < nrows t ->
  fill_column aff t col vs start extend false = (t', ok) ->
  cell_at t i c = Some v -> v <> VNull -> cell_at t' i c = Some v.
Proof. exact (fill_column_keeps aff t col vs start extend t' ok i c v). Qed.
Print Assumptions C12_fill_column_keeps_values.

(** An empty table: nothing is written; the call raises unless there is nothing
    to write and extend is on. *)
Theorem C12_fill_column_empty aff t col vs start extend overwrite :
  nrows t = 0 ->
  fill_column aff t col vs start extend overwrite
  = (t, has_column t col && (extend && match vs with [] => true | _ => false end)).
Proof. exact (fill_column_empty aff t col vs start extend overwrite). Qed.
Print Assumptions C12_fill_column_empty.

(** attach_column never touches another column of an existing row, and refuses
    an existing column without overwrite. *)
Theorem C12_attach_column aff t col vs ty start extend overwrite t' ok :
  attach_column aff t col vs ty start extend overwrite = (t', ok) ->
  (col ∈ colnames t -> overwrite = false -> t' = t /\ ok = false) /\
  (forall i c, c <> col -> i < nrows t -> cell_at t' i c = cell_at t i c).
Proof. exact (attach_column_spec aff t col vs ty start extend overwrite t' ok). Qed.
Print Assumptions C12_attach_column.

Example C12_case :
  let aff := fun _ v => v in
  fill_column aff ex_tab "a" [VInt 7; VInt 8; VInt 9] 2 true false
  = (Tab (t_cols ex_tab)
       [<["a" := VInt 1]> (<["b" := VText "x"]> ∅);
        <["a" := VInt 7]> (<["b" := VText "y"]> ∅);
        <["a" := VInt 8]> ∅; <["a" := VInt 9]> ∅], true)%string
  /\ snd (fill_column aff ex_tab "a" [VInt 7] 1 true false) = false.
Proof. split; reflexivity. Qed.

(** C13 *)
Theorem C13_get_dict_transposes {A} cols (rows : list (list A)) j c :
  NoDup cols -> Forall (fun r => length r = length cols) rows -> cols !! j = Some c ->
  exists l, dict_get (get_dict cols rows) c = Some l /\ length l = length rows /\
    forall i row, rows !! i = Some row -> l !! i = row !! j.
Proof. exact (get_dict_transposes cols rows j c). Qed.
Print Assumptions C13_get_dict_transposes.

(** In general (names may repeat): row by row, the values of the columns of that
    name; no other keys. *)
Theorem C13_get_dict_value {A} cols (rows : list (list A)) c :
  c ∈ cols -> dict_get (get_dict cols rows) c = Some (concat (map (values_named c cols) rows)).
Proof. exact (get_dict_value cols rows c). Qed.
Print Assumptions C13_get_dict_value.

Theorem C13_get_dict_no_other_key {A} cols (rows : list (list A)) c :
  c ∉ cols -> dict_get (get_dict cols rows) c = None.
Proof. exact (get_dict_missing cols rows c). Qed.
Print Assumptions C13_get_dict_no_other_key.

Example C13_case :
  get_dict ["x"; "y"]%string [[1; 2]; [3; 4]; [5; 6]] = [("x", [1; 3; 5]); ("y", [2; 4; 6])]%string
  /\ get_dict ["x"; "x"]%string [[1; 2]; [3; 4]] = [("x", [1; 2; 3; 4])]%string.
Proof. split; reflexivity. Qed.

(** C14 *)
Theorem C14_sql_column key lst ty sf ff r :
  sql_column key lst ty sf ff = Some r ->
  lst <> [] /\ length r = length lst /\
  (forall i x, lst !! i = Some x -> exists e, r !! i = Some e /\ e_key e = key /\
      e_sqlval e = sf x /\ e_fileval e = (if is_null (ff x) then sf x else ff x)) /\
  (forall e e', e ∈ r -> e' ∈ r -> e_type e = e_type e').
Proof. exact (sql_column_spec key lst ty sf ff r). Qed.
Print Assumptions C14_sql_column.

(** The type of the column: the given one in capital letters (REAL for FLOAT), or the sqlite
    type of all values. *)
Theorem C14_sql_column_type key lst ty sf ff r e :
  sql_column key lst ty sf ff = Some r -> e ∈ r ->
  match ty with Some t => declared t (e_type e) | None => forall x, x ∈ lst -> sqltype_of (sf x) (e_type e) end.
Proof. exact (sql_column_types key lst ty sf ff r e). Qed.
Print Assumptions C14_sql_column_type.
(** It is refused exactly if there are no values, values of different Python types, or no sqlite
    type is known for them. *)
Theorem C14_sql_column_defined key lst ty sf ff :
  (exists r, sql_column key lst ty sf ff = Some r) <->
  lst <> [] /\ (forall x y, x ∈ lst -> y ∈ lst -> type_tag (sf x) = type_tag (sf y)) /\ (ty = None -> forall x, x ∈ lst -> exists t, sqltype_of (sf x) t).
Proof. exact (sql_column_defined key lst ty sf ff). Qed.
Print Assumptions C14_sql_column_defined.

Theorem C14_sql_matrix lists header sf ff m :
  sql_matrix_header lists header sf ff = Some m ->
  length m = length lists /\
  forall i row, lists !! i = Some row ->
    length row <= length header /\
    exists mr, m !! i = Some mr /\ length mr = length row /\
      forall j x, row !! j = Some x -> exists k ty u, header !! j = Some (k, ty) /\ declared ty u /\
        mr !! j = Some (SE k u (sf k x) (if is_null (ff k x) then sf k x else ff k x)).
Proof.
  intros H. destruct (sql_matrix_spec lists header sf ff m H) as [L K]. split; [exact L|]. intros i row Hr.
  destruct (K i row Hr) as (L1 & mr & E & L2 & V). split; [exact L1|]. exists mr. split; [exact E|]. split; [exact L2|].
  intros j x Hx. destruct (V j x Hx) as (k & ty & E1 & E2). exists k, ty, (fix_sqltype ty). split; [exact E1|]. split; [apply fix_sqltype_declared|exact E2].
Qed.
Print Assumptions C14_sql_matrix.

Theorem C14_sql_matrix_colnames lists cols sf ff m :
  sql_matrix_colnames lists cols sf ff = Some m ->
  length m = length lists /\ (forall r0, lists !! 0 = Some r0 -> length r0 <= length cols) /\
  forall i row, lists !! i = Some row ->
    exists mr, m !! i = Some mr /\ length mr = length row /\
      forall j x, row !! j = Some x -> exists k ty r0 x0, cols !! j = Some k /\
        lists !! 0 = Some r0 /\ r0 !! j = Some x0 /\ sqltype_of x0 ty /\
        mr !! j = Some (SE k ty (sf k x) (if is_null (ff k x) then sf k x else ff k x)).
Proof.
  intros H. destruct (sql_matrix_colnames_spec lists cols sf ff m H) as (L & L0 & K). split; [exact L|]. split; [exact L0|]. intros i row Hr.
  destruct (K i row Hr) as (mr & E & L2 & V). exists mr. split; [exact E|]. split; [exact L2|].
  intros j x Hx. destruct (V j x Hx) as (k & ty & r0 & x0 & E1 & E2 & E3 & E4 & E5). apply find_sqltype_spec in E4.
  rewrite (fix_known _ _ E4) in E5. exists k, ty, r0, x0. auto.
Qed.
Print Assumptions C14_sql_matrix_colnames.

(** Rows longer than the header raise; shorter ones (first row excepted) pass. *)
Theorem C14_sql_matrix_long_row lists header sf ff i row :
  lists !! i = Some row -> length header < length row -> sql_matrix_header lists header sf ff = None.
Proof. exact (sql_matrix_long_row lists header sf ff i row). Qed.
Print Assumptions C14_sql_matrix_long_row.

Theorem C14_sql_matrix_total lists header sf ff r0 rest :
  lists = r0 :: rest -> length header = length r0 ->
  Forall (fun row => length row <= length header) lists ->
  exists m, sql_matrix_header lists header sf ff = Some m.
Proof. exact (sql_matrix_total lists header sf ff r0 rest). Qed.
Print Assumptions C14_sql_matrix_total.

Example C14_case :
  option_map (map (map e_sqlval))
    (sql_matrix_colnames [[VInt 1; VText "a"]; [VInt 2]]%string ["c0"; "c1"; "dropped"]%string
       (fun _ v => v) (fun _ v => v))
  = Some [[VInt 1; VText "a"]; [VInt 2]]%string
  /\ option_map (map e_key)
       (sql_column "k" [VInt 1; VInt 2] None (fun v => v) (fun v => v)) = Some ["k"; "k"]%string.
Proof. split; reflexivity. Qed.

(** C59: makedb in append mode on an existing table. *)
Theorem C59_makedb_appends aff t lists cols sf ff t' ok :
  makedb aff (Some t) false lists cols sf ff = (Some t', ok) ->
  t_cols t' = t_cols t /\ exists new, t_rows t' = t_rows t ++ new /\ length new <= length lists /\
    (ok = true -> length new = length lists) /\
    (forall i row r, lists !! i = Some row -> new !! i = Some r ->
       (forall c, c ∉ cols -> cell r c = VNull) /\
       (NoDup cols -> forall j c x, cols !! j = Some c -> row !! j = Some x ->
          cell r c = aff (default ""%string (coltype t c)) (sf c x))).
Proof. exact (makedb_append_spec aff t lists cols sf ff t' ok). Qed.
Print Assumptions C59_makedb_appends.

Example C59_case :
  makedb (fun _ v => v) (Some ex_tab) false [[VInt 5]; [VInt 6]] ["a"%string] (fun _ v => v) (fun _ v => v)
  = (Some (Tab (t_cols ex_tab) (t_rows ex_tab ++ [<["a"%string := VInt 5]> ∅; <["a"%string := VInt 6]> ∅])), true).
Proof. reflexivity. Qed.
