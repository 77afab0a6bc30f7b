(** Specification vocabulary for tables. *)
From Coq Require Import Ascii String Lia.
From stdpp Require Import base gmap strings list.
From Verif Require Import Sql.
Local Open Scope list_scope.

(** What "select c from t where rowid = i+1" shows. *)
Definition cell_at (t : table) (i : nat) (c : string) : option val :=
  (fun r => cell r c) <$> (t_rows t !! i).

(** Rows hold values only under names of columns. *)
Definition tab_ok (t : table) : Prop :=
  forall i r c v, t_rows t !! i = Some r -> r !! c = Some v -> c ∈ colnames t.

Definition nrows (t : table) : nat := length (t_rows t).

(** The values of one result row that belong to the columns named [c]. *)
Fixpoint values_named {A} (c : string) (cols : list string) (row : list A) : list A :=
  match cols, row with
  | k :: cols', v :: row' => (if String.eqb k c then [v] else []) ++ values_named c cols' row'
  | _, _ => []
  end.

(** Number of values written behind the last row. *)
Definition beyond (n : nat) (start : Z) (len : nat) : nat :=
  Z.to_nat (Z.min (Z.of_nat len) (Z.max 0 (start + Z.of_nat len - 1 - Z.of_nat n))).

(** A value may be written at [rowid] without overwriting anything. *)
Definition writable (t : table) (col : string) (rowid : Z) : Prop :=
  (1 <= rowid)%Z /\ cell_at t (Z.to_nat (rowid - 1)) col = Some VNull.

(** The table [t'] is [t] after writing all of [vs] to column [col] from rowid
    [start] on, [n] being the number of rows before: same columns; cells outside
    the range keep their values; the values for existing rows are found there;
    with [extend], the values for rowids above [n] are found in appended rows, in
    order, whose other columns are NULL. *)
Record filled (aff : string -> val -> val) (n : nat) (t : table) (col : string)
  (vs : list val) (start : Z) (extend : bool) (t' : table) : Prop := Filled {
  fl_cols : t_cols t' = t_cols t;
  fl_len : nrows t' = nrows t + (if extend then beyond n start (length vs) else 0);
  fl_old : forall i c, i < nrows t ->
    ~ (c = col /\ (i < n)%nat /\ start - 1 <= Z.of_nat i < start - 1 + Z.of_nat (length vs))%Z ->
    cell_at t' i c = cell_at t i c;
  fl_new : forall k v, vs !! k = Some v -> (1 <= start + Z.of_nat k <= Z.of_nat n)%Z ->
    cell_at t' (Z.to_nat (start + Z.of_nat k - 1)) col
    = Some (aff (default ""%string (coltype t col)) v);
  fl_app : extend = true -> forall k v, vs !! k = Some v -> (Z.of_nat n < start + Z.of_nat k)%Z ->
    forall c, cell_at t' (nrows t + Z.to_nat (Z.min (Z.of_nat k) (start + Z.of_nat k - 1 - Z.of_nat n))) c
    = Some (if decide (c = col) then aff (default ""%string (coltype t col)) v else VNull) }.

(** The sqlite type of a Python value. *)
Inductive sqltype_of : val -> string -> Prop :=
| ty_null : sqltype_of VNull "NULL"
| ty_int z : sqltype_of (VInt z) "INTEGER"
| ty_real x : sqltype_of (VReal x) "REAL"
| ty_text x : sqltype_of (VText x) "TEXT"
| ty_blob x : sqltype_of (VBlob x) "BLOB".
(** Values of the same Python type (of those that have an sqlite type). *)
Definition same_type (v w : val) : Prop := exists t, sqltype_of v t /\ sqltype_of w t.

(** Two letters are the same up to case. *)
Definition same_letter (a b : ascii) : Prop :=
  a = b \/ exists n, (n < 26)%nat /\ ((a = ascii_of_nat (65 + n) /\ b = ascii_of_nat (97 + n)) \/ (b = ascii_of_nat (65 + n) /\ a = ascii_of_nat (97 + n))).
Definition capital (a : ascii) : Prop := forall n, (n < 26)%nat -> a <> ascii_of_nat (97 + n).
(** [u] is the declared type [t] in capital letters, REAL standing for FLOAT. *)
Definition declared (t u : string) : Prop :=
  exists c, Forall2 same_letter (list_ascii_of_string t) (list_ascii_of_string c) /\ Forall capital (list_ascii_of_string c) /\
    ((c = "FLOAT" /\ u = "REAL") \/ (c <> "FLOAT" /\ u = c))%string.
