(** Programs with effects on a file tree and a database connection, and the file
    operations of src/pwtools/common.py used by batch.py.  Definitions only. *)
From Coq Require Import Ascii String.
From stdpp Require Import base gmap strings pretty list.
From Verif Require Import Comb Template Sql.
Local Open Scope list_scope.

(** ** State
    A path is the list of its components.  A file is a text file or an sqlite
    database.  Symbolic links, permissions and time stamps are not modelled. *)
Notation path := (list string).
Notation tables := (gmap string table).
(** [q] is [p] or below it. *)
Definition under (p q : path) : Prop := exists r, q = p ++ r.
Inductive entry := EFile (txt : pstr) | EDb (tb : tables) | EDir.

(** [txn]: the tables as seen by the open connection while a transaction is
    open; [None] when there is none (then the connection sees the file). *)
Record st := St { fs : gmap path entry; txn : option tables }.

(** ** Programs
    [Do] is one effect that can be observed after a crash, [Ask] reads the
    state, [Fail] is a raised exception. *)
Inductive prog (A : Type) : Type :=
| Ret (a : A)
| Fail
| Do (f : st -> st) (k : prog A)
| Ask (k : st -> prog A).
Arguments Ret {A} a. Arguments Fail {A}. Arguments Do {A} f k. Arguments Ask {A} k.

Fixpoint bind {A B} (m : prog A) (k : A -> prog B) : prog B :=
  match m with
  | Ret a => k a
  | Fail => Fail
  | Do f m' => Do f (bind m' k)
  | Ask g => Ask (fun s => bind (g s) k)
  end.
Notation "x <- m ;; k" := (bind m (fun x => k)) (at level 100, m at next level, right associativity).
Notation "' pat <- m ;; k" := (bind m (fun x => match x with pat => k end))
  (at level 100, pat pattern, m at next level, right associativity).
Notation "m ;;; k" := (bind m (fun _ => k)) (at level 100, right associativity).

Definition do (f : st -> st) : prog unit := Do f (Ret tt).
Definition gets {A} (f : st -> A) : prog A := Ask (fun s => Ret (f s)).
Definition when (b : bool) (m : prog unit) : prog unit := if b then m else Ret tt.

(** Execution: the final state and result ... *)
Fixpoint exec {A} (m : prog A) (s : st) : st * option A :=
  match m with
  | Ret a => (s, Some a)
  | Fail => (s, None)
  | Do f k => exec k (f s)
  | Ask k => exec (k s) s
  end.
(** ... and all states in which it can be stopped, the first and last included. *)
Fixpoint stops {A} (m : prog A) (s : st) : list st :=
  match m with
  | Ret _ | Fail => [s]
  | Do f k => s :: stops k (f s)
  | Ask k => stops (k s) s
  end.

(** ** Primitive effects *)
Definition put (p : path) (e : entry) (s : st) : st := St (<[p := e]> (fs s)) (txn s).
Definition del (p : path) (s : st) : st := St (delete p (fs s)) (txn s).

(** os.path.exists, os.path.isdir *)
Definition exists_p (p : path) : prog bool := gets (fun s => bool_decide (is_Some (fs s !! p))).
Definition is_dir (s : st) (p : path) : bool :=
  match fs s !! p with Some EDir => true | _ => false end.
Definition parent (p : path) : path := removelast p.

(** open(p, 'w').write(txt): the file is first truncated (common.py:350-356). *)
Definition file_write (p : path) (txt : pstr) : prog unit :=
  Ask (fun s =>
    if is_dir s (parent p) && negb (is_dir s p)
    then Do (put p (EFile [])) (Do (put p (EFile txt)) (Ret tt))
    else Fail).

(** open(p).read() (common.py:342-347); reading a database as text is treated as
    an exception. *)
Definition file_read (p : path) : prog pstr :=
  Ask (fun s => match fs s !! p with Some (EFile t) => Ret t | _ => Fail end).

(** os.makedirs(p, exist_ok=True) (common.py:321-331): create the missing
    directories from the top. *)
Fixpoint makedirs_from (pre : path) (rest : path) : prog unit :=
  match rest with
  | [] => Ask (fun s => if is_dir s pre then Ret tt else Fail)
  | c :: rest' =>
    let p := pre ++ [c] in
    Ask (fun s =>
      match fs s !! p with
      | Some _ => makedirs_from p rest'
      | None => if is_dir s pre then Do (put p EDir) (makedirs_from p rest') else Fail
      end)
  end.
Definition makedirs (p : path) : prog unit := makedirs_from [] p.

(** Everything at and below [p], as paths relative to [p]. *)
Fixpoint strip (p q : path) : option path :=
  match p, q with
  | [], _ => Some q
  | a :: p', b :: q' => if String.eqb a b then strip p' q' else None
  | _ :: _, [] => None
  end.
Definition subtree (s : st) (p : path) : list (path * entry) :=
  omap (fun qe => match strip p (fst qe) with Some r => Some (r, snd qe) | None => None end)
       (map_to_list (fs s)).

Fixpoint run_all (l : list (prog unit)) : prog unit :=
  match l with [] => Ret tt | m :: r => m ;;; run_all r end.

(** A copied file is created empty first.  The order in which the entries of a
    directory are copied or removed is not fixed here (map order). *)
Definition put_entry (p : path) (e : entry) : prog unit :=
  match e with
  | EDir => do (put p EDir)
  | _ => do (put p (EFile [])) ;;; do (put p e)
  end.
(** shutil.copy, shutil.copytree to a destination that does not exist.  The
    model fails if anything exists at or below the destination; in a real file
    tree, where entries exist only in directories that exist, this is the same
    as the destination existing, which the caller has excluded. *)
Definition occupied (s : st) (p : path) : bool :=
  match subtree s p with [] => false | _ => true end.
Definition copy_tree (src dst : path) : prog unit :=
  Ask (fun s => if occupied s dst then Fail else
    run_all (map (fun re => put_entry (dst ++ fst re) (snd re)) (subtree s src))).
(** rm -r, shutil.rmtree *)
Definition rm_tree (p : path) : prog unit :=
  Ask (fun s => run_all (map (fun re => do (del (p ++ fst re))) (subtree s p))).

(** ** common.backup, common.py:512-543
    [src = d/name], a copy is made to d/<name><prefix><n>.  The loop of lines
    535-537 is bounded by the number of entries plus one; the model fails when
    that is exceeded (shown to be impossible). *)
Definition bak_name (name prefix : string) (n : nat) : string :=
  (name ++ prefix ++ pretty n)%string.
Fixpoint find_free (fuel : nat) (s : st) (d : path) (name prefix : string) (n : nat) : option nat :=
  match fuel with
  | O => None
  | S f => match fs s !! (d ++ [bak_name name prefix n]) with
           | None => Some n
           | Some _ => find_free f s d name prefix (S n)
           end
  end.
Definition backup (d : path) (name prefix : string) : prog unit :=
  Ask (fun s =>
    match fs s !! (d ++ [name]) with
    | None => Ret tt
    | Some _ =>
      match find_free (S (size (fs s))) s d name prefix 0 with
      | None => Fail
      | Some n => copy_tree (d ++ [name]) (d ++ [bak_name name prefix n])
      end
    end).
