(** What is to be expected from a database object: its data as if there were no transactions. *)
From stdpp Require Import base gmap strings list.
From Coq Require Import String.
From Verif Require Import Sql SqlConn.
(** the history [before ++ rest] of calls, of which [before] were finished by commit or finish *)
Definition ends_with_commit (ks : list call) : Prop := exists ks', ks = ks' ++ [Commit] \/ ks = ks' ++ [Finish].
(** calls that only write values: no new tables or columns, no commit *)
Definition only_values (k : call) : Prop := match k with Fill _ _ _ _ _ _ | Insert _ _ | SetTable _ => True | _ => False end.
(** the table a call works on, given the default table *)
Definition works_on (deflt : option string) (k : call) : option string :=
  match k with
  | Create _ tab | AddCol _ _ tab | Fill _ _ _ _ _ tab | Attach _ _ _ _ _ _ tab => match tab with Some n => Some n | None => deflt end
  | Insert _ n => Some n
  | SetTable _ | Commit | Finish => None
  end.
