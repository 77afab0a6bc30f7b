(** The shell tools the parsers in /repo/src/pwtools/parse.py send files through, on files
    given as lists of lines, with fixed strings as patterns: modelled from the manuals of GNU
    grep and sed. *)
From Coq Require Import Ascii String List Arith Bool.
From Verif Require Import Comb Template.
Import ListNotations.
Local Open Scope list_scope.

(** grep -c PAT *)
Definition grep_c (pat : pstr) (lines : list pstr) : nat := List.length (List.filter (contains pat) lines).
(** grep -m1 PAT *)
Definition grep_m1 (pat : pstr) (lines : list pstr) : list pstr :=
  match find (contains pat) lines with Some l => [l] | None => [] end.
(** grep -A n PAT: matching lines and the n lines after each; groups that are not adjacent are
    separated by a line "--".  [k] lines of context are still to come; [gap] tells that lines
    were left out since the last one printed, [old] that one was printed. *)
Fixpoint grep_A (n : nat) (pat : pstr) (k : nat) (old gap : bool) (lines : list pstr) : list pstr :=
  match lines with
  | [] => []
  | l :: rest =>
    if contains pat l then
      (if old && gap then [["-"; "-"]%char] else []) ++ l :: grep_A n pat n true false rest
    else match k with
         | S k' => l :: grep_A n pat k' old gap rest
         | O => grep_A n pat O old true rest
         end
  end.
Definition grep_after (n : nat) (pat : pstr) (lines : list pstr) : list pstr := grep_A n pat 0 false false lines.
(** grep -m1 -A n PAT stops after the first match and its context. *)
Fixpoint grep_m1_after (n : nat) (pat : pstr) (lines : list pstr) : list pstr :=
  match lines with
  | [] => []
  | l :: rest => if contains pat l then l :: firstn n rest else grep_m1_after n pat rest
  end.
(** egrep -v 'A|B' *)
Definition egrep_v (pats : list pstr) (lines : list pstr) : list pstr :=
  List.filter (fun l => negb (existsb (fun p => contains p l) pats)) lines.
(** sed 's/.*KEY//' on one line: .* is greedy, so everything up to the last occurrence of KEY
    goes; a line without KEY stays. *)
Fixpoint after_last (key s : pstr) : option pstr :=
  match s with
  | [] => if is_prefix key [] then Some [] else None
  | _ :: t => match after_last key t with
              | Some r => Some r
              | None => if is_prefix key s then Some (skipn (List.length key) s) else None
              end
  end.
Definition sed_drop (key s : pstr) : pstr := match after_last key s with Some r => r | None => s end.
(** sed -n '/^A/,/^B/p': from each line that starts with A to the next that starts with B *)
Fixpoint sed_range (a b : pstr) (inside : bool) (lines : list pstr) : list pstr :=
  match lines with
  | [] => []
  | l :: rest =>
    if inside then l :: sed_range a b (negb (is_prefix b l)) rest
    else if is_prefix a l then l :: sed_range a b true rest
    else sed_range a b false rest
  end.
