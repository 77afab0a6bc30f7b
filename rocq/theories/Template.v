(** Model of common.template_replace in txt mode (src/pwtools/common.py:380-481),
    common.frepr (193-222) and common.file_template_replace (484-509).
    Definitions only. *)
From Coq Require Import Ascii List Arith Bool.
From Verif Require Import Comb.
Import ListNotations.

(** A dict value as far as common.py:452-458 looks at it: a string, or something
    else of which only the text produced by frepr (common.py:217-222, "%.16e" for
    floats, repr() otherwise) matters. *)
Inductive rval := RStr (s : pstr) | ROther (repr : pstr).

(** common.py:193-222 *)
Definition frepr (v : rval) : pstr :=
  match v with RStr s => s | ROther r => r end.

(** [key in txt], common.py:451 *)
Fixpoint contains (key txt : pstr) : bool :=
  is_prefix key txt || match txt with [] => false | _ :: t => contains key t end.

(** str.replace(key, val) for a non-empty key: scan from the left, continue
    behind each replaced occurrence. *)
Fixpoint replace_aux (fuel : nat) (key val s : pstr) : pstr :=
  match fuel with
  | O => s
  | S f => match s with
           | [] => []
           | c :: s' => if is_prefix key s
                        then val ++ replace_aux f key val (skipn (length key) s)
                        else c :: replace_aux f key val s'
           end
  end.

(** str.replace(key, val); an empty key matches between all characters. *)
Definition replace (key val s : pstr) : pstr :=
  match key with
  | [] => flat_map (fun c => val ++ [c]) s ++ val
  | _ => replace_aux (length s) key val s
  end.

(** common.py:441-478, txt mode: one step per item of the dict, in dict order.
    The membership test looks at the original text (line 451), the replacement
    works on the current one (line 466).  [None] is the exception of lines 456-458.
    The printed warnings are left out. *)
Fixpoint template_loop (conv : bool) (txt : pstr) (dct : list (pstr * rval)) (new_txt : pstr)
  : option pstr :=
  match dct with
  | [] => Some new_txt
  | (key, v) :: rest =>
    if contains key txt then
      match v, conv with
      | ROther _, false => None
      | _, _ => template_loop conv txt rest (replace key (frepr v) new_txt)
      end
    else template_loop conv txt rest new_txt
  end.

Definition template_replace (conv : bool) (txt : pstr) (dct : list (pstr * rval)) : option pstr :=
  template_loop conv txt dct txt.

(** file_template_replace, common.py:484-509, on a file system given as a
    function from names to contents: the result of template_replace is computed
    first (an exception leaves everything as it was), then the optional copy,
    then the file itself is overwritten.  [inl] is a raised exception together
    with the unchanged files. *)
Definition files := pstr -> option pstr.
Definition fupd (fs : files) (n c : pstr) : files :=
  fun m => if list_eq_dec ascii_dec m n then Some c else fs m.
Definition file_template_replace (conv : bool) (fs : files) (fn : pstr)
  (dct : list (pstr * rval)) (bak : pstr) : files + files :=
  match fs fn with
  | None => inl fs
  | Some old =>
    match template_replace conv old dct with
    | None => inl fs
    | Some new => inr (fupd (match bak with [] => fs | _ => fupd fs (fn ++ bak) old end) fn new)
    end
  end.
