(** read_matdyn_freq, /repo/src/pwtools/pwscf.py 430-527. float() is a parameter. *)
From Coq Require Import Ascii String List Arith ZArith Bool.
From Verif Require Import Comb ArrayIO Regex.
Import ListNotations.
Local Open Scope list_scope.
Local Open Scope nat_scope.
Local Notation length := List.length.

Definition not_nl (c : ascii) : bool := negb (Ascii.eqb c "010").
(** 503: .*\s+nbnd\s*=\s*([0-9]+)\s*,\s*nks\s*=\s*([0-9]+)\s*/ *)
Definition gaps : re := Star (Chr is_space).
Definition header_re : re :=
  Seq (Star (Chr not_nl)) (Seq (Plus (Chr is_space)) (Seq (Lit (text "nbnd")) (Seq gaps (Seq (Lit (text "=")) (Seq gaps (Seq (Group 1 (Plus (Chr digit)))
  (Seq gaps (Seq (Lit (text ",")) (Seq gaps (Seq (Lit (text "nks")) (Seq gaps (Seq (Lit (text "=")) (Seq gaps (Seq (Group 2 (Plus (Chr digit)))
  (Seq gaps (Lit (text "/"))))))))))))))))).
(** 504-507; an assertion *)
Definition read_header (line : pstr) : option (nat * nat) :=
  match re_match header_re line with
  | Some (_, c) => match group 1 c, group 2 c with
                   | Some a, Some b => match read_int a, read_int b with Some nbnd, Some nks => Some (Z.to_nat nbnd, Z.to_nat nks) | _, _ => None end
                   | _, _ => None
                   end
  | None => None
  end.
Section Read.
Context {A : Type} (float : pstr -> option A).
(** 508-518. A row of np.empty which is never assigned is None, an assignment out of range raises. *)
Definition row (items : list A) (a b : nat) : list A := firstn (b - a) (skipn a items).
Definition set_row {B} (l : list (option B)) (i : nat) (v : B) : option (list (option B)) :=
  if i <? length l then Some (firstn i l ++ Some v :: skipn (S i) l) else None.
Definition fill (items : list A) (step : nat) (ii : nat) (st : list (option (list A)) * list (option (list A))) : option (list (option (list A)) * list (option (list A))) :=
  match set_row (fst st) ii (row items (ii * step) (ii * step + 3)) with
  | Some k => match set_row (snd st) ii (row items (ii * step + 3) (ii * step + step)) with Some f => Some (k, f) | None => None end
  | None => None
  end.
Fixpoint fill_all (items : list A) (step : nat) (is : list nat) st := match is with [] => Some st | i :: is => match fill items step i st with Some st => fill_all items step is st | None => None end end.
Definition read_matdyn_freq (lines : list pstr) : option (list (option (list A)) * list (option (list A))) :=
  match lines with
  | [] => None
  | h :: rest =>
    match read_header h with
    | Some (nbnd, nks) =>
      let step := 3 + nbnd in
      match opt_map float (split_ws [] (join (text " ") rest)) with
      | Some items => fill_all items step (seq 0 (length items / step)) (repeat None nks, repeat None nks)
      | None => None
      end
    | None => None
    end
  end.
End Read.
