(** Phonon modes: read_matdyn_modes, read_dyn, read_all_dyn, read_dynmat and read_dynmat_ir_raman,
    /repo/src/pwtools/pwscf.py 161-434. A file is the list of its lines. [parse] is the reading of
    one number; real arithmetic stands for floats, pairs for complex numbers. None is an
    exception (a missing file makes grep print to stderr, and backtick raises). *)
From Coq Require Import Ascii String List Arith Bool Reals ZArith.
From Verif Require Import Comb Template ArrayIO Grep Regex Lammps PwOut Cp2k.
Import ListNotations.
Local Open Scope list_scope.
Local Open Scope nat_scope.
Local Notation length := List.length.

(** ** The patterns *)
(** grep 226, 230, 240: q, then an equals sign; blanks and a bracket at the beginning; omega *)
Definition q_line : pstr -> bool := in_order [text "q"; text "="].
Definition vec_line (l : pstr) : bool := match eat_blanks l with c :: _ => Ascii.eqb c "(" | [] => false end.
Definition omega_line : pstr -> bool := contains (text "omega").
(** egrep 268: q, equals sign, bracket *)
Definition dq_line : pstr -> bool := in_order [text "q"; text "="; text "("].
Definition gap : re := Star (Chr is_space).
(** the patterns of sed in 226, 230, 240-241 and 268 *)
Definition q_re : re := Seq dots (Seq (Lit (text "q")) (Seq gap (Seq (Lit (text "=")) (Group 1 dots)))).
Definition vec_re : re := Seq gap (Seq (Lit (text "(")) (Seq (Group 1 dots) (Lit (text ")")))).
Definition omega_re : re :=
  Seq dots (Seq (Lit (text "omega")) (Seq dots (Seq (Lit (text "=")) (Seq dots (Seq (Lit (text "[")) (Seq dots (Seq (Lit (text "="))
    (Seq (Group 1 dots) (Seq gap (Seq (Lit (text "[")) dots)))))))))).
Definition dq_re : re :=
  Seq dots (Seq (Lit (text "q")) (Seq gap (Seq (Lit (text "=")) (Seq dots (Seq (Lit (text "(")) (Seq (Group 1 dots) (Lit (text ")")))))))).

Section READ.
Variable parse : pstr -> option R.
Definition cplx := (R * R)%type.
(** 234-237: columns 0-5 *)
Definition complex_row (r : list R) : option (list cplx) :=
  match r with a :: b :: c :: d :: e :: f :: _ => Some [(a, b); (c, d); (e, f)] | _ => None end.
Definition vectors (lines : list pstr) : option (list (list cplx)) :=
  match arr2d_from_txt parse (map (sed_1 vec_re) lines) with Some (Some flat) => opt_map complex_row flat | _ => None end.
(** qpoints, freqs, vecs *)
Definition frequencies (lines : list pstr) : option (list R) := fromstring parse (map (sed_1 omega_re) (List.filter omega_line lines)).
(** read_matdyn_modes 225-243 *)
Definition read_matdyn_modes (natoms : nat) (lines : list pstr) : option (list (list R) * list (list R) * list (list (list (list cplx)))) :=
  match arr2d_from_txt parse (map (sed_1 q_re) (List.filter q_line lines)) with
  | Some (Some qpoints) =>
    let nq := length qpoints in let nmodes := 3 * natoms in
    match vectors (List.filter vec_line lines) with
    | Some rows =>
      match reshape nq (nmodes * natoms) rows with
      | Some vecs =>
        match frequencies lines with
        | Some f => match reshape nq nmodes f with Some freqs => Some (qpoints, freqs, map (chunk natoms nmodes) vecs) | None => None end
        | None => None
        end
      | None => None
      end
    | None => None
    end
  | _ => None
  end.
(** read_dyn 267-286; the number of frequencies is not checked *)
Definition read_dyn (natoms : nat) (lines : list pstr) : option (list R * list R * list (list (list cplx))) :=
  match fromstring parse (map (sed_1 dq_re) (match rev (List.filter dq_line lines) with l :: _ => [l] | [] => [] end)) with
  | Some q =>
    if (length q =? 3)%nat then
      match vectors (List.filter vec_line (List.filter (fun l => negb (q_line l)) lines)) with
      | Some rows =>
        match reshape (3 * natoms) natoms rows with
        | Some vecs => match frequencies lines with Some freqs => Some (q, freqs, vecs) | None => None end
        | None => None
        end
      | None => None
      end
    else None
  | None => None
  end.
(** a[iq,...] = b for a row of [n] numbers: one number is repeated *)
Definition assign (n : nat) (l : list R) : option (list R) :=
  if (length l =? n)%nat then Some l else match l with [x] => Some (repeat x n) | _ => None end.
(** read_all_dyn 310-319: the files base1, base2, ..., here by their number *)
Fixpoint read_dyns (natoms nq iq : nat) (files : nat -> option (list pstr)) : option (list (list R) * list (list R) * list (list (list (list cplx)))) :=
  match nq with
  | O => Some ([], [], [])
  | S nq =>
    match files (iq + 1) with
    | None => None
    | Some lines =>
      match read_dyn natoms lines with
      | None => None
      | Some (qq, ff, vv) =>
        match assign (3 * natoms) ff, read_dyns natoms nq (S iq) files with
        | Some f, Some (qs, fs, vs) => Some (qq :: qs, f :: fs, vv :: vs)
        | _, _ => None
        end
      end
    end
  end.
Definition read_all_dyn (natoms nqpoints : nat) (files : nat -> option (list pstr)) := read_dyns natoms nqpoints 0 files.

(** ** dynmat.x *)
(** sed '/PRIMCO.*/{N;d;}': the line and the next one; N on the last line prints it *)
Fixpoint drop_heads (lines : list pstr) : list pstr :=
  match lines with
  | [] => []
  | l :: t => if contains (text "PRIMCO") l then match t with [] => [l] | _ :: u => drop_heads u end else l :: drop_heads t
  end.
(** read_dynmat 358-370 *)
Definition mode_table (n : nat) (out : list pstr) : list pstr :=
  List.filter (fun l => negb (contains (text "mode") l)) (grep_Af n (in_order [text "mode"; text "cm-1"]) 0 false false out).
Definition read_dynmat (natoms : nat) (out axsf : list pstr) : option (list R * list R * list (list (list R))) :=
  let nmodes := 3 * natoms in
  match fromstring parse (map (awk [5; 6; 7]) (drop_heads (grep_Af (natoms + 1) (contains (text "PRIMCO")) 0 false false axsf))) with
  | Some l =>
    match reshape nmodes (natoms * 3) l with
    | Some rows =>
      match fromstring parse (map (awk [2]) (mode_table nmodes out)) with
      | Some freqs => Some ([0; 0; 0]%R, freqs, map (chunk 3 natoms) rows)
      | None => None
      end
    | None => None
    end
  | None => None
  end.
(** read_dynmat_ir_raman 419-432; [cols] are the items of the dict; None.shape raises *)
Definition ir_raman_array (natoms : nat) (out : list pstr) : option (option (list (list R))) := arr2d_from_txt parse (mode_table (3 * natoms) out).
Definition read_dynmat_ir_raman (natoms : nat) (cols : list (nat * pstr)) (out : list pstr) : option (list (pstr * option (list R))) :=
  match ir_raman_array natoms out with
  | Some (Some arr) =>
    Some (map (fun c => (snd c, if (fst c + 1 <=? length (hd [] arr))%nat then Some (map (fun r => nth (fst c) r 0%R) arr) else None)) cols)
  | _ => None
  end.
End READ.
