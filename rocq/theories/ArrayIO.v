(** Model of writetxt and readtxt, /repo/src/pwtools/arrayio.py, with the parts of
    numpy.savetxt, numpy.loadtxt and configparser they use.  A file is the list of its lines,
    without the line ends.  numpy and configparser are modelled from their documentation. *)
From Coq Require Import Ascii String List ZArith Bool Arith DecimalString.
From Verif Require Import Comb Traj Nd.
Import ListNotations.
Local Open Scope list_scope.
Local Open Scope nat_scope.
Local Notation length := List.length.

Definition text (s : string) : pstr := list_ascii_of_string s.
Definition hash : ascii := "#"%char.

(** str.strip() *)
Fixpoint lstrip (s : pstr) : pstr := match s with c :: r => if is_space c then lstrip r else s | [] => [] end.
Definition strip (s : pstr) : pstr := rev (lstrip (rev (lstrip s))).
Definition commented (s : pstr) : bool := match s with c :: _ => Ascii.eqb c hash | [] => false end.   (* startswith('#') *)

(** str(int) and int(str).  Simplified: int() also takes "+1" and "1_0". *)
Definition show_int (z : Z) : pstr := text (NilZero.string_of_int (Z.to_int z)).
Definition read_int (s : pstr) : option Z :=
  match NilZero.int_of_string (string_of_list_ascii s) with Some d => Some (Z.of_int d) | None => None end.
Fixpoint opt_map {A B} (f : A -> option B) (l : list A) : option (list B) :=
  match l with
  | [] => Some []
  | x :: l => match f x, opt_map f l with Some y, Some r => Some (y :: r) | _, _ => None end
  end.

(** ** The header *)
Definition maxlines : nat := 20.
(** 117-122, _write_header_config 71-89: the lines of ConfigParser.write, commented out *)
Definition header_lines (sh : list nat) (axis : Z) : list pstr :=
  [text "# [array]"; text "# shape = " ++ seq2str (map (fun n => show_int (Z.of_nat n)) sh) (text " ");
   text "# axis = " ++ show_int axis; text "# "].

(** ConfigParser.read_file on lines that have been stripped; strict: a section or an option that
    occurs twice is an error.  Interpolation ("%" in values) is not modelled. *)
Fixpoint cut_at (p : ascii -> bool) (s : pstr) : option (pstr * pstr) :=
  match s with
  | [] => None
  | c :: r => if p c then Some ([], r) else match cut_at p r with Some (a, b) => Some (c :: a, b) | None => None end
  end.
Definition delim (c : ascii) : bool := Ascii.eqb c "="%char || Ascii.eqb c ":"%char.
Definition pstr_eqb (a b : pstr) : bool := if list_eq_dec ascii_dec a b then true else false.
Definition lower_char (c : ascii) : ascii :=
  let n := nat_of_ascii c in if (65 <=? n) && (n <=? 90) then ascii_of_nat (n + 32) else c.
Definition in_section (sec : pstr) (e : pstr * option (pstr * pstr)) : bool := pstr_eqb (fst e) sec.
Definition has_option (sec key : pstr) (e : pstr * option (pstr * pstr)) : bool :=
  in_section sec e && match snd e with Some (k, _) => pstr_eqb k key | None => false end.
(** entries: (section, None) for a section, (section, Some (key, value)) for an option *)
Fixpoint config_loop (lines : list pstr) (sec : option pstr) (acc : list (pstr * option (pstr * pstr)))
  : option (list (pstr * option (pstr * pstr))) :=
  match lines with
  | [] => Some acc
  | [] :: rest => config_loop rest sec acc
  | ((c :: r) as line) :: rest =>
    if Ascii.eqb c hash || Ascii.eqb c ";"%char then config_loop rest sec acc
    else if Ascii.eqb c "["%char then
      match cut_at (fun d => Ascii.eqb d "]"%char) r with
      | Some ((_ :: _) as name, _) =>
        if existsb (in_section name) acc then None else config_loop rest (Some name) (acc ++ [(name, None)])
      | _ => None
      end
    else match sec, cut_at delim line with
         | Some s, Some (k, v) =>
           let key := map lower_char (strip k) in
           match key with
           | [] => None
           | _ => if existsb (has_option s key) acc then None else config_loop rest sec (acc ++ [(s, Some (key, strip v))])
           end
         | _, _ => None
         end
  end.
(** config.get(sec, key) *)
Definition config_get (cfg : list (pstr * option (pstr * pstr))) (sec key : pstr) : option pstr :=
  match find (has_option sec key) cfg with Some (_, Some (_, v)) => Some v | _ => None end.

(** 17-66 *)
Definition read_header (lines : list pstr) : option (list (pstr * option (pstr * pstr))) :=
  let top := map strip (firstn maxlines lines) in
  if match nth_error lines maxlines with Some l => commented (strip l) | None => false end then None
  else config_loop (map (fun l => strip (List.filter (fun c => negb (Ascii.eqb c hash)) l)) (List.filter commented top)) None [].

Section Text.
Context {A : Type}.
(** The text of a number (savetxt: "%.18e") and its value (loadtxt: float()) *)
Variables (fmt : A -> pstr) (parse : pstr -> option A).
(** what np.empty leaves in the memory *)
Variable junk : list nat -> A.

(** numpy.savetxt for one- and two-dimensional arrays *)
Definition savetxt (a : arr A) : option (list pstr) :=
  match shape a with
  | [n] => Some (map (fun i => fmt (at_ a [i])) (seq 0 n))
  | [r; c] => Some (map (fun i => join (text " ") (map (fun j => fmt (at_ a [i; j])) (seq 0 c))) (seq 0 r))
  | _ => None
  end.
(** 94-131 with maxdim=3; None is an exception (which leaves a file with fewer lines) *)
Definition writetxt (a : arr A) (axis : Z) (header : bool) : option (list pstr) :=
  let head := if header then header_lines (shape a) axis else [] in
  match length (shape a) with
  | 0 | 1 | 2 => match savetxt a with Some l => Some (head ++ l) | None => None end
  | 3 =>
    match norm_axis axis 3 with
    | None => None                                                            (* arr.shape[axis] *)
    | Some k =>
      match opt_map (fun ind => match slicetake a (IInt (Z.of_nat ind)) axis with Some c => savetxt c | None => None end)
                    (seq 0 (nth k (shape a) 0)) with
      | Some chunks => Some (head ++ concat chunks)
      | None => None
      end
    end
  | _ => None
  end.

(** numpy.loadtxt: text behind "#" and empty lines are ignored, all rows must have the same
    number of items, axes of length 1 are removed *)
Definition uncomment (l : pstr) : pstr := match cut_at (Ascii.eqb hash) l with Some (a, _) => a | None => l end.
Definition squeeze2 (r c : nat) (f : nat -> nat -> A) : arr A :=
  match r, c with
  | 1, 1 => Array [] (fun _ => f 0 0)
  | 1, _ => Array [c] (fun i => f 0 (nth 0 i 0))
  | _, 1 => Array [r] (fun i => f (nth 0 i 0) 0)
  | _, _ => Array [r; c] (fun i => f (nth 0 i 0) (nth 1 i 0))
  end.
Definition loadtxt (lines : list pstr) : option (arr A) :=
  let rows := List.filter (fun l => match l with [] => false | _ => true end) (map (fun l => split_ws [] (uncomment l)) lines) in
  match opt_map (opt_map parse) rows with
  | None => None
  | Some [] => Some (Array [0] junk)
  | Some ((((x :: _) as r0) :: _) as rs) =>
    if forallb (fun r => length r =? length r0) rs
    then Some (squeeze2 (length rs) (length r0) (fun i j => nth j (nth i rs []) x)) else None
  | Some _ => None
  end.

(** 208-246 *)
Definition arr2d_to_3d (a : arr A) (sh : list Z) (axis : Z) : option (arr A) :=
  match shape a with
  | [r; c] =>
    if negb (length sh =? 3) then None else
    match slice_list (Slice None (Some axis) None) sh, slice_list (Slice (Some (axis + 1)%Z) None None) sh, item_list axis sh with
    | Some before, Some behind, Some n =>
      match before ++ behind with
      | c0 :: c1 :: _ =>
        if ((Z.of_nat r =? c0 * n) && (Z.of_nat c =? c1))%Z then
          if existsb (fun z => (z <? 0)%Z) sh then None                        (* np.empty *)
          else
            fold_left (fun (acc : option (arr A)) ind =>
              match acc, set_item (repeat full 3) axis (IInt (Z.of_nat ind)),
                    getitem a [ISlice (Slice (Some (Z.of_nat ind * c0)%Z) (Some ((Z.of_nat ind + 1) * c0)%Z) None); full] with
              | Some arr3d, Some sl, Some chunk => setitem arr3d sl (at_ chunk)
              | _, _, _ => None
              end) (seq 0 (Z.to_nat n)) (Some (Array (map Z.to_nat sh) junk))
        else None
      | _ => None
      end
    | _, _, _ => None
    end
  | _ => None
  end.

(** 134-205; [axis] and [shape] are the arguments *)
Definition readtxt (lines : list pstr) (axis : option Z) (sh : option (list Z)) : option (arr A) :=
  let info :=
    match axis, sh with
    | Some z, Some s => Some (z, s)
    | _, _ =>
      match read_header lines with
      | None => None
      | Some cfg =>
        match (match sh with Some s => Some s
               | None => match config_get cfg (text "array") (text "shape") with
                         | Some v => opt_map read_int (split_ws [] v) | None => None end end),
              (match axis with Some z => Some z
               | None => match config_get cfg (text "array") (text "axis") with Some v => read_int (strip v) | None => None end end) with
        | Some s, Some z => Some (z, s)
        | _, _ => None
        end
      end
    end in
  match info with
  | None => None
  | Some (z, s) =>
    let ndim := length s in
    if 3 <? ndim then None else
    let z := if (z =? -1)%Z then (Z.of_nat ndim - 1)%Z else z in
    let data := List.filter (fun l => negb (commented l) && match l with [] => false | _ => true end) (map strip (firstn maxlines lines)) in
    match data with
    | [] => Some (Array [0] junk)                                              (* np.array([]) *)
    | _ => match loadtxt lines with
           | None => None
           | Some a => if ndim <=? 2 then Some a else arr2d_to_3d a s z
           end
    end
  end.
End Text.
