(** Gibbs: thermodynamic properties on a T-P grid, /repo/src/pwtools/thermo.py 252-758. Real
    arithmetic stands for floats. None is an exception. Simplified: broadcasting of arrays of
    length one is an exception; a division by zero in the scaling (584) makes nan, on which the
    fit raises: an exception; other divisions by zero are not tracked. After an exception the
    object and the dict are not described. Arrays in the result are values, not references. *)
From Coq Require Import String List Arith Bool Reals.
Import ListNotations.
Local Open Scope string_scope.
Local Open Scope list_scope.
Local Open Scope nat_scope.
Local Notation length := List.length.

(** ** Dicts of arrays *)
(** np.empty gives an array of unset cells; an index is the list of its components *)
Inductive entry := ENone | EArr (shape : list nat) (data : list nat -> option R).
Definition dict := string -> option entry.
Fixpoint in_range (shape idx : list nat) : bool :=
  match shape, idx with [], [] => true | n :: s, i :: t => (i <? n) && in_range s t | _, _ => false end.
Definition set (k : string) (e : entry) (d : dict) : dict := fun x => if String.eqb x k then Some e else d x.
Definition empty (shape : list nat) : entry := EArr shape (fun _ => None).
(** d.update(e) *)
Definition update (d e : dict) : dict := fun x => match e x with Some v => Some v | None => d x end.
Definition idx_eqb (a b : list nat) : bool := if list_eq_dec Nat.eq_dec a b then true else false.
(** d[k][idx] = v *)
Definition store (k : string) (idx : list nat) (v : R) (d : dict) : option dict :=
  match d k with
  | Some (EArr s f) => if in_range s idx then Some (set k (EArr s (fun i => if idx_eqb i idx then Some v else f i)) d) else None
  | _ => None
  end.
Definition write := (string * list nat * R)%type.
Fixpoint writes (ws : list write) (d : dict) : option dict :=
  match ws with [] => Some d | (k, idx, v) :: t => match store k idx v d with Some d' => writes t d' | None => None end end.
Fixpoint opt_map {A B} (f : A -> option B) (l : list A) : option (list B) :=
  match l with [] => Some [] | x :: t => match f x, opt_map f t with Some y, Some u => Some (y :: u) | _, _ => None end end.
(** d[k][idxs]; reading an unset cell is an exception *)
Definition get (k : string) (idx : list nat) (d : dict) : option R :=
  match d k with Some (EArr s f) => if in_range s idx then f idx else None | _ => None end.
Definition gets (k : string) (idxs : list (list nat)) (d : dict) : option (list R) := opt_map (fun i => get k i d) idxs.
(** for i in l *)
Fixpoint loop {I} (body : I -> dict -> option dict) (l : list I) (d : dict) : option dict :=
  match l with [] => Some d | i :: t => match body i d with Some d' => loop body t d' | None => None end end.
Definition row (k : string) (idxs : list (list nat)) (vs : list R) : list write := map (fun iv => (k, fst iv, snd iv)) (combine idxs vs).
(** d[k][...,:] = vs *)
Definition store_row (k : string) (idxs : list (list nat)) (vs : list R) (d : dict) : option dict :=
  if (length idxs =? length vs)%nat then writes (row k idxs vs) d else None.

(** ** Fits *)
(** a Spline-like object: the function and its derivatives, get_min() *)
Record fit1 := Fit1 { ev : nat -> R -> R; low : option R }.
Record fit2 := Fit2 { ev2 : list R -> R; low2 : option (list R) }.
Record fitfuncs := FitFuncs {
  f_1dG : list R -> list R -> option fit1; f_2dG : list (list R) -> list R -> option fit2;
  f_1dax : list R -> list R -> option fit1; f_alpha : list R -> list R -> option fit1; f_C : list R -> list R -> option fit1 }.
Inductive what := W1dG (f : list R -> list R -> option fit1) | W2dG (f : list (list R) -> list R -> option fit2)
  | W1dax (f : list R -> list R -> option fit1) | Walpha (f : list R -> list R -> option fit1) | WC (f : list R -> list R -> option fit1).

(** HarmonicThermo.fvib(), svib(), cv() of one grid point *)
Record vib := Vib { fvib : list R; svib : list R; cv : list R }.
Record gibbs := Gibbs {
  g_T : list R; g_P : list R; g_etot : list R; g_vib : list vib; g_axes : list (list R); g_nax : nat;
  g_vol : list R -> option R; g_V : list R; g_case : string; g_fitax : option (list fit1); g_fit : fitfuncs }.

Section GIBBS.
(** 1: eV_by_Ang3_to_GPa, eV, kb *)
Variables GPa eV kb : R.

(** set_fitfunc 478-492, keys other than '3d-G', which is never used *)
Definition set_fit (w : what) (f : fitfuncs) : fitfuncs :=
  match w with
  | W1dG x => FitFuncs x (f_2dG f) (f_1dax f) (f_alpha f) (f_C f)
  | W2dG x => FitFuncs (f_1dG f) x (f_1dax f) (f_alpha f) (f_C f)
  | W1dax x => FitFuncs (f_1dG f) (f_2dG f) x (f_alpha f) (f_C f)
  | Walpha x => FitFuncs (f_1dG f) (f_2dG f) (f_1dax f) x (f_C f)
  | WC x => FitFuncs (f_1dG f) (f_2dG f) (f_1dax f) (f_alpha f) x
  end.
Definition with_fit (g : gibbs) (f : fitfuncs) : gibbs := Gibbs (g_T g) (g_P g) (g_etot g) (g_vib g) (g_axes g) (g_nax g) (g_vol g) (g_V g) (g_case g) (g_fitax g) f.
Definition set_fitfunc (w : what) (g : gibbs) : gibbs := with_fit g (set_fit w (g_fit g)).

(** __init__ 426-476; [axes] is axes_flat with rows of length [nax]; volfunc_ax=None raises in 448
    unless there are no grid points, which is not modelled *)
Definition init (T P etot : list R) (phdos : list vib) (axes : list (list R)) (nax : nat) (volfunc_ax : list R -> option R) (case : option string) (defaults : fitfuncs) : option gibbs :=
  if negb ((length axes =? length phdos) && (length axes =? length etot)) then None else
  match opt_map volfunc_ax axes with
  | None => None
  | Some V =>
    let mk c := Some (Gibbs T P etot phdos axes nax volfunc_ax V (match case with Some s => s | None => c end) None defaults) in
    match nax with 1 => mk "1d" | 2 => mk "2d" | 3 => mk "3d" | _ => None end
  end.
Section G.
Variable g : gibbs.
Definition prefix : string := match g_nax g with 1 => "/ax0" | 2 => "/ax0-ax1" | _ => "/ax0-ax1-ax2" end.
Definition nT := length (g_T g).
Definition nP := length (g_P g).
Definition npoints := length (g_axes g).
Definition vec1 (l : list R) : entry := EArr [length l] (fun i => match i with [j] => nth_error l j | _ => None end).
Definition mat (n : nat) (l : list (list R)) : entry :=
  EArr [length l; n] (fun i => match i with [a; b] => match nth_error l a with Some r => nth_error r b | None => None end | _ => None end).
(** self.ret 463-468 *)
Definition g_ret : dict :=
  set (prefix ++ "/Etot") (vec1 (g_etot g)) (set (prefix ++ "/V") (vec1 (g_V g)) (set (prefix ++ prefix) (mat (g_nax g) (g_axes g))
    (set "/P/P" (vec1 (g_P g)) (set "/T/T" (vec1 (g_T g)) (fun _ => None))))).

(** _set_fitax 603-610 *)
Definition set_fitax : option gibbs :=
  match g_fitax g with
  | Some _ => Some g
  | None =>
    match opt_map (fun iax => match opt_map (fun r => nth_error r iax) (g_axes g) with Some x => f_1dax (g_fit g) (g_V g) x | None => None end) (seq 0 (g_nax g)) with
    | Some l => Some (Gibbs (g_T g) (g_P g) (g_etot g) (g_vib g) (g_axes g) (g_nax g) (g_vol g) (g_V g) (g_case g) (Some l) (g_fit g))
    | None => None
    end
  end.

Definition opt_key (prfx name : string) : string := ("/#opt" ++ prfx ++ "/" ++ name)%string.
Definition ax (i : nat) : string := match i with 0 => "ax0" | 1 => "ax1" | _ => "ax2" end.
Definition lmin (l : list R) : option R := match l with [] => None | x :: t => Some (fold_left Rmin t x) end.
Definition lmax (l : list R) : option R := match l with [] => None | x :: t => Some (fold_left Rmax t x) end.
(** _fit_opt_store 526-582: what is stored, in order *)
Definition fit_opt (gg : list R) (prfx ghsym : string) (idx : list nat) : option (list write) :=
  if String.eqb (g_case g) "1d" then
    match f_1dG (g_fit g) (g_V g) gg with
    | None => None
    | Some fit =>
      match low fit with
      | None => None
      | Some vopt =>
        match g_fitax g with
        | None => None
        | Some fitax =>
          match opt_map (fun iax => match nth_error fitax iax with Some f => Some (opt_key prfx (ax iax), idx, ev f 0 vopt) | None => None end) (seq 0 (g_nax g)) with
          | None => None
          | Some axs => Some ((opt_key prfx "V", idx, vopt) :: (opt_key prfx ghsym, idx, ev fit 0 vopt) :: axs ++ [(opt_key prfx "B", idx, vopt * ev fit 2 vopt * GPa)%R])
          end
        end
      end
    end
  else if String.eqb (g_case g) "2d" then
    if negb (g_nax g =? 2) then None else
    match lmin gg, lmax gg with
    | Some ggmin, Some ggmax =>
      if Req_EM_T ggmax ggmin then None else
      match f_2dG (g_fit g) (g_axes g) (map (fun x => (x - ggmin) / (ggmax - ggmin))%R gg) with
      | None => None
      | Some fit =>
        match low2 fit with
        | None => None
        | Some xopt =>
          match nth_error xopt 0, nth_error xopt 1, g_vol g xopt with
          | Some x0, Some x1, Some v => Some [(opt_key prfx "ax0", idx, x0); (opt_key prfx "ax1", idx, x1); (opt_key prfx ghsym, idx, (ev2 fit xopt * (ggmax - ggmin) + ggmin)%R); (opt_key prfx "V", idx, v)]
          | _, _, _ => None
          end
        end
      end
    | _, _ => None
    end
  else None.
Definition fit_opt_store (ret : dict) (gg : list R) (prfx ghsym : string) (idx : list nat) : option dict :=
  match fit_opt gg prfx ghsym idx with Some ws => writes ws ret | None => None end.
(** _set_not_calc_none 584-601 *)
Definition not_calc (prfx : string) (ret : dict) : dict :=
  match g_nax g with
  | 1 => set (opt_key prfx "ax2") ENone (set (opt_key prfx "ax1") ENone ret)
  | 2 => let r := set (opt_key prfx "ax2") ENone ret in if String.eqb (g_case g) "1d" then r else set (opt_key prfx "B") ENone r
  | _ => ret
  end.
Definition empties (keys : list string) (shape : list nat) (ret : dict) : dict := fold_left (fun d k => set k (empty shape) d) keys ret.
Definition across (pre : list nat) (n : nat) : list (list nat) := map (fun j => pre ++ [j]) (seq 0 n).

(** calc_F 612-659, after _set_fitax *)
Definition F_key : string := (prefix ++ "/T/F")%string.
Definition add (a b : list R) : list R := map (fun xy => (fst xy + snd xy)%R) (combine a b).
Definition mul (a b : list R) : list R := map (fun xy => (fst xy * snd xy)%R) (combine a b).
Definition f_body (calc_all : bool) (idx : nat) (ret : dict) : option dict :=
  match nth_error (g_vib g) idx, nth_error (g_etot g) idx with
  | Some ha, Some e =>
    let to name vs d := match d with Some d' => store_row (prefix ++ "/T/" ++ name)%string (across [idx] nT) vs d' | None => None end in
    let r := to "Fvib" (fvib ha) (to "F" (map (Rplus e) (fvib ha)) (Some ret)) in
    if calc_all then
      if negb (length (fvib ha) =? length (svib ha)) || negb (length (svib ha) =? nT) then None else
      to "Cv" (cv ha) (to "Evib" (add (fvib ha) (mul (g_T g) (svib ha))) (to "Svib" (svib ha) r))
    else r
  | _, _ => None
  end.
Definition F_names (calc_all : bool) : list string := if calc_all then ["F"; "Fvib"; "Evib"; "Svib"; "Cv"] else ["F"; "Fvib"].
Definition calc_F (calc_all : bool) : option dict :=
  match loop (f_body calc_all) (seq 0 npoints) (empties (map (fun n => prefix ++ "/T/" ++ n)%string (F_names calc_all)) [npoints; nT] (fun _ => None)) with
  | Some ret => Some (update ret g_ret)
  | None => None
  end.
(** calc_H 661-691 *)
Definition H_key : string := ("/P" ++ prefix ++ "/H")%string.
Definition shifted (f : list R) (p : R) : list R := add f (map (fun v => v * p / GPa)%R (g_V g)).
Definition h_body (pidx : nat) (ret : dict) : option dict :=
  match nth_error (g_P g) pidx with Some p => store_row H_key (across [pidx] npoints) (shifted (g_etot g) p) ret | None => None end.
Definition h_opt (pidx : nat) (ret : dict) : option dict :=
  match gets H_key (across [pidx] npoints) ret with Some gg => fit_opt_store ret gg "/P" "H" [pidx] | None => None end.
Definition calc_H (calc_all : bool) : option dict :=
  match loop h_body (seq 0 nP) (set H_key (empty [nP; npoints]) (fun _ => None)) with
  | None => None
  | Some ret =>
    match (if calc_all then loop h_opt (seq 0 nP) (empties (map (opt_key "/P") ["ax0"; "ax1"; "ax2"; "V"; "H"; "B"]) [nP] ret) else Some ret) with
    | None => None
    | Some ret => Some (update (not_calc "/P" ret) g_ret)
    end
  end.
(** calc_G 693-758; [ret] is the result of calc_F or a dict of the caller *)
Definition G_key : string := ("/T/P" ++ prefix ++ "/G")%string.
Definition down (n t : nat) : list (list nat) := map (fun i => [i; t]) (seq 0 n).
(** the number of rows of ret[.../T/F] *)
Definition rows_of (e : option entry) : nat := match e with Some (EArr [n; _] _) => n | _ => 0 end.
Definition g_body (tp : nat * nat) (ret : dict) : option dict :=
  let (tidx, pidx) := tp in
  if negb (rows_of (ret F_key) =? npoints) then None else
  match gets F_key (down npoints tidx) ret, nth_error (g_P g) pidx with
  | Some f, Some p => store_row G_key (across [tidx; pidx] npoints) (shifted f p) ret
  | _, _ => None
  end.
Definition g_opt (tp : nat * nat) (ret : dict) : option dict :=
  let (tidx, pidx) := tp in
  match gets G_key (across [tidx; pidx] npoints) ret with Some gg => fit_opt_store ret gg "/T/P" "G" [tidx; pidx] | None => None end.
Definition tp_grid : list (nat * nat) := flat_map (fun t => map (fun p => (t, p)) (seq 0 nP)) (seq 0 nT).
(** 735-748 *)
Definition alpha_names := ["ax0"; "ax1"; "ax2"; "V"].
Definition alpha_key (name : string) : string := opt_key "/T/P" ("alpha_" ++ name)%string.
Definition a_body (name : string) (pidx : nat) (ret : dict) : option dict :=
  match gets (opt_key "/T/P" name) (down nT pidx) ret with
  | None => None
  | Some x =>
    match f_alpha (g_fit g) (g_T g) x with
    | None => None
    | Some fit => store_row (alpha_key name) (down nT pidx) (map (fun tx => (ev fit 1 (fst tx) / snd tx)%R) (combine (g_T g) x)) ret
    end
  end.
Definition alpha_step (name : string) (ret : dict) : option dict :=
  match ret (opt_key "/T/P" name) with
  | Some (EArr _ _) => loop (a_body name) (seq 0 nP) ret
  | Some ENone => Some (set (alpha_key name) ENone ret)
  | None => None
  end.
(** 750-753 *)
Definition Cp_key : string := opt_key "/T/P" "Cp".
Definition c_body (pidx : nat) (ret : dict) : option dict :=
  match gets (opt_key "/T/P" "G") (down nT pidx) ret with
  | None => None
  | Some x =>
    match f_C (g_fit g) (g_T g) (map (fun y => y * eV / kb)%R x) with
    | None => None
    | Some fit => store_row Cp_key (down nT pidx) (map (fun t => (- t * ev fit 2 t)%R) (g_T g)) ret
    end
  end.
Definition bind (o : option dict) (f : dict -> option dict) : option dict := match o with Some d => f d | None => None end.
Definition calc_G (ret : option dict) (calc_all : bool) : option dict :=
  bind (match ret with Some d => Some d | None => calc_F calc_all end) (fun ret =>
  bind (loop g_body tp_grid (set G_key (empty [nT; nP; npoints]) ret)) (fun ret =>
  bind (if calc_all then
          bind (calc_H calc_all) (fun h =>
          bind (loop g_opt tp_grid (empties (map (opt_key "/T/P") ["ax0"; "ax1"; "ax2"; "V"; "G"; "B"]) [nT; nP] (update ret h))) (fun ret =>
          bind (loop alpha_step alpha_names (empties (map alpha_key alpha_names) [nT; nP] (not_calc "/T/P" ret))) (fun ret =>
          loop c_body (seq 0 nP) (set Cp_key (empty [nT; nP]) ret))))
        else Some ret) (fun ret =>
  Some (update ret g_ret)))).
End G.
(** The methods with the state of the object *)
Inductive call := CallF (calc_all : bool) | CallH (calc_all : bool) | CallG (ret : option dict) (calc_all : bool).
Definition run (c : call) (g : gibbs) : option (gibbs * dict) :=
  match set_fitax g with
  | None => None
  | Some g' =>
    match (match c with CallF b => calc_F g' b | CallH b => calc_H g' b | CallG r b => calc_G g' r b end) with Some d => Some (g', d) | None => None end
  end.
End GIBBS.
