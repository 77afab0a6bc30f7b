(** ExternEOS and ElkEOSFit, /repo/src/pwtools/eos.py 236-577, with try_set_attr of base.py 190-231.
    Real arithmetic stands for floats. None is an exception; an operation which raises leaves
    behind the attributes it has set before. The fitting program (what _fit has read from its files)
    and the root finders and splrep of scipy are parameters. Simplified: an attribute which is not
    there is one that is None, the numbers in the input file of eos.x are not rounded, printing is
    left out. *)
From Coq Require Import List Reals Bool Arith Ascii String.
From Verif Require Import Fit1D.
Import ListNotations.
Local Open Scope list_scope.
Local Open Scope R_scope.
Local Notation length := List.length.

Definition curve := list (R * R).
(** attributes of an object *)
Record eos := Eos {
  energy : list R; volume : list R; bv_method : string;
  ev : option curve; pv : option curve; bv : option curve;
  spl_ev : option fit; spl_pv : option fit; spl_bv : option fit }.
Definition set_data e v (s : eos) : eos := Eos e v (bv_method s) (ev s) (pv s) (bv s) (spl_ev s) (spl_pv s) (spl_bv s).
(** set_bv_method 377-385 *)
Definition set_bv_method m (s : eos) : eos := Eos (energy s) (volume s) m (ev s) (pv s) (bv s) (spl_ev s) (spl_pv s) (spl_bv s).
Definition put_fitted e p (s : eos) : eos := Eos (energy s) (volume s) (bv_method s) (Some e) (Some p) (bv s) (spl_ev s) (spl_pv s) (spl_bv s).
Definition put_bv b (s : eos) : eos := Eos (energy s) (volume s) (bv_method s) (ev s) (pv s) (Some b) (spl_ev s) (spl_pv s) (spl_bv s).
Definition put_spl_ev f (s : eos) : eos := Eos (energy s) (volume s) (bv_method s) (ev s) (pv s) (bv s) (Some f) (spl_pv s) (spl_bv s).
Definition put_spl_pv f (s : eos) : eos := Eos (energy s) (volume s) (bv_method s) (ev s) (pv s) (bv s) (spl_ev s) (Some f) (spl_bv s).
Definition put_spl_bv f (s : eos) : eos := Eos (energy s) (volume s) (bv_method s) (ev s) (pv s) (bv s) (spl_ev s) (spl_pv s) (Some f).
(** __init__ 285-327: np.diff(volume) > 0 for any pair *)
Definition init (e v : list R) (m : string) : option eos :=
  if (length e =? length v)%nat then
    if existsb (fun d => if Rlt_dec 0 d then true else false) (diff Rminus v) then Some (Eos e v m None None None None None None) else None
  else None.

(** methods: the object afterwards, and the value if nothing was raised *)
Definition meth (A : Type) := eos -> eos * option A.
Definition ret {A} (a : A) : meth A := fun s => (s, Some a).
Definition raise {A} : meth A := fun s => (s, None).
Definition bind {A B} (m : meth A) (f : A -> meth B) : meth B := fun s => match m s with (s', Some a) => f a s' | (s', None) => (s', None) end.
Definition modify (f : eos -> eos) : meth unit := fun s => (f s, Some tt).
Definition get {A} (f : eos -> option A) : meth A := fun s => (s, f s).
Local Notation "x <- m ;; k" := (bind m (fun x => k)) (at level 61, m at next level, right associativity).

Section EOS.
Variable brentq : (R -> R) -> R -> R -> option R.
Variable newton : (R -> R) -> R -> option R.
Variable splrep : list R -> list R -> option (nat -> R -> R).
(** what _fit gets from the program for the data: ev and pv *)
Variable fitter : list R -> list R -> option (curve * curve).
(** eV * 1e21 *)
Variable fac : R.
(** num.Spline(arr[:,0], arr[:,1]) *)
Definition thru (c : curve) : option fit := spline splrep (map fst c) (map snd c) (/ 10 ^ 10) true.
(** _get_spl 358-366 with try_set_attr: nothing is done for a spline which is there *)
Definition try_set (spl : eos -> option fit) (put : fit -> eos -> eos) (arr : eos -> option curve) : meth fit := fun s =>
  match spl s with
  | Some f => (s, Some f)
  | None => match arr s with None => (s, None) | Some c => match thru c with None => (s, None) | Some f => (put f s, Some f) end end
  end.
Definition try_spl_ev : meth fit := try_set spl_ev put_spl_ev ev.
Definition try_spl_pv : meth fit := try_set spl_pv put_spl_pv pv.
Definition try_spl_bv : meth fit := try_set spl_bv put_spl_bv bv.
(** calc_bv 387-401 *)
Definition calc_bv : meth curve := fun s =>
  if String.eqb (bv_method s) "pv" then
    (f <- try_spl_pv ;; c <- get pv ;; ret (map (fun v => (v, - v * at_ f 1 v)) (map fst c))) s
  else if String.eqb (bv_method s) "ev" then
    (f <- try_spl_ev ;; c <- get ev ;; ret (map (fun v => (v, v * at_ f 2 v * fac)) (map fst c))) s
  else (s, None).
(** fit 340-356 *)
Definition fit_ : meth unit := fun s =>
  match fitter (energy s) (volume s) with
  | None => (s, None)
  | Some (e, p) =>
    (_ <- modify (put_fitted e p) ;; b <- calc_bv ;; _ <- modify (put_bv b) ;;
     _ <- try_spl_ev ;; _ <- try_spl_pv ;; _ <- try_spl_bv ;; ret tt) s
  end.
(** get_min 403-448: the values v0, e0, p0, b0, and what is returned *)
Definition at_min : meth (R * R * R * R) := fun s =>
  (p <- try_spl_pv ;; e <- try_spl_ev ;; b <- try_spl_bv ;;
   v0 <- (if String.eqb (bv_method s) "pv" then get (fun _ => get_root brentq newton p None None)
          else if String.eqb (bv_method s) "ev" then get (fun _ => get_min brentq newton e None None) else raise) ;;
   ret (v0, at_ e 0 v0, at_ p 0 v0, at_ b 0 v0)) s.
Inductive minimum := Dict (_ : list (string * R)) | Array (_ : list R).
Definition get_min_ (behave : string) : meth minimum :=
  m <- at_min ;;
  let '(v0, e0, p0, b0) := m in
  if String.eqb behave "old" then ret (Array [v0; e0; p0; b0])
  else if String.eqb behave "new" then ret (Dict [("v0", v0); ("e0", e0); ("p0", p0); ("b0", b0)]%string) else raise.
(** what can be done with an object *)
Inductive action := Fit_ | GetMin (behave : string) | SetMethod (m : string) | SetData (e v : list R).
Definition act (a : action) (s : eos) : eos :=
  match a with
  | Fit_ => fst (fit_ s) | GetMin b => fst (get_min_ b s) | SetMethod m => set_bv_method m s | SetData e v => set_data e v s
  end.
Definition acts (l : list action) (s : eos) : eos := fold_left (fun s a => act a s) l s.
End EOS.

(** ElkEOSFit._fit 541-577 *)
Section ELK.
(** the units: Ang and Bohr in m, eV and Ha in J *)
Variable Ang Bohr eV Ha : R.
(** the input file of eos.x, and what it writes to EVPAI.OUT and PVPAI.OUT *)
Record elk_input := ElkIn { i_natoms : R; i_etype : nat; i_from : R; i_to : R; i_npoints : nat; i_data : curve }.
Variable eosx : elk_input -> option (curve * curve).
Definition elk_in (natoms : R) (etype npoints : nat) (energy volume : list R) : option elk_input :=
  let v := map (fun x => x * (Ang ^ 3 / Bohr ^ 3)) volume in
  let e := map (fun x => x * (eV / Ha)) energy in
  match v with [] => None | v0 :: _ => Some (ElkIn natoms etype v0 (last v 0) npoints (combine v e)) end.
Definition elk_fit (natoms : R) (etype npoints : nat) (energy volume : list R) : option (curve * curve) :=
  match elk_in natoms etype npoints energy volume with
  | None => None
  | Some i =>
    match eosx i with
    | None => None
    | Some (fitev, fitpv) =>
      Some (map (fun r => (fst r * natoms * (Bohr ^ 3 / Ang ^ 3), snd r * natoms * (Ha / eV))) fitev,
            map (fun r => (fst r * (natoms * Bohr ^ 3 / Ang ^ 3), snd r)) fitpv)
    end
  end.
(** __init__ 515-516 *)
Definition elk_init (npoints : nat) (e v : list R) (m : string) : option eos :=
  match init e v m with Some s => if (length v <=? npoints)%nat then Some s else None | None => None end.
End ELK.

(** os.path.basename; the directory 318-321 and the command 561 *)
Fixpoint basename_ (acc s : string) : string :=
  match s with
  | EmptyString => acc
  | String c t => if Ascii.eqb c "/"%char then basename_ "" t else basename_ (acc ++ String c "") t
  end.
Definition basename (s : string) : string := basename_ "" s.
Definition workdir (app : string) (dir : option string) : string := match dir with None => basename app | Some d => d end.
Definition command (app : string) (dir : option string) : string := ("cd " ++ workdir app dir ++ " && " ++ basename app)%string.
