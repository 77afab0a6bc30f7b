(** Model of decorators.lazyprop (src/pwtools/decorators.py 98-114) and of the EosFit object that uses it
    (src/pwtools/eos.py 142-202) over a history of attribute assignments, fits and calls. *)
From Coq Require Import Reals List Arith.
From Verif Require Import Eos.
Import ListNotations.

(** ** lazyprop: a property that is replaced by its value; [St] is the rest of the object, [get] the decorated
    method (None is an exception), [evals] counts its calls *)
Section Lazy.
Context {St V : Type}.
Variable get : St -> option V.
Record lobj := LObj { rest : St; cache : option V; evals : nat }.
(** assignments to other attributes, obj.name, obj.name = v, del obj.name *)
Inductive lop := LChange (f : St -> St) | LGet | LSet (v : V) | LDel.
Inductive lout := Got (v : V) | Done | Raised.
(** 109-114: __get__ is called only if the instance has no attribute of this name (there is no __set__) *)
Definition lstep (o : lobj) (p : lop) : lout * lobj :=
  match p with
  | LChange f => (Done, LObj (f (rest o)) (cache o) (evals o))
  | LGet => match cache o with
            | Some v => (Got v, o)
            | None => match get (rest o) with
                      | Some v => (Got v, LObj (rest o) (Some v) (S (evals o)))
                      | None => (Raised, LObj (rest o) None (S (evals o)))
                      end
            end
  | LSet v => (Done, LObj (rest o) (Some v) (evals o))
  | LDel => match cache o with Some _ => (Done, LObj (rest o) None (evals o)) | None => (Raised, o) end
  end.
Fixpoint lrun (ps : list lop) (o : lobj) : list lout * lobj :=
  match ps with
  | [] => ([], o)
  | p :: ps' => let (r, o1) := lstep o p in let (rs, o2) := lrun ps' o1 in (r :: rs, o2)
  end.
End Lazy.
Arguments lobj : clear implicits. Arguments lop : clear implicits. Arguments lout : clear implicits.

(** ** EosFit *)
Section EosFit.
Local Open Scope R_scope.
Variable polyfit2 : list R -> list R -> R * R * R.
Variable leastsq : (list R -> option (list R)) -> list R -> list R.
(** num.Spline(vv, y, k=5, s=None): value of the derivative of some order, None: exception *)
Variable spline : list R -> list R -> option (R -> nat -> R).
(** np.linspace *)
Definition grid (a b : R) (n : nat) : list R := map (fun i => a + INR i * ((b - a) / INR (n - 1))) (seq 0 n).
Record attrs := Attrs { volume : list R; energy : list R; points : nat; par : params }.
(** 161-167 *)
Definition get_spl (s : attrs) : option (R -> nat -> R) :=
  let vv := grid (vmin (volume s)) (vmax (volume s)) (points s) in spline vv (map (fun v => vinet v (par s)) vv).
Definition eobj := lobj attrs (R -> nat -> R).
(** 142-159: the constructor fits *)
Definition fresh (v e : list R) (n : nat) : option eobj := option_map (fun p => LObj (Attrs v e n p) None 0) (fit polyfit2 leastsq v e).
Inductive eop := EVolume (v : list R) | EEnergy (e : list R) | EPoints (n : nat) | EParams (p : params) | EFit | ECall (V : R) (der : nat).
Definition change (o : eobj) (f : attrs -> attrs) : eobj := snd (lstep get_spl o (LChange f)).
Definition estep (o : eobj) (p : eop) : lout R * eobj :=
  match p with
  | EVolume v => (Done, change o (fun s => Attrs v (energy s) (points s) (par s)))
  | EEnergy e => (Done, change o (fun s => Attrs (volume s) e (points s) (par s)))
  | EPoints n => (Done, change o (fun s => Attrs (volume s) (energy s) n (par s)))
  | EParams q => (Done, change o (fun s => Attrs (volume s) (energy s) (points s) q))
  | EFit => match fit polyfit2 leastsq (volume (rest o)) (energy (rest o)) with                     (* 169-188 *)
            | Some q => (Done, change o (fun s => Attrs (volume s) (energy s) (points s) q))
            | None => (Raised, o)
            end
  | ECall V der => match vinet_call V (par (rest o)) der with                                      (* 190-202 *)
                   | Some y => (Got y, o)
                   | None => match lstep get_spl o LGet with (Got s, o') => (Got (s V der), o') | (_, o') => (Raised, o') end
                   end
  end.
Fixpoint erun (ps : list eop) (o : eobj) : list (lout R) * eobj :=
  match ps with
  | [] => ([], o)
  | p :: ps' => let (r, o1) := estep o p in let (rs, o2) := erun ps' o1 in (r :: rs, o2)
  end.
End EosFit.
