(** Which factor belongs to which quantity: crys.py:2127-2142, in words
    "length: cell, coords and the first three of cryst_const; energy: etot and
    ekin; ...". *)
From Coq Require Import List String Arith.
From Verif Require Import Getters Units.
Import ListNotations.
Open Scope string_scope.

Section Spec.
Context {num : Type}.
Variable mul : num -> num -> num.
Definition unit_of (a : string) : option string :=
  if existsb (String.eqb a) ["cell"; "coords"; "abc"] then Some "length" else
  if existsb (String.eqb a) ["etot"; "ekin"] then Some "energy" else
  if existsb (String.eqb a) ["stress"; "forces"; "temperature"; "velocity"] then Some a else
  if String.eqb a "timestep" then Some "time" else None.
(** The quantity in the units of the object. *)
Definition converted (units : string -> num) (a : string) (q : quantity num) : quantity num :=
  if String.eqb a "cryst_const"
  then map (fun row => match row with
                       | x :: y :: z :: angles => mul x (units "length") :: mul y (units "length") :: mul z (units "length") :: angles
                       | _ => map (fun x => mul x (units "length")) row
                       end) q
  else match unit_of a with
       | Some u => map (map (fun x => mul x (units u))) q
       | None => q
       end.
(** The same rows, or one row repeated. *)
Definition repeated (q q' : quantity num) : Prop := q' = q \/ exists row n, q = [row] /\ q' = repeat row n.
End Spec.
