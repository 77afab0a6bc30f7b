(** A concrete study used to show that hypotheses of the theorems can be met. *)
From Coq Require Import Ascii String ZArith Lia.
From stdpp Require Import base gmap strings pretty list.
From Verif Require Import Comb Template TemplateSpec Sql SqlSpec Fs Batch BatchSpec.
Local Open Scope string_scope.
Local Open Scope list_scope.

Definition ex_aff (ty : string) (v : val) : val := v.
Definition ex_root : path := ["study"].
Definition ex_db : string := "calc.db".
Definition ex_fs0 : gmap path entry := {[ ([] : path) := EDir; ["t.in"] := EFile (pst "ecut=XXXECUT idx=XXXIDX") ]}.
Definition ex_templ : templ := Templ "pw.in" ["t.in"] None None xxx_func.
Definition ex_job : templ := Templ "job.sh" [] (Some (pst "run XXXCALC_NAME in XXXSCRATCH")) None xxx_func.
Definition ex_mach (h : string) : machine :=
  Mach (Some h) (Some "qsub") (Some "/scratch") (Some "/home") (Some ex_job).
Definition ex_ecut (z : Z) : pset := Leaf (auto_entry "ecut" (VInt z)).
Definition ex_ord (l : list (string * string)) : list (string * string) := remove_dups l.
Definition ex_call (w bak : bool) (params : list (list pset)) : call :=
  Call w bak 0 true [ex_mach "host0"; ex_mach "host1"] [ex_templ] params "study" "calc" "calc" ex_ord.
(** First call: two values of ecut.  Second call: one more, with a further key,
    nested, and an attempt to set idx. *)
Definition ex_call1 : call := ex_call false true [[ex_ecut 10]; [ex_ecut 20]].
Definition ex_call2 : call := ex_call false true
  [[Node [ex_ecut 30; Node [Leaf (auto_entry "alat" (VText "5.4"))]]; Leaf (auto_entry "idx" (VInt 7))]].
Definition ex_s1 : st := fst (exec (write_input ex_aff ex_root ex_db ex_call1) (St ex_fs0 None)).
Definition ex_s2 : st := fst (exec (write_input ex_aff ex_root ex_db ex_call2) (St (fs ex_s1) None)).

Lemma ex_call_ok w bak params : call_ok ex_db (ex_call w bak params).
Proof.
  constructor.
  - intros l. simpl. split; [apply NoDup_remove_dups|]. intros x. apply elem_of_remove_dups.
  - intros m Hm. simpl in Hm. apply elem_of_cons in Hm as [->|Hm]; [vm_compute; discriminate|].
    apply elem_of_list_singleton in Hm as ->. vm_compute. discriminate.
  - discriminate.
Qed.
Lemma ex_res {A} (p : st * option A) a : snd p = Some a -> p = (fst p, Some a).
Proof. destruct p. cbn. intros ->. reflexivity. Qed.
Lemma ex_ok1 : exec (write_input ex_aff ex_root ex_db ex_call1) (St ex_fs0 None) = (ex_s1, Some tt).
Proof. unfold ex_s1. apply ex_res. vm_compute. reflexivity. Qed.
Lemma ex_ok2 : exec (write_input ex_aff ex_root ex_db ex_call2) (St (fs ex_s1) None) = (ex_s2, Some tt).
Proof. unfold ex_s2. apply ex_res. vm_compute. reflexivity. Qed.
