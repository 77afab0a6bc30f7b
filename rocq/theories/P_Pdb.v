(** C77: reading PDB files. *)
From Coq Require Import Ascii String List Arith Bool Reals Lia.
From Verif Require Import Comb Template ArrayIO Vec3 Regex RegexProofs Pdb PdbSpec PdbProofs.
Import ListNotations.
Local Open Scope nat_scope.
Local Open Scope string_scope.
Local Open Scope list_scope.
Local Notation length := List.length.

Lemma lower_small b : small_of b (lower_char b).
Proof. destruct b as [[] [] [] [] [] [] [] []]; reflexivity. Qed.
Lemma opt_map_forall2 {A B} (f : A -> option B) l r : opt_map f l = Some r <-> Forall2 (fun a b => f a = Some b) l r.
Proof.
  revert r. induction l as [|a l IH]; intros r; cbn [opt_map].
  - split; [intros [= <-]; constructor|now inversion 1].
  - destruct (f a) as [b|] eqn:E.
    + destruct (opt_map f l) as [r'|] eqn:E2.
      * split; [intros [= <-]; constructor; [exact E|now apply IH]|]. inversion 1 as [|? ? ? ? E3 F]; subst. apply IH in F. congruence.
      * split; [discriminate|]. inversion 1 as [|? ? ? ? E3 F]; subst. apply IH in F. discriminate.
    + split; [discriminate|]. inversion 1 as [|? ? ? ? E3 F]; subst. congruence.
Qed.

(** The symbols are those of the ATOM and HETATM lines, in this order. *)
Theorem C77_symbols ls : Forall good ls -> atoms ls <> [] ->
  exists symbols, get_symbols (file_text ls) = Some symbols /\ Forall2 (fun a s => symbol_of (name a) s) (atoms ls) symbols.
Proof.
  intros G NE. exists (map (fun a => fix_name (name a)) (atoms ls)). unfold get_symbols. rewrite (data_match ls G). split.
  - destruct (atoms ls) as [|a l]; [congruence|]. cbn [map]. now rewrite map_map.
  - clear. induction (atoms ls) as [|a l IH]; constructor; [|exact IH]. destruct (name a) as [|b [|b' [|]]]; try reflexivity. exists (lower_char b'). split; [apply lower_small|reflexivity].
Qed.
(** So are the coordinates, each row x, y, z. *)
Theorem C77_coords parse ls rows : Forall good ls -> atoms ls <> [] ->
  (get_coords parse (file_text ls) = Some rows <->
   Forall2 (fun a row => exists u v w, row = [u; v; w] /\ parse (x a) = Some u /\ parse (y a) = Some v /\ parse (z a) = Some w) (atoms ls) rows).
Proof.
  intros G NE. unfold get_coords. rewrite (data_match ls G).
  assert (E : match map (fun a => (name a, [x a; y a; z a])) (atoms ls) with [] => None | rows => opt_map (fun r : pstr * list pstr => opt_map parse (snd r)) rows end
    = opt_map (fun r : pstr * list pstr => opt_map parse (snd r)) (map (fun a => (name a, [x a; y a; z a])) (atoms ls))) by (destruct (atoms ls); [congruence|reflexivity]).
  rewrite E. clear E NE G. revert rows. induction (atoms ls) as [|a l IH]; intros rows.
  - cbn. split; [intros [= <-]; constructor|now inversion 1].
  - cbn [map]. rewrite opt_map_forall2. split.
    + inversion 1 as [|? row ? rs H1 H2]; subst. constructor; [|apply IH, opt_map_forall2, H2]. cbn [snd opt_map] in H1.
      destruct (parse (x a)) as [u|]; [|discriminate]. destruct (parse (y a)) as [v|]; [|discriminate]. destruct (parse (z a)) as [w|]; [|discriminate]. injection H1 as <-. now exists u, v, w.
    + inversion 1 as [|? row ? rs H1 H2]; subst. constructor; [|apply opt_map_forall2, IH, H2]. destruct H1 as (u & v & w & -> & E1 & E2 & E3). cbn [snd opt_map]. now rewrite E1, E2, E3.
Qed.
(** The cell constants are the six numbers after the first CRYST1, if at least two blanks follow the
    word. *)
Theorem C77_cryst parse pre g q l s consts : ~ occurs CRYST1 pre -> lines_before pre ->
  2 <= length g -> length l = 5 -> Forall number_fine ((g, q) :: l) -> starts_without float_char s ->
  (get_cryst_const parse (pre ++ CRYST1 ++ numbers_text ((g, q) :: l) ++ s) = Some consts <-> Forall2 (fun gx v => parse (snd gx) = Some v) ((g, q) :: l) consts).
Proof.
  intros NP LB LG LL F S.
  assert (OK : forall gx, number_fine gx -> number_ok gx) by (intros gx (N1 & G & N2 & Q); repeat split; auto using all_of).
  assert (F' : Forall number_ok ((g, q) :: l)) by (revert F; apply Forall_impl; exact OK). clear F OK.
  assert (D : exists sp b, g = sp ++ [b] /\ sp <> []).
  { destruct g as [|b sp _] using rev_ind; [cbn in LG; lia|]. exists sp, b. split; [reflexivity|]. intros ->. cbn in LG. lia. }
  destruct D as (sp & b & -> & NS). pose proof (Forall_inv F') as (_ & SP & Nq & Q). cbn [fst snd] in *. apply Forall_app in SP as [SP B].
  assert (F2 : Forall number_ok (([b], q) :: l)) by (constructor; [repeat split; [discriminate|exact B|exact Nq|exact Q]|exact (Forall_inv_tail F')]).
  destruct (cryst_match sp b q l s SP NS LL F2 (stops_of _ _ S)) as (r & E & G).
  assert (T : CRYST1 ++ numbers_text ((sp ++ [b], q) :: l) ++ s = CRYST1 ++ sp ++ numbers_text (([b], q) :: l) ++ s).
  { unfold numbers_text. cbn [flat_map fst snd]. now rewrite <- !app_assoc. }
  assert (E2 : re_search cryst_re (pre ++ CRYST1 ++ numbers_text ((sp ++ [b], q) :: l) ++ s) = Some r).
  { rewrite T. destruct LB as [-> |(t & ->)]; [now apply search_here|]. rewrite <- app_assoc. cbn [app]. rewrite cryst_skip; [now apply search_here|].
    intros (u & v & ->). apply NP. exists u, (v ++ [newline]). now rewrite <- !app_assoc. }
  unfold get_cryst_const. rewrite E2. destruct r as [rest c]. cbn [snd] in G. rewrite G, (split_numbers _ F2). cbn [map snd].
  rewrite opt_map_forall2. split.
  - inversion 1 as [|? v ? vs H1 H2]; subst. constructor; [exact H1|]. clear -H2. revert vs H2. induction l as [|gx l IH]; intros vs H; inversion H; subst; constructor; auto.
  - inversion 1 as [|? v ? vs H1 H2]; subst. constructor; [exact H1|]. clear -H2. revert vs H2. induction l as [|gx l IH]; intros vs H; inversion H; subst; constructor; auto.
Qed.
(** Without any CRYST1 the documented None is an exception. *)
Theorem C77_no_cryst_refuted parse txt : ~ occurs CRYST1 txt -> get_cryst_const parse txt = None.
Proof. intros H. unfold get_cryst_const. now rewrite cryst_none. Qed.
(** A file without atoms raises as well. *)
Theorem C77_no_atoms_refuted parse ls : Forall good ls -> atoms ls = [] -> get_symbols (file_text ls) = None /\ get_coords parse (file_text ls) = None.
Proof. intros G E. unfold get_symbols, get_coords. rewrite (data_match ls G), E. split; reflexivity. Qed.
(** A record in the columns of the format, with cell lengths of four digits before the point: one
    blank after the word, which is not enough for the pattern. *)
Theorem C77_long_cell_refuted parse : get_cryst_const parse (text "CRYST1 1052.000   58.600   61.900  90.00  90.00  90.00  P 21 21 21   8") = None.
Proof. unfold get_cryst_const. replace (re_search _ _) with (@None (pstr * caps)) by (vm_compute; reflexivity). reflexivity. Qed.
(** An atom name with a prime, as of the sugar atoms of nucleic acids: the atom is left out. *)
Theorem C77_prime_refuted :
  map fst (coords_data (text "ATOM      1  P     A A   1      11.104   6.134  -6.504" ++ [newline] ++ text "ATOM      2  C1'   A A   1      12.560   6.307  -6.780" ++ [newline]))
  = [text "P"].
Proof. vm_compute. reflexivity. Qed.
(** An x without decimal point: y, z and the occupancy are taken for the coordinates. *)
Theorem C77_integer_refuted :
  coords_data (text "ATOM      1  N   THR A   1      11   6.134  -6.504  1.00  0.00") = [(text "N", [text "6.134"; text "-6.504"; text "1.00"])].
Proof. vm_compute. reflexivity. Qed.
(** Columns that touch, as the format allows: they are taken for one number, and the fourth number,
    the occupancy, for a coordinate. *)
Theorem C77_touching_refuted :
  coords_data (text "ATOM      1  N   THR A   1    -111.104-106.134  -6.504  1.00  0.00") = [(text "N", [text "-111.104-106.134"; text "-6.504"; text "1.00"])].
Proof. vm_compute. reflexivity. Qed.

Definition N1 := Atom ATOM (text "      1  ") (text "N") (text "   THR A   1     ") " " " " (text "17") "." (text "047") (text "  ") (text "14.099") (text "   ") (text "3.625") (text "  1.00 13.79           N").
Definition AL := Atom HETATM (text "    2 ") (text "AL") (text "    AL     1     ") " " " " (text "") "-" (text "16.967") (text "  ") (text "12.784") (text "   ") (text "-4.338") (text "  1.00 10.80").
Example C77_case :
  let ls := [Other (text "HEADER    PLANT PROTEIN"); AtomLine N1; Other []; AtomLine AL; Other (text "END")] in
  Forall good ls /\ map (fun a => symbol_of (name a)) (atoms ls) = [symbol_of (text "N"); symbol_of (text "AL")] /\
  get_symbols (file_text ls) = Some [text "N"; text "Al"] /\
  coords_data (file_text ls) = [(text "N", [text "17.047"; text "14.099"; text "3.625"]); (text "AL", [text "-16.967"; text "12.784"; text "-4.338"])] /\
  number_fine (text "   ", text "52.000").
Proof.
  assert (NO : forall w t, (fix occ (s : pstr) := (is_prefix w s || match s with [] => false | _ :: s' => occ s' end)%bool) t = false -> ~ occurs w t).
  { intros w t H (u & v & ->). revert H. induction u as [|c u IH].
    - assert (E : is_prefix w (w ++ v) = true) by (clear; induction w as [|a w IH]; [destruct v; reflexivity|]; cbn; now rewrite Ascii.eqb_refl).
      cbn [app]. destruct (w ++ v); rewrite E; discriminate.
    - cbn [app]. destruct (is_prefix w (c :: u ++ w ++ v)); [discriminate|]. exact IH. }
  assert (CO : forall p s, forallb p s = true -> consists_of p s) by (intros p s H; exact (proj1 (forallb_forall p s) H)).
  assert (SW : forall p c s, p c = false -> starts_without p (c :: s)) by (intros p c s H d r [= <- <-]; exact H).
  split; [|split; [reflexivity|split; [vm_compute; reflexivity|split; [vm_compute; reflexivity|]]]].
  - repeat apply Forall_cons; try (split; apply NO; vm_compute; reflexivity); [| |constructor].
    + unfold good, regular, N1. cbn [record serial name between PdbSpec.last blank x_int x_mark x_rest gap1 y gap2 z tail].
      repeat split; try discriminate; try (apply CO; vm_compute; reflexivity); try (apply NO; vm_compute; reflexivity); try (apply SW; vm_compute; reflexivity); auto.
    + unfold good, regular, AL. cbn [record serial name between PdbSpec.last blank x_int x_mark x_rest gap1 y gap2 z tail].
      repeat split; try discriminate; try (apply CO; vm_compute; reflexivity); try (apply NO; vm_compute; reflexivity); try (apply SW; vm_compute; reflexivity); auto.
  - repeat split; try discriminate; apply CO; vm_compute; reflexivity.
Qed.

Print Assumptions C77_symbols.
Print Assumptions C77_coords.
Print Assumptions C77_cryst.
Print Assumptions C77_no_cryst_refuted.
Print Assumptions C77_no_atoms_refuted.
Print Assumptions C77_long_cell_refuted.
Print Assumptions C77_prime_refuted.
Print Assumptions C77_integer_refuted.
Print Assumptions C77_touching_refuted.
