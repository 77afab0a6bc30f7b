(** Property C16: template_replace in txt mode. *)
From Coq Require Import Ascii String List Arith Bool Permutation.
From Verif Require Import Comb Template TemplateSpec TemplateProofs.
Import ListNotations.

(** The dict with its values converted to text. *)
Theorem C16_template_replace_substitutes conv txt (dct : list (pstr * rval)) :
  let rules := map (fun kv => (fst kv, frepr (snd kv))) dct in
  dict_ok rules -> keys_disjoint rules txt -> keys_separated rules txt -> values_clean rules ->
  (conv = true \/ forall k r, In (k, ROther r) dct -> ~ occurs_in k txt) ->
  exists out, template_replace conv txt dct = Some out /\ substituted rules txt out
    /\ forall out', substituted rules txt out' -> out' = out.
Proof. exact (template_replace_unique conv txt dct). Qed.
Print Assumptions C16_template_replace_substitutes.

Theorem C16_template_replace_order_irrelevant conv txt (dct dct' : list (pstr * rval)) :
  let rules := map (fun kv => (fst kv, frepr (snd kv))) dct in
  dict_ok rules -> keys_disjoint rules txt -> keys_separated rules txt -> values_clean rules ->
  (conv = true \/ forall k r, In (k, ROther r) dct -> ~ occurs_in k txt) ->
  Permutation dct dct' ->
  template_replace conv txt dct' = template_replace conv txt dct.
Proof. exact (template_replace_order conv txt dct dct'). Qed.
Print Assumptions C16_template_replace_order_irrelevant.

Theorem C16_template_replace_raises conv txt d :
  template_replace conv txt d = None <->
  conv = false /\ exists k r, In (k, ROther r) d /\ occurs_in k txt.
Proof. exact (template_replace_raises conv txt d). Qed.
Print Assumptions C16_template_replace_raises.

Theorem C16_no_placeholder_no_change conv txt d :
  (forall k v, In (k, v) d -> ~ occurs_in k txt) -> template_replace conv txt d = Some txt.
Proof. exact (template_replace_absent conv txt d). Qed.
Print Assumptions C16_no_placeholder_no_change.

Theorem C16_file_template_replace conv fs fn dct bak fs' :
  file_template_replace conv fs fn dct bak = inr fs' ->
  exists old new, fs fn = Some old /\ template_replace conv old dct = Some new /\
    fs' fn = Some new /\ (bak <> [] -> fs' (fn ++ bak) = Some old) /\
    (forall n, n <> fn -> n <> fn ++ bak -> fs' n = fs n).
Proof. exact (file_template_replace_ok conv fs fn dct bak fs'). Qed.
Print Assumptions C16_file_template_replace.

Theorem C16_file_template_replace_failure conv fs fn dct bak fs' :
  file_template_replace conv fs fn dct bak = inl fs' -> fs' = fs.
Proof. exact (file_template_replace_fail conv fs fn dct bak fs'). Qed.
Print Assumptions C16_file_template_replace_failure.

Definition S_ (s : string) : pstr := list_ascii_of_string s.

(** Without the conditions: the result depends on the order of the dict ... *)
Theorem C16_order_matters_refuted :
  exists txt d1 d2, Permutation d1 d2 /\ dict_ok (map (fun kv => (fst kv, frepr (snd kv))) d1)
    /\ template_replace false txt d1 <> template_replace false txt d2.
Proof.
  exists (S_ "XXXNAME"), [(S_ "XXXN", RStr (S_ "1")); (S_ "XXXNAME", RStr (S_ "a"))],
    [(S_ "XXXNAME", RStr (S_ "a")); (S_ "XXXN", RStr (S_ "1"))].
  split; [constructor|]. split; [|vm_compute; discriminate].
  split; [|repeat constructor; discriminate].
  repeat constructor; simpl; intuition discriminate.
Qed.
Print Assumptions C16_order_matters_refuted.

(** ... and inserted text is replaced again (if the text already contained the
    placeholder elsewhere: a placeholder that occurs only in a value is left). *)
Theorem C16_reinsertion_refuted :
  exists txt d out, dict_ok (map (fun kv => (fst kv, frepr (snd kv))) d)
    /\ keys_disjoint (map (fun kv => (fst kv, frepr (snd kv))) d) txt
    /\ template_replace false txt d = Some out
    /\ ~ substituted (map (fun kv => (fst kv, frepr (snd kv))) d) txt out.
Proof.
  exists (S_ "AB"), [(S_ "A", RStr (S_ "B")); (S_ "B", RStr (S_ "C"))], (S_ "CC").
  split; [apply check_dict_sound; reflexivity|].
  split; [apply check_disjoint_sound; reflexivity|]. split; [reflexivity|].
  intros H.
  assert (HB : substituted (map (fun kv => (fst kv, frepr (snd kv)))
            [(S_ "A", RStr (S_ "B")); (S_ "B", RStr (S_ "C"))]) (S_ "AB") (S_ "BC")).
  { apply (sub_key _ (S_ "A") (S_ "B") (S_ "B") (S_ "C")); [now left|discriminate|].
    apply (sub_key _ (S_ "B") (S_ "C") [] []); [right; now left|discriminate|constructor]. }
  assert (E : S_ "CC" = S_ "BC").
  { eapply substituted_fun; [| |exact H|exact HB].
    - apply check_dict_sound; reflexivity.
    - apply check_disjoint_sound; reflexivity. }
  discriminate.
Qed.
Print Assumptions C16_reinsertion_refuted.

(** a case that meets the conditions of the first two theorems *)
Example C16_case :
  let txt := S_ "a=XXXA, b=XXXB, XXXA" in
  let d := [(S_ "XXXA", RStr (S_ "1.5")); (S_ "XXXB", ROther (S_ "None"))] in
  let rules := map (fun kv => (fst kv, frepr (snd kv))) d in
  dict_ok rules /\ keys_disjoint rules txt /\ keys_separated rules txt /\ values_clean rules
  /\ template_replace true txt d = Some (S_ "a=1.5, b=None, 1.5").
Proof.
  split; [apply check_dict_sound; reflexivity|].
  split; [apply check_disjoint_sound; reflexivity|].
  split; [apply check_separated_sound; reflexivity|].
  split; [apply check_clean_sound; reflexivity|]. reflexivity.
Qed.
