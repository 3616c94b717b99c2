(** C60 for modules with functions. *)
From Verif Require Import Base PyAst Gql Config Stylers Registry Utils Documents Recurse Referencer Enums Inputs Inline Print Fragments Operations Funcs Run
  Spec_Types Spec_Inputs Spec_Refs Spec_Imports Spec_Scope Spec_Docs Spec_Inline Spec_Valid Spec_ValidDoc Spec_Scope2
  P_Base P_InputProps P_Print P_Total4 P_Total8 P_Scope8 P_Scope9 P_Scope10 Ex_Select Prop_Inline Prop_Total Prop_TotalDoc Prop_TotalFuncs Prop_Scope Prop_Scope2.

(** C60, with the function plugin.  Running a definition of a function looks up its annotations and its defaults;
    the names of its body are not looked up.  The additional conditions rule out the refutations below. *)
Theorem C60_functions_partial : forall bi c st ec ic fc oc pc s d print_fragment print_operation add doc_of doc_of',
  incl simple_types bi ->
  (forall n x, dget n (r_scalars (init_reg c)) = Some x -> has_dot x = false -> In x bi) ->
  c_force_plugin_order c = true -> NoDup (dkeys (s_types s)) ->
  inputs_available (ic_skip_underscore ic) (skipping c (ic_skip_unreferenced ic)) s (Ok d) ->
  valid_document s d ->
  (forall fr n, In fr (fragments_of d) -> spread_in True (fr_sels fr) n -> spread_in False (fr_sels fr) n) ->
  enums_available (ec_skip_underscore ec) (ec_skip_double_underscore ec) (skipping c (ec_skip_unreferenced ec)) s d ->
  ~ Spec_Refs.is_enum s "String" ->
  unions_plain s d -> members_named s d (style_fragment_class st) ->
  (o_create_arguments oc = true \/ f_definitions pc <> [] -> variables_plain d) ->
  (c_create_catchall c = false \/ (o_create_arguments oc = true /\ optional_variable d) -> imports_field s d) ->
  incl (c_object_bases c) (ic_bases ic) \/ (exists fr, In (DFrag fr) d /\ object_type s (fr_on fr)) \/ (exists o, In (DOp o) d /\ kind_bases oc o = []) ->
  (* no class has the name the generator uses when it cannot say which class refers to another *)
  (forall n, Spec_Refs.is_input s n -> style_inputtype_class st n <> "SHOULD_NOT_BE_USED") ->
  (* the configured coercible inputs are input types *)
  (forall n, variable_type d n -> In n (dkeys (c_coercible_inputs c)) \/ In n (dkeys (f_coercible_inputs pc)) -> Spec_Refs.is_input s n) ->
  (f_expand_input_types pc <> [] -> fields_plain s) ->
  (* the configured keyword arguments have defaults *)
  (forall k, In k (f_global_kwargs pc) \/ (exists def, In def (f_definitions pc) /\ In k (d_kwargs def)) -> fk_default k <> CNone) ->
  forall iter a b e f g t, set_order iter ->
  generate_ast c iter [Plugin a (enums_plugin c st ec s (Ok d)); Plugin b (inputs_plugin c st ic s (Ok d));
    Plugin e (fragments_plugin c st s fc print_fragment add d); Plugin f (operations_plugin c st s oc print_operation add doc_of d);
    Plugin g (funcs_plugin c st s pc doc_of' d)] false = Ok t ->
  scoped (fun n => In n bi) t.
Proof. exact client_functions_scope. Qed.
Print Assumptions C60_functions_partial.
(** the document of C54's example: two operations with functions of two kinds each, one of them expands an input *)
Lemma func_run_eq : forall c s pc d, func_run c s pc d =
  generate_ast c (fun l => l) [Plugin "EnumsPlugin" (enums_plugin c sst default_enums_config s (Ok d)); Plugin "InputsPlugin" (inputs_plugin c sst default_inputs_config s (Ok d));
    Plugin "FragmentsPlugin" (fragments_plugin c sst s (FrCfg [] [] None true true) (print_fragment no_strings) (add_for d) d);
    Plugin "OperationsPlugin" (operations_plugin c sst s sx_pc (print_operation no_strings) (add_for d) (fun _ => None) d);
    Plugin "FuncsPlugin" (funcs_plugin c sst s pc (fun _ => None) d)] false.
Proof. reflexivity. Qed.
Definition function_names (t : list stmt) : list string := flat_map (fun x => match x with SFunc _ n _ _ _ _ => [n] | _ => [] end) t.
Lemma vf_flat : flat_document vf_doc.
Proof.
  split.
  - intros o H. by_elem H; try discriminate H; injection H as <-; (split; [flatten|]; intros x Hx; by_elem Hx; subst x; cbn; tauto).
  - intros f H. by_elem H; try discriminate H; injection H as <-; flatten.
Qed.
Example C60_functions_ex : incl simple_types py_builtins /\ NoDup (dkeys (s_types vf))
  /\ inputs_available true (skipping (with_documents true) true) vf (Ok vf_doc) /\ valid_document vf vf_doc
  /\ (forall fr n, In fr (fragments_of vf_doc) -> spread_in True (fr_sels fr) n -> spread_in False (fr_sels fr) n)
  /\ enums_available false true (skipping (with_documents true) true) vf vf_doc /\ ~ Spec_Refs.is_enum vf "String"
  /\ unions_plain vf vf_doc /\ members_named vf vf_doc (style_fragment_class sst) /\ variables_plain vf_doc /\ imports_field vf vf_doc
  /\ (forall n, Spec_Refs.is_input vf n -> style_inputtype_class sst n <> "SHOULD_NOT_BE_USED") /\ fields_plain vf
  /\ exists t, func_run (with_documents true) vf (vf_pc true ["by"]) vf_doc = Ok t
     /\ function_names t = ["get_me"; "aget_me"; "colors"; "acolors"; "put"]
     /\ scoped (fun n => In n py_builtins) t.
Proof.
  split; [apply incl_appl, incl_refl|]. split; [apply nodupb_NoDup; reflexivity|].
  assert (IA : inputs_available true (skipping (with_documents true) true) vf (Ok vf_doc)).
  { split.
    - intros _ n (d & f & di & H). apply dget_Some_In in H.
      repeat (destruct H as [H|H]; [try discriminate H; injection H as <- _ _ _; reflexivity|]). contradiction.
    - intros _ d [= <-]. split; [split; repeat constructor; cbn; intuition discriminate|].
      intros key t u dn k kv Hin (x & Hx & _). exfalso.
      repeat (destruct Hin as [Hin|Hin]; [injection Hin as <- <-; destruct Hx|]). contradiction. }
  assert (VD : valid_document vf vf_doc) by (apply (valid_doc_ok _ _ (rank_in ["Person"])); reflexivity).
  assert (EA : enums_available false true (skipping (with_documents true) true) vf vf_doc).
  { split; [|intros _; exact vf_flat]. intros e (d & vs & G) _. apply dget_Some_In in G. by_elem G; try discriminate G. injection G as <- _ _.
    split; [|split; intros _; reflexivity]. intros K. by_elem K; discriminate K. }
  assert (NS : ~ Spec_Refs.is_enum vf "String") by (intros (d & vs & G); discriminate G).
  assert (MN : members_named vf vf_doc (style_fragment_class sst)).
  { intros fr c dirs sub f dirs' Hfr (d & ms & G) Hi Hs. by_elem Hfr; try discriminate Hfr; injection Hfr as <-; discriminate G. }
  assert (UP : unions_plain vf vf_doc).
  { intros fr Hfr HU (dn & is & fs & G). by_elem Hfr; try discriminate Hfr; injection Hfr as <-; discriminate G. }
  assert (VP : variables_plain vf_doc).
  { intros o v Ho Hv. by_elem Ho; try discriminate Ho; injection Ho as <-; by_elem Hv; subst v; vm_compute; intuition discriminate. }
  assert (IF : imports_field vf vf_doc).
  { right. eexists. split; [left; reflexivity|]. left. eexists _, _, _, _. reflexivity. }
  assert (SI : forall fr n, In fr (fragments_of vf_doc) -> spread_in True (fr_sels fr) n -> spread_in False (fr_sels fr) n) by exact (sd_inline _ _ _ _ vf_supported).
  assert (NI : forall n, Spec_Refs.is_input vf n -> style_inputtype_class sst n <> "SHOULD_NOT_BE_USED").
  { intros n (d & f & ds & G). apply dget_Some_In in G. by_elem G; try discriminate G; injection G as <- _ _ _; vm_compute; discriminate. }
  assert (FP : fields_plain vf).
  { intros n d fs ds k f G Hf. apply dget_Some_In in G. by_elem G; try discriminate G; injection G as <- _ <- _; by_elem Hf; injection Hf as <- <-; vm_compute; intuition discriminate. }
  do 11 (split; [assumption|]).
  assert (OK : match func_run (with_documents true) vf (vf_pc true ["by"]) vf_doc with Ok _ => true | Err _ => false end = true) by (vm_compute; reflexivity).
  destruct (func_run (with_documents true) vf (vf_pc true ["by"]) vf_doc) as [t|x] eqn:R; [clear OK|discriminate OK].
  exists t. split; [reflexivity|]. split.
  { assert (N : match func_run (with_documents true) vf (vf_pc true ["by"]) vf_doc with Ok t => function_names t | Err _ => [] end = function_names t) by now rewrite R.
    change (function_names t = ["get_me"; "aget_me"; "colors"; "acolors"; "put"]). rewrite <- N. vm_compute. reflexivity. }
  rewrite func_run_eq in R. eapply (C60_functions_partial py_builtins (with_documents true) sst default_enums_config default_inputs_config (FrCfg [] [] None true true) sx_pc (vf_pc true ["by"]) vf vf_doc) with (iter := fun l => l);
    [apply incl_appl, incl_refl|exact (scope_scalars true)| | |exact IA|exact VD|exact SI|exact EA|exact NS|exact UP|exact MN|intros _; exact VP|intros _; exact IF| |exact NI| |intros _; exact FP| | |exact R].
  - reflexivity.
  - apply nodupb_NoDup; reflexivity.
  - right. left. eexists. split; [left; reflexivity|]. eexists _, _, _, _. reflexivity.
  - intros n _ [[]|[]].
  - intros k [[]|(def & Hd & Hk)]. by_elem Hd; subst def; destruct Hk.
  - intros l. apply Permutation_refl.
Qed.

(** ** Refutations *)
(** a keyword argument is configured with the default None: its annotation is Optional, which is not imported *)
Theorem C60_kwarg_refuted : let d := [query [plain "number"]] in
  let pc := FCfg "" "a" false [] [FKwarg "timeout" "int" "" CNone] [FDef OpQuery false [] [] "rath.query"] true [] [] [] in
  let s := Schema [("Query", TObject None [] [("number", out (GNonNull (GNamed "Int")))] []); ("Int", TScalar None)] (Some "Query") None None in
  valid_document s d /\ looks_up (func_run (with_documents true) s pc d) "Optional".
Proof. split; [now apply (valid_doc_ok _ _ (rank_in []))|]. unbound_tac. Qed.
Print Assumptions C60_kwarg_refuted.
(** an enum is configured as coercible input: the last statement of the module rebuilds a class that does not exist *)
Theorem C60_coercible_refuted : let d := [DOp (sx_op [VarDef "by" (GNonNull (GNamed "Color")) None []] [plain "count"])] in
  let pc := FCfg "" "a" false [] [] [FDef OpQuery false [] [] "rath.query"] true [] [] [("Color", "str")] in
  valid_document vf d /\ looks_up (func_run (with_documents true) vf pc d) "SHOULD_NOT_BE_USED".
Proof. split; [now apply (valid_doc_ok _ _ (rank_in []))|]. unbound_tac. Qed.
Print Assumptions C60_coercible_refuted.
