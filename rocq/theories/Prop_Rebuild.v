(** C21 for client modules: the classes rebuilt at the end are bound further up. *)
From Verif Require Import Base PyAst Gql Config Stylers Registry Utils Documents Recurse Referencer Enums Inputs Inline Print Fragments Operations Funcs Run
  Spec_Types Spec_Inputs Spec_Refs Spec_Imports Spec_Scope Spec_Docs Spec_Inline Spec_Valid Spec_ValidDoc Spec_Scope2
  P_Base P_InputProps P_Print P_Total4 P_Total8 P_Scope4 P_Scope8 P_Scope9 P_Scope10 P_Rebuild Ex_Select Prop_Inline Prop_Total Prop_TotalDoc Prop_TotalFuncs Prop_Scope Prop_Scope2 Prop_Scope3.

(** C21, for modules of the enum, the input, the fragment, the operation and the function plugin.  The conditions are those of C60.
    Missing: other orders of the plugins, see the refutation. *)
Theorem C21_functions_partial : forall bi c st ec ic fc oc pc s d print_fragment print_operation add doc_of doc_of',
  incl simple_types bi ->
  (forall n x, dget n (r_scalars (init_reg c)) = Some x -> has_dot x = false -> In x bi) ->
  c_force_plugin_order c = true -> NoDup (dkeys (s_types s)) ->
  inputs_available (ic_skip_underscore ic) (skipping c (ic_skip_unreferenced ic)) s (Ok d) ->
  valid_document s d ->
  (forall fr n, In fr (fragments_of d) -> spread_in True (fr_sels fr) n -> spread_in False (fr_sels fr) n) ->
  enums_available (ec_skip_underscore ec) (ec_skip_double_underscore ec) (skipping c (ec_skip_unreferenced ec)) s d ->
  ~ Spec_Refs.is_enum s "String" ->
  unions_plain s d -> members_named s d (style_fragment_class st) ->
  (o_create_arguments oc = true \/ f_definitions pc <> [] -> variables_plain d) ->
  (c_create_catchall c = false \/ (o_create_arguments oc = true /\ optional_variable d) -> imports_field s d) ->
  incl (c_object_bases c) (ic_bases ic) \/ (exists fr, In (DFrag fr) d /\ object_type s (fr_on fr)) \/ (exists o, In (DOp o) d /\ kind_bases oc o = []) ->
  (forall n, Spec_Refs.is_input s n -> style_inputtype_class st n <> "SHOULD_NOT_BE_USED") ->
  (forall n, variable_type d n -> In n (dkeys (c_coercible_inputs c)) \/ In n (dkeys (f_coercible_inputs pc)) -> Spec_Refs.is_input s n) ->
  (f_expand_input_types pc <> [] -> fields_plain s) ->
  (forall k, In k (f_global_kwargs pc) \/ (exists def, In def (f_definitions pc) /\ In k (d_kwargs def)) -> fk_default k <> CNone) ->
  forall iter a b e f g t, set_order iter ->
  generate_ast c iter [Plugin a (enums_plugin c st ec s (Ok d)); Plugin b (inputs_plugin c st ic s (Ok d));
    Plugin e (fragments_plugin c st s fc print_fragment add d); Plugin f (operations_plugin c st s oc print_operation add doc_of d);
    Plugin g (funcs_plugin c st s pc doc_of' d)] false = Ok t ->
  forall pre call post n, t = pre ++ call :: post -> rebuilds call n -> In n bi \/ In n (binds pre).
Proof.
  intros bi c st ec ic fc oc pc s d pf po add d1 d2 H1 H2 H3 H4 H5 H6 H7 H8 H9 H10 H11 H12 H13 H14 H15 H16 H17 H18 iter a b e f g t H19 H20.
  apply scoped_rebuild. eapply C60_functions_partial; eassumption.
Qed.
Print Assumptions C21_functions_partial.
(** a class that is rebuilt: an input type with a field of its own type *)
Definition nested_schema : schema :=
  Schema [("Query", TObject None [] [("count", FieldDef (GNonNull (GNamed "Int")) [("by", ArgDef (GNamed "Filter") None None)] None None [])] []);
          ("Filter", TInput None [("not", inf (GNamed "Filter")); ("color", inf (GNamed "Color"))] []); ("Color", TEnum None [("RED", EnumVal "RED" None None)]); ("Int", TScalar None)] (Some "Query") None None.
Definition nested_doc : document :=
  [DOp (Operation OpQuery (Some "Get") [VarDef "by" (GNonNull (GNamed "Filter")) None []] [] [SelField (FieldNode None "count" [("by", VVar "by")] [] None)])].
Definition rebuilt (t : list stmt) : list string :=
  flat_map (fun x => match x with SExpr (ECall (EAttr (EName n) "model_rebuild") [] []) => [n] | _ => [] end) t.
Example C21_functions_ex : valid_document nested_schema nested_doc
  /\ exists t, func_run (with_documents true) nested_schema (FCfg "" "a" false [] [] [FDef OpQuery false [] [] "rath.query"] true [] [] []) nested_doc = Ok t
     /\ rebuilt t = ["Filter"] /\ flat_map bound_by (skipn 4 t) = ["Color"; "Filter"; "Get"; "get"].
Proof. split; [now apply (valid_doc_ok _ _ (rank_in []))|]. eexists. split; [vm_compute; reflexivity|]. vm_compute. repeat split. Qed.

(** The enum plugin comes after the operation plugin.  Then the operations quote the names of enums.  The selection of a field
    whose type is an interface has no class of the name that is to be rebuilt. *)
Definition pets : schema :=
  Schema [("Query", TObject None [] [("pet", out (GNamed "Pet"))] []); ("Pet", TInterface None [] [("color", out (GNamed "Color"))]);
          ("Dog", TObject None ["Pet"] [("color", out (GNamed "Color"))] []); ("Color", TEnum None [("RED", EnumVal "RED" None None)]); ("String", TScalar None)] (Some "Query") None None.
Definition enums_last (c : gconfig) (s : schema) (d : document) : res (list stmt) :=
  generate_ast c (fun l => l) [Plugin "OperationsPlugin" (operations_plugin c sst s sx_pc (print_operation no_strings) (add_for d) (fun _ => None) d);
    Plugin "EnumsPlugin" (enums_plugin c sst default_enums_config s (Ok d))] false.
Theorem C21_interface_refuted : let d := [query [SelField (sub "pet" [plain "color"])]] in
  valid_document pets d /\ looks_up (enums_last (with_documents true) pets d) "GetPet"
  /\ (exists t, enums_last (with_documents true) pets d = Ok t /\ rebuilt t = ["GetPet"] /\ In "Color" (binds t) /\ ~ rebuilds_defined t)
  /\ exists t, doc_run (with_documents true) pets d = Ok t /\ rebuilt t = [] /\ In "GetPetBase" (binds t).
Proof.
  split; [now apply (valid_doc_ok _ _ (rank_in []))|]. split; [unbound_tac|]. split.
  - eexists. split; [vm_compute; reflexivity|]. split; [reflexivity|]. split; [vm_compute; tauto|]. intros H.
    match type of H with rebuilds_defined ?t => set (m := t) in H; assert (A : In (SExpr (ECall (EAttr (EName "GetPet") "model_rebuild") [] [])) m) by (unfold m; cbn; repeat (first [left; reflexivity|right])) end.
    assert (C := rebuilds_class _ H _ "GetPet" A (or_introl eq_refl)). vm_compute in C. discriminate.
  - eexists. split; [vm_compute; reflexivity|]. split; [reflexivity|]. vm_compute. tauto.
Qed.
Print Assumptions C21_interface_refuted.
