(** C75: the fields of a generated class hide no name its annotations need. *)
From Verif Require Import Base PyAst Gql Config Stylers Registry Utils Documents Recurse Referencer Enums Inputs Inline Print Fragments Operations Funcs Objects Run
  Spec_Types Spec_Inputs Spec_Refs Spec_Imports Spec_Names Spec_Scope Spec_Docs Spec_Inline Spec_Valid Spec_ValidDoc Spec_Scope2 Spec_ScopeObj Spec_Hides
  P_Base P_InputProps P_Print P_Total4 P_Total8 P_Scope8 P_Scope9 P_Scope10 P_ScopeObj P_Hides Ex_Select Ex_Inputs Prop_Inline Prop_Total Prop_TotalDoc Prop_TotalFuncs Prop_Scope Prop_Scope2 Prop_Scope3 Prop_ScopeObj.

(** C75.  The module of the enum, the input, the fragment and the operation plugin: if no field with a value is called
    like a Python type of a built-in scalar (or of a configured one without a module) or like something the module
    binds, no name looked up in the body of a class is found among the fields of the class, so every name is the one
    of the module that C60 says is there.  Missing for the full property: such fields, refuted below; and what C60
    misses. *)
Theorem C75_client_partial : forall bi c st ec ic fc oc s d print_fragment print_operation add doc_of,
  incl simple_types bi ->
  (forall n x, dget n (r_scalars (init_reg c)) = Some x -> has_dot x = false -> In x bi) ->
  c_force_plugin_order c = true -> NoDup (dkeys (s_types s)) ->
  inputs_available (ic_skip_underscore ic) (skipping c (ic_skip_unreferenced ic)) s (Ok d) ->
  valid_document s d ->
  (forall fr n, In fr (fragments_of d) -> spread_in True (fr_sels fr) n -> spread_in False (fr_sels fr) n) ->
  enums_available (ec_skip_underscore ec) (ec_skip_double_underscore ec) (skipping c (ec_skip_unreferenced ec)) s d ->
  ~ Spec_Refs.is_enum s "String" ->
  unions_plain s d -> members_named s d (style_fragment_class st) ->
  (o_create_arguments oc = true -> variables_plain d) ->
  (* [Field] is imported if it is used *)
  (c_create_catchall c = false \/ (o_create_arguments oc = true /\ optional_variable d) -> imports_field s d) ->
  (* and so are the base classes of objects *)
  incl (c_object_bases c) (ic_bases ic) \/ (exists fr, In (DFrag fr) d /\ object_type s (fr_on fr)) \/ (exists o, In (DOp o) d /\ kind_bases oc o = []) ->
  forall iter a b e f t, set_order iter ->
  generate_ast c iter [Plugin a (enums_plugin c st ec s (Ok d)); Plugin b (inputs_plugin c st ic s (Ok d));
    Plugin e (fragments_plugin c st s fc print_fragment add d); Plugin f (operations_plugin c st s oc print_operation add doc_of d)] false = Ok t ->
  fields_apart bi t -> hidden_names t = [].
Proof. intros until d. intros p1 p2 add doc_of H1 H2 H3 H4 H5 H6 H7 H8 H9 H10 H11 H12 H13 H14 iter a b e f t H15 H. apply apart_hidden.
  exact (C60_client_partial _ _ _ _ _ _ _ _ _ _ _ _ _ H1 H2 H3 H4 H5 H6 H7 H8 H9 H10 H11 H12 H13 H14 _ _ _ _ _ _ H15 H). Qed.
Print Assumptions C75_client_partial.
(** ... with the function plugin *)
Theorem C75_functions_partial : forall bi c st ec ic fc oc pc s d print_fragment print_operation add doc_of doc_of',
  incl simple_types bi ->
  (forall n x, dget n (r_scalars (init_reg c)) = Some x -> has_dot x = false -> In x bi) ->
  c_force_plugin_order c = true -> NoDup (dkeys (s_types s)) ->
  inputs_available (ic_skip_underscore ic) (skipping c (ic_skip_unreferenced ic)) s (Ok d) ->
  valid_document s d ->
  (forall fr n, In fr (fragments_of d) -> spread_in True (fr_sels fr) n -> spread_in False (fr_sels fr) n) ->
  enums_available (ec_skip_underscore ec) (ec_skip_double_underscore ec) (skipping c (ec_skip_unreferenced ec)) s d ->
  ~ Spec_Refs.is_enum s "String" ->
  unions_plain s d -> members_named s d (style_fragment_class st) ->
  (o_create_arguments oc = true \/ f_definitions pc <> [] -> variables_plain d) ->
  (c_create_catchall c = false \/ (o_create_arguments oc = true /\ optional_variable d) -> imports_field s d) ->
  incl (c_object_bases c) (ic_bases ic) \/ (exists fr, In (DFrag fr) d /\ object_type s (fr_on fr)) \/ (exists o, In (DOp o) d /\ kind_bases oc o = []) ->
  (* no class has the name the generator uses when it cannot say which class refers to another *)
  (forall n, Spec_Refs.is_input s n -> style_inputtype_class st n <> "SHOULD_NOT_BE_USED") ->
  (* the configured coercible inputs are input types *)
  (forall n, variable_type d n -> In n (dkeys (c_coercible_inputs c)) \/ In n (dkeys (f_coercible_inputs pc)) -> Spec_Refs.is_input s n) ->
  (f_expand_input_types pc <> [] -> fields_plain s) ->
  (* the configured keyword arguments have defaults *)
  (forall k, In k (f_global_kwargs pc) \/ (exists def, In def (f_definitions pc) /\ In k (d_kwargs def)) -> fk_default k <> CNone) ->
  forall iter a b e f g t, set_order iter ->
  generate_ast c iter [Plugin a (enums_plugin c st ec s (Ok d)); Plugin b (inputs_plugin c st ic s (Ok d));
    Plugin e (fragments_plugin c st s fc print_fragment add d); Plugin f (operations_plugin c st s oc print_operation add doc_of d);
    Plugin g (funcs_plugin c st s pc doc_of' d)] false = Ok t ->
  fields_apart bi t -> hidden_names t = [].
Proof. intros until d. intros p1 p2 add doc_of doc_of' H1 H2 H3 H4 H5 H6 H7 H8 H9 H10 H11 H12 H13 H14 H16 H17 H18 H19 iter a b e f g t H15 H. apply apart_hidden.
  exact (C60_functions_partial _ _ _ _ _ _ _ _ _ _ _ _ _ _ _ H1 H2 H3 H4 H5 H6 H7 H8 H9 H10 H11 H12 H13 H14 H16 H17 H18 H19 _ _ _ _ _ _ _ H15 H). Qed.
Print Assumptions C75_functions_partial.
(** ... and of the enum, the input and the object plugin *)
Theorem C75_schema_partial : forall bi c st ec ic pc s documents iter t,
  incl simple_types bi ->
  (forall n x, dget n (r_scalars (init_reg c)) = Some x -> has_dot x = false -> In x bi) ->
  c_force_plugin_order c = true -> NoDup (dkeys (s_types s)) -> none_implements_itself s -> set_order iter ->
  inputs_available (ic_skip_underscore ic) (skipping c (ic_skip_unreferenced ic)) s documents ->
  composites_available s (left_out (ob_skip_underscore pc) (ob_skip_double_underscore pc)) ->
  interfaces_unstyled s (left_out (ob_skip_underscore pc) (ob_skip_double_underscore pc)) (style_interface_class st) ->
  forall a b e,
  generate_ast c iter [Plugin a (enums_plugin c st ec s documents); Plugin b (inputs_plugin c st ic s documents); Plugin e (generate_types c st s pc)] false = Ok t ->
  fields_apart bi t -> hidden_names t = [].
Proof. intros bi c st ec ic pc s documents iter t H1 H2 H3 H4 H5 H6 H7 H8 H9 a b e H. apply apart_hidden.
  exact (proj1 (C70_schema_partial _ _ _ _ _ _ _ _ _ _ H1 H2 H3 H4 H5 H6 H7 H8 H9 _ _ _ H)). Qed.
Print Assumptions C75_schema_partial.

Definition apartb (E : list string) (t : list stmt) : bool :=
  forallb (fun body => forallb (fun n => negb (mem n E) && negb (mem n (binds t))) (valued body)) (flat_map class_bodies t).
Lemma apartb_apart : forall E t, apartb E t = true -> fields_apart E t.
Proof.
  intros E t H body n Hb Hn. unfold apartb in H. rewrite forallb_forall in H. specialize (H _ Hb). rewrite forallb_forall in H.
  specialize (H _ Hn). apply andb_true_iff in H as [H1 H2]. apply negb_true_iff in H1, H2. rewrite <- !mem_In, H1, H2. now split.
Qed.
(** the document of C60's example; the fields with a value that are looked at *)
Example C75_ex : exists t, doc_run (with_documents true) vx vx_doc = Ok t /\ scoped (fun n => In n py_builtins) t
  /\ fields_apart simple_types t /\ nodup string_dec (flat_map valued (flat_map class_bodies t)) = ["user_name"; "friends"; "author"; "typename"; "color"; "node"; "hit"; "by"; "limit"]
  /\ hidden_names t = [].
Proof.
  destruct C60_ex as (_ & _ & _ & _ & _ & _ & _ & _ & _ & _ & _ & _ & t & R & _ & S). exists t. split; [exact R|]. split; [exact S|].
  assert (Q : match doc_run (with_documents true) vx vx_doc with
    | Ok t => apartb simple_types t = true /\ nodup string_dec (flat_map valued (flat_map class_bodies t)) = ["user_name"; "friends"; "author"; "typename"; "color"; "node"; "hit"; "by"; "limit"] /\ hidden_names t = []
    | Err _ => False end) by (vm_compute; repeat split).
  rewrite R in Q. destruct Q as (Q1 & Q2 & Q3). split; [now apply apartb_apart|]. now split.
Qed.

(** ** Refutations *)
(** the scalar Date is a datetime.date of Python.  An input type has a field "date": the annotation of
    [date: Optional[date] = None] is Optional[None], so the field takes no date at all *)
Definition dated : gconfig :=
  GConfig "v2" (Some "q.graphql") ["pydantic.BaseModel"] None true false [("Date", "datetime.date")] [] [] None None true None None
          default_freeze true default_options false [] [] true [] true true "api" "schema.py" false "schema.graphql" false "project.json".
Definition event_schema : schema :=
  Schema (scalars ++ [("Date", TScalar None); ("Event", TInput None [("date", fld (ty "Date"))] [])]) None None None.
Theorem C75_date_refuted : exists t pre post b d,
  scope_module dated default_enums_config ex_plugin event_schema (Ok []) = Ok t
  /\ In (SImportFrom "datetime" ["date"]) t
  /\ In (SClass "Event" b (pre ++ SAnn "date" (ESub (EName "Optional") (EName "date")) (Some (EConst CNone)) :: post) d) t
  /\ hidden_names t = ["date"].
Proof.
  eexists _, [_], [], _, _. split; [vm_compute; reflexivity|]. split; [cbn; tauto|]. split; [cbn; right; right; right; right; left; reflexivity|vm_compute; reflexivity].
Qed.
Print Assumptions C75_date_refuted.
(** a field called like the Python type of its scalar: its own annotation and the ones of the fields further down are
    not evaluated to the type, but fail on the value of the field *)
Definition answers_with (fields : dict fielddef) : schema :=
  Schema (("Query", TObject None [] fields []) :: ("Color", TEnum None [("RED", EnumVal "RED" None None)]) :: ("Date", TScalar None) :: scalars) (Some "Query") None None.
Definition hides (c : gconfig) (st : list styler) (s : schema) (d : document) (l : list string) : Prop :=
  valid_document s d /\ exists t, client_run c st sx_pc s d = Ok t /\ scoped (fun n => In n py_builtins) t /\ hidden_names t = l.
Ltac scoped_tac := cbn [scoped]; repeat split; let n := fresh in let H := fresh in intros n H; vm_compute in H; vm_compute; intuition (subst; tauto).
Ltac hides_tac := split; [apply (valid_doc_ok _ _ (rank_in [])); reflexivity|]; eexists; split; [vm_compute; reflexivity|]; split; [scoped_tac|vm_compute; reflexivity].
Theorem C75_builtin_refuted :
  hides (with_documents true) sst (answers_with [("int", out (GNamed "Int")); ("count", out (GNamed "Int"))]) [query [plain "int"; plain "count"]] ["int"; "int"].
Proof. hides_tac. Qed.
Print Assumptions C75_builtin_refuted.
(** a variable *)
Theorem C75_variable_refuted :
  hides (with_documents true) sst (answers_with [("count", FieldDef (GNonNull (GNamed "Int")) [("int", ArgDef (GNamed "Int") None None)] None None []); ("id", out (GNamed "ID"))])
    [DOp (sx_op [VarDef "int" (GNamed "Int") None []] [SelField (FieldNode None "count" [("int", VVar "int")] [] None); plain "id"])] ["int"].
Proof. hides_tac. Qed.
Print Assumptions C75_variable_refuted.
(** a field that is never null, called like its type but for the case: the styler makes it the name of the type, and
    its alias is a value *)
Theorem C75_alias_refuted :
  hides dated sst (answers_with [("Date", out (GNonNull (GNamed "Date")))]) [query [plain "Date"]] ["date"].
Proof. hides_tac. Qed.
Print Assumptions C75_alias_refuted.
(** without a styler, a field called like its enum *)
Theorem C75_enum_refuted :
  hides (with_documents true) [] (answers_with [("Color", out (GNamed "Color"))]) [query [plain "Color"]] ["Color"].
Proof. hides_tac. Qed.
Print Assumptions C75_enum_refuted.
