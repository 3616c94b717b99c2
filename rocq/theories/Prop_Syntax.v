(** C63: generated modules are valid Python. *)
From Verif Require Import Base PyAst Gql Config Stylers Registry Utils Documents Recurse Strawberry Referencer Enums Inputs Inline Print Objects Fragments Operations Funcs InputFuncs Run
  Spec_Naming Spec_Inputs Spec_Funcs Spec_Imports Spec_Scope2 Spec_Syntax Spec_Syntax2 Spec_Syntax3
  P_Base P_Stylers P_Print P_Syntax P_Syntax7 P_Syntax8 Ex_Select Prop_Inline Prop_Total Prop_TotalDoc Prop_TotalFuncs.

(** C63: whatever plugins run, in whatever order, the module compiles: identifiers are names and no keywords,
    no keyword argument or parameter is repeated, [await], [yield], [return] and [break] stand where they may, and no body is
    empty.  Proved for schemas, documents and configurations that bring such names.  Missing: the cases refuted below. *)
Theorem C63_valid_python_partial : forall iter, set_order iter -> forall c st s d, config_named c -> (forall x, In x st -> styler_named x) ->
  schema_named s -> document_named d ->
  forall ps skip_forwards t, Forall (code_plugin st s d c) ps -> generate_ast c iter ps skip_forwards = Ok t -> valid_module t = true.
Proof. exact code_valid. Qed.
Print Assumptions C63_valid_python_partial.

(** the stylers of turms make names of names, whatever suffix of letters and digits is configured *)
Theorem C63_stylers : styler_named base_styler /\ styler_named capitalize_styler /\ styler_named snake_styler /\ styler_named default_styler
  /\ forall a, (forall x, In x [ap_fragment a; ap_query a; ap_mutation a; ap_subscription a; ap_enum a; ap_input a] -> sforall name_char x = true) ->
       styler_named (appender_styler a).
Proof. exact shipped_stylers. Qed.
Print Assumptions C63_stylers.

(** ** Example: all plugins for clients on one schema *)
Definition va_plugins (c : gconfig) (s : schema) (d : document) (pc : fcfg) (ic : ifcfg) : list plugin :=
  [Plugin "EnumsPlugin" (enums_plugin c sst default_enums_config s (Ok d)); Plugin "InputsPlugin" (inputs_plugin c sst default_inputs_config s (Ok d));
   Plugin "ObjectsPlugin" (generate_types c sst s (ObCfg [] false true));
   Plugin "FragmentsPlugin" (fragments_plugin c sst s (FrCfg [] [] None true true) (print_fragment no_strings) (add_for d) d);
   Plugin "OperationsPlugin" (operations_plugin c sst s sx_pc (print_operation no_strings) (add_for d) (fun _ => None) d);
   Plugin "FuncsPlugin" (funcs_plugin c sst s pc (fun _ => None) d); Plugin "InputFuncsPlugin" (input_funcs_plugin c sst ic s (Ok d))].
Notation va_run c s d pc ic := (generate_ast c (@rev string) (va_plugins c s d pc ic) false) (only parsing).
Definition va_ic : ifcfg := IfCfg [] [] true false "make_" true.
Lemma rev_order : set_order (@rev string).
Proof. intros l. apply Permutation.Permutation_sym, Permutation.Permutation_rev. Qed.
Lemma default_named : config_named default_config.
Proof.
  constructor; cbn; try (intros; contradiction); try discriminate.
  - intros b H. by_elem H. now subst b.
  - intros p H. by_elem H; discriminate H.
Qed.
Lemma sst_named : forall x, In x sst -> styler_named x.
Proof. intros x H. by_elem H. subst x. apply C63_stylers. Qed.
Lemma vf_named : schema_named vf.
Proof.
  constructor.
  - intros n t H. by_type H; reflexivity.
  - intros n t k H K. by_type H; by_elem K; subst k; reflexivity.
  - intros n de ms m H K. by_elem H; try discriminate H. injection H as <- <- <-. by_elem K; subst m; reflexivity.
  - intros n de vs k v H K. by_elem H; try discriminate H. injection H as <- <- <-. by_elem K; injection K as <- <-; reflexivity.
  - intros n de fs dirs u dn k H (x & Hx & _). by_elem H; try discriminate H. injection H as <- <- <- <-. by_elem Hx.
Qed.
Lemma vf_doc_named : document_named vf_doc.
Proof.
  constructor.
  - intros o H. by_elem H; try discriminate H; injection H as <-; (split; [reflexivity|]; split; [reflexivity|]; intros v Hv; by_elem Hv; subst v; reflexivity).
  - intros f H. by_elem H; try discriminate H; injection H as <-. repeat split.
Qed.
Lemma vf_objects : objects_named vf.
Proof.
  constructor.
  - intros n de is fs H. by_elem H; try discriminate H; injection H as <- <- <- <-; reflexivity.
  - intros n de is fs dirs i H K. by_elem H; try discriminate H; injection H as <- <- <- <- <-; by_elem K; subst i; reflexivity.
  - intros n de is fs i H K. by_elem H; try discriminate H; injection H as <- <- <- <-; by_elem K.
  - intros n t H. by_type H; cbn; trivial; discriminate.
Qed.
Lemma vf_classes : fragment_classes_named vf vf_doc (style_fragment_class sst).
Proof.
  intros f H. by_elem H; try discriminate H. injection H as <-. split.
  - intros i [(de & is & fs & ds & Hi & Ho)|(de & ms & Hg & _)]; [|discriminate Hg]. by_elem Hi; try discriminate Hi; injection Hi as <- <- <- <- <-; by_elem Ho; discriminate Ho.
  - intros (de & ms & Hg). discriminate Hg.
Qed.
Lemma vf_variables : variables_plain vf_doc.
Proof. intros o v H Hv. by_elem H; try discriminate H; injection H as <-; by_elem Hv; subst v; cbn; intros K; by_elem K; discriminate K. Qed.
Lemma vf_roots : roots_plain vf vf_doc.
Proof.
  intros o root f fd H R Hf G. by_elem H; try discriminate H; injection H as <-; injection R as <-; by_elem Hf; injection Hf as <-; injection G as <-; cbn; intros K; by_elem K; discriminate K.
Qed.
Lemma vf_funcs : funcs_named sst vf vf_doc (vf_pc true []).
Proof.
  constructor.
  - intros def a H K. by_elem H; subst def; by_elem K.
  - intros def a H K. by_elem H; subst def; by_elem K.
  - intros def H. by_elem H; subst def; reflexivity.
  - intros k p H. by_elem H.
  - intros o n def H E Hd _. by_elem H; try discriminate H; injection H as <-; injection E as <-; by_elem Hd; subst def; reflexivity.
  - intros o H v _ K. by_elem K.
  - intros o def H Hd _. by_elem H; try discriminate H; injection H as <-; by_elem Hd; subst def; apply nodupb_NoDup; reflexivity.
Qed.
Lemma vf_input_funcs : input_funcs_named sst vf va_ic.
Proof.
  constructor.
  - intros k p H. by_elem H.
  - intros n de fs dirs H. by_elem H; try discriminate H; injection H as <- <- <- <-; reflexivity.
  - intros n de fs dirs H. by_elem H; try discriminate H; injection H as <- <- <- <-. apply nodupb_NoDup; reflexivity.
Qed.
Definition defined (t : list stmt) : list string := flat_map (fun x => match x with SClass n _ _ _ => [n] | SFunc _ n _ _ _ _ => [n +s+ "()"] | _ => [] end) t.
Example C63_ex : set_order (@rev string) /\ config_named default_config /\ (forall x, In x sst -> styler_named x) /\ schema_named vf /\ document_named vf_doc
  /\ Forall (code_plugin sst vf vf_doc default_config) (va_plugins default_config vf vf_doc (vf_pc true []) va_ic)
  /\ exists t, va_run default_config vf vf_doc (vf_pc true []) va_ic = Ok t /\ valid_module t = true
     /\ defined t = ["UnsetType"; "GraphQLDefault"; "Deprecated"; "Color"; "Filter"; "NodeBase"; "Mutation"; "Query"; "User"; "Post"; "PersonFriends";
          "Person"; "GetMe"; "Colors"; "PutPut"; "Put"; "get_me()"; "aget_me()"; "colors()"; "acolors()"; "put()"; "make_filter()"].
Proof.
  split; [exact rev_order|]. split; [exact default_named|]. split; [exact sst_named|]. split; [exact vf_named|]. split; [exact vf_doc_named|].
  assert (F : Forall (code_plugin sst vf vf_doc default_config) (va_plugins default_config vf vf_doc (vf_pc true []) va_ic)).
  { unfold va_plugins. repeat (apply Forall_cons; [apply CClient|]); [constructor|constructor|constructor|constructor|constructor|constructor|constructor|constructor].
    all: first [exact vf_objects|exact vf_classes|exact vf_variables|exact vf_roots|exact vf_funcs|exact vf_input_funcs|intros b Hb; by_elem Hb; subst b; reflexivity]. }
  split; [exact F|]. destruct (va_run default_config vf vf_doc (vf_pc true []) va_ic) as [t|e] eqn:E.
  - exists t. split; [reflexivity|]. split; [exact (C63_valid_python_partial _ rev_order _ _ _ _ default_named sst_named vf_named vf_doc_named (va_plugins default_config vf vf_doc (vf_pc true []) va_ic) false t F E)|].
    vm_compute in E. injection E as <-. reflexivity.
  - vm_compute in E. discriminate E.
Qed.

(** ** Example: the plugin for servers *)
Definition vs_cost : directive := Directive "cost" [("weight", VInt "3"); ("units", VList [VString "s" false; VNull])].
Definition vs_args : list (string * argdef) :=
  [("first", ArgDef (GNamed "Int") (Some (PInt 10)) None); ("by", ArgDef (GNonNull (GNamed "Filter")) None None); ("from", ArgDef (GNamed "Date") None None)].
Definition vs : schema := Schema
  [("Int", TScalar None); ("Date", TScalar (Some "A day")); ("Color", TEnum None [("RED", EnumVal "RED" None None)]);
   ("Filter", TInput None [("id", InputField (GNamed "Int") None (Some "which") None); ("color", InputField (GNamed "Color") None None None)] [Directive "oneOf" []]);
   ("Node", TInterface None [] [("class", FieldDef (GNamed "Int") [] None (Some "old") [vs_cost])]);
   ("Query", TObject (Some "All") ["Node"] [("class", FieldDef (GNamed "Int") [] None None []); ("find", FieldDef (GList (GNamed "Query")) vs_args None None [])] [vs_cost]);
   ("Subscription", TObject None [] [("ticks", FieldDef (GNonNull (GNamed "Date")) [] None None [])] [])] (Some "Query") None (Some "Subscription").
Definition vs_directives : list directivedef :=
  [DirectiveDef "cost" ["OBJECT"; "FIELD_DEFINITION"] [("weight", ArgDef (GNamed "Int") (Some (PInt 1)) None); ("units", ArgDef (GList (GNamed "Int")) (Some (PList [])) None)];
   DirectiveDef "skip" ["FIELD"] []].
Notation server_run s ds ap := (generate_ast default_config (@rev string) [Plugin "StrawberryPlugin" (strawberry_plugin default_config sst s ds ap default_strawberry_config)] false) (only parsing).
Definition never (_ : string) : list directive := [].
Lemma vs_named : schema_named vs.
Proof.
  constructor.
  - intros n t H. by_type H; reflexivity.
  - intros n t k H K. by_type H; by_elem K; subst k; reflexivity.
  - intros n de ms m H K. by_elem H; discriminate H.
  - intros n de ws k v H K. by_elem H; try discriminate H. injection H as <- <- <-. by_elem K; injection K as <- <-; reflexivity.
  - intros n de fs dirs u dn k H (x & Hx & E). by_elem H; try discriminate H. injection H as <- <- <- <-. by_elem Hx. subst x. destruct E as [E _]. discriminate E.
Qed.
Lemma cost_named : forall ds, (forall d, In d ds -> d = vs_cost \/ dir_name d = "oneOf") -> directives_named (sb_builtin_directives default_strawberry_config) ds.
Proof.
  intros ds H d Hd B. destruct (H _ Hd) as [->|E]; [|exfalso; apply B; rewrite E; cbn; tauto]. split; [reflexivity|]. split; [apply nodupb_NoDup; reflexivity|].
  intros a Ha. by_elem Ha; subst a; split; reflexivity.
Qed.
Lemma vs_scaffold : scaffold_named sst vs vs_directives never default_strawberry_config.
Proof.
  constructor.
  - intros n de H B. by_elem H; try discriminate H; injection H as <- <-; reflexivity.
  - intros d H B. by_elem H; subst d; [|exfalso; apply B; cbn; tauto]. split; [reflexivity|]. split; intros x Hx; by_elem Hx; subst x; reflexivity.
  - intros n t H. apply cost_named. intros d Hd. by_type H; by_elem Hd; subst d; first [now left|now right].
  - intros n t k f H K. split; [|split].
    + apply cost_named. intros d Hd. by_type H; by_elem K; injection K as <- <-; by_elem Hd; subst d; now left.
    + intros a Ha. by_type H; by_elem K; injection K as <- <-; by_elem Ha; subst a; reflexivity.
    + apply nodupb_NoDup. by_type H; by_elem K; injection K as <- <-; reflexivity.
  - intros n t H. by_type H; cbn; trivial; discriminate.
Qed.
Definition resolvers (t : list stmt) : list (string * list string) :=
  flat_map (fun x => match x with SClass _ _ b _ => flat_map (fun y => match y with SFunc _ n a _ _ _ => [(n, map pa_name (a_args a))] | _ => [] end) b | _ => [] end) t.
Example C63_server_ex : schema_named vs /\ Forall (code_plugin sst vs [] default_config)
    [Plugin "StrawberryPlugin" (strawberry_plugin default_config sst vs vs_directives never default_strawberry_config)]
  /\ exists t, server_run vs vs_directives never = Ok t /\ valid_module t = true
     /\ defined t = ["cost"; "Color"; "Filter"; "Node"; "Query"; "Subscription"]
     /\ resolvers t = [("class_", ["self"]); ("find", ["self"; "by"; "from_"; "first"]); ("ticks", ["self"])].
Proof.
  split; [exact vs_named|].
  assert (F : Forall (code_plugin sst vs [] default_config) [Plugin "StrawberryPlugin" (strawberry_plugin default_config sst vs vs_directives never default_strawberry_config)]).
  { constructor; [|constructor]. apply CServer; [intros b []|exact vs_scaffold]. }
  split; [exact F|]. assert (D : document_named []) by (constructor; intros o []).
  destruct (server_run vs vs_directives never) as [t|e] eqn:E.
  - exists t. split; [reflexivity|].
    split; [exact (C63_valid_python_partial _ rev_order _ _ _ _ default_named sst_named vs_named D
      [Plugin "StrawberryPlugin" (strawberry_plugin default_config sst vs vs_directives never default_strawberry_config)] false t F E)|].
    vm_compute in E. injection E as <-. split; reflexivity.
  - vm_compute in E. discriminate E.
Qed.

(** ** Refutations *)
Definition invalid (r : res (list stmt)) : Prop := exists t, r = Ok t /\ valid_module t = false.
Definition one_query (n : string) (vars : list vardef) (l : list selection) : document := [DOp (Operation OpQuery (Some n) vars [] l)].
Definition funcs_run (s : schema) (d : document) (pc : fcfg) : res (list stmt) :=
  generate_ast default_config (@rev string) [Plugin "EnumsPlugin" (enums_plugin default_config sst default_enums_config s (Ok d));
    Plugin "OperationsPlugin" (operations_plugin default_config sst s sx_pc (print_operation no_strings) (add_for d) (fun _ => None) d);
    Plugin "FuncsPlugin" (funcs_plugin default_config sst s pc (fun _ => None) d)] false.
(** the function of an operation is called like a keyword *)
Theorem C63_function_name_refuted : exists d, document_named d /\ invalid (funcs_run vf d (vf_pc true [])).
Proof.
  exists (one_query "Import" [] [plain "count"]). split.
  - constructor; intros o H; by_elem H; [injection H as <-|discriminate H]. repeat split. intros v [].
  - eexists. split; [vm_compute; reflexivity|reflexivity].
Qed.
Print Assumptions C63_function_name_refuted.
(** two variables give the same parameter *)
Theorem C63_parameters_refuted : exists d, document_named d /\ invalid (funcs_run vf d (vf_pc true [])).
Proof.
  exists (one_query "Get" [VarDef "userId" (GNamed "Int") None []; VarDef "user_id" (GNamed "Int") None []] [plain "count"]). split.
  - constructor; intros o H; by_elem H; [injection H as <-|discriminate H]. repeat split. intros v Hv. by_elem Hv; subst v; reflexivity.
  - eexists. split; [vm_compute; reflexivity|reflexivity].
Qed.
Print Assumptions C63_parameters_refuted.
(** a field of an expanded variable and another variable give the same parameter *)
Theorem C63_expanded_refuted : document_named vf_doc /\ invalid (va_run default_config vf vf_doc (vf_pc true ["by"]) va_ic).
Proof. split; [exact vf_doc_named|]. eexists. split; [vm_compute; reflexivity|reflexivity]. Qed.
Print Assumptions C63_expanded_refuted.
(** enum values called like keywords are not escaped *)
Definition enum_of (n v : string) : typedef := TEnum None [(v, EnumVal v None None)].
Theorem C63_enum_value_refuted : exists s, (forall n t, In (n, t) (s_types s) -> is_name n = true)
  /\ invalid (generate_ast default_config (@rev string) [Plugin "EnumsPlugin" (enums_plugin default_config sst default_enums_config s (Ok []))] false).
Proof.
  exists (Schema [("Direction", enum_of "Direction" "from")] None None None). split.
  - intros n t H. by_type H. reflexivity.
  - eexists. split; [vm_compute; reflexivity|reflexivity].
Qed.
Print Assumptions C63_enum_value_refuted.
(** a variable whose type has the name of a helper class: the module ends in [.model_rebuild()] *)
Theorem C63_helper_name_refuted : exists s d, schema_named s /\ document_named d /\ invalid (funcs_run s d (vf_pc true [])).
Proof.
  exists (Schema [("Query", TObject None [] [("count", out (GNamed "Int"))] []); ("Int", TScalar None); ("Deprecated", enum_of "Deprecated" "A")] (Some "Query") None None),
    (one_query "Get" [VarDef "a" (GNamed "Deprecated") None []] [plain "count"]). split; [|split].
  - constructor.
    + intros n t H. by_type H; reflexivity.
    + intros n t k H K. by_type H; by_elem K; subst k; reflexivity.
    + intros n de ms m H K. by_elem H; discriminate H.
    + intros n de vs k v H K. by_elem H; try discriminate H. injection H as <- <- <-. by_elem K; injection K as <- <-; reflexivity.
    + intros n de fs dirs u dn k H _. by_elem H; discriminate H.
  - constructor; intros o H; by_elem H; [injection H as <-|discriminate H]. repeat split. intros v Hv. by_elem Hv; subst v; reflexivity.
  - eexists. split; [vm_compute; reflexivity|reflexivity].
Qed.
Print Assumptions C63_helper_name_refuted.
(** [additional_config] repeats a keyword that is there already *)
Theorem C63_config_refuted : exists c, invalid (generate_ast c (@rev string) [Plugin "EnumsPlugin" (enums_plugin c sst default_enums_config vf (Ok []));
  Plugin "InputsPlugin" (inputs_plugin c sst default_inputs_config vf (Ok []))] false).
Proof.
  exists (GConfig "v2" None ["pydantic.BaseModel"] None true false [] [] [] None None true None None
            (FreezeConfig true [KInput; KFragment; KObject] None None true) true default_options false [] [("Filter", [("frozen", CBool false)])] true [] true true
            "api" "schema.py" false "schema.graphql" false "project.json").
  eexists. split; [vm_compute; reflexivity|reflexivity].
Qed.
Print Assumptions C63_config_refuted.
(** the alias for an interface has the name of the interface, styled or not *)
Theorem C63_interface_refuted : exists s, (forall n t, In (n, t) (s_types s) -> is_name n = true)
  /\ invalid (generate_ast default_config (@rev string) [Plugin "ObjectsPlugin" (generate_types default_config sst s (ObCfg [] false true))] false).
Proof.
  exists (Schema [("None", TInterface None [] [("a", out (GNamed "Int"))]); ("Some", TObject None ["None"] [("a", out (GNamed "Int"))] []); ("Int", TScalar None)] None None None). split.
  - intros n t H. by_type H; reflexivity.
  - eexists. split; [vm_compute; reflexivity|reflexivity].
Qed.
Print Assumptions C63_interface_refuted.
(** ** Refutations: the plugin for servers *)
Definition query_type (f : fielddef) (ds : list directive) : schema := Schema [("Int", TScalar None); ("Query", TObject None [] [("count", f)] ds)] (Some "Query") None None.
Definition int_field (args : list (string * argdef)) : fielddef := FieldDef (GNamed "Int") args None None [].
Lemma query_type_named : forall f ds, schema_named (query_type f ds).
Proof.
  constructor.
  - intros n t H. by_type H; reflexivity.
  - intros n t k H K. by_type H; by_elem K; subst k; reflexivity.
  - intros n de ms m H K. by_elem H; discriminate H.
  - intros n de ws k v H K. by_elem H; discriminate H.
  - intros n de fs dirs u dn k H _. by_elem H; discriminate H.
Qed.
(** an argument called like the first parameter of the resolver *)
Theorem C63_self_refuted : exists s, schema_named s /\ invalid (server_run s [] never).
Proof.
  exists (query_type (int_field [("self", ArgDef (GNamed "Int") None None)]) []). split; [apply query_type_named|].
  eexists. split; [vm_compute; reflexivity|reflexivity].
Qed.
Print Assumptions C63_self_refuted.
(** enum values in applied directives are written as the repr of the node *)
Theorem C63_directive_enum_refuted : exists s, schema_named s /\ invalid (server_run s [DirectiveDef "cost" ["OBJECT"] [("unit", ArgDef (GNamed "Int") None None)]] never).
Proof.
  exists (query_type (int_field []) [Directive "cost" [("unit", VEnum "SECONDS")]]). split; [apply query_type_named|].
  eexists. split; [vm_compute; reflexivity|reflexivity].
Qed.
Print Assumptions C63_directive_enum_refuted.
(** directives are neither styled nor escaped; nor are their arguments where they are applied *)
Theorem C63_directive_name_refuted : (exists ds, invalid (server_run (query_type (int_field []) []) ds never))
  /\ exists s, schema_named s /\ invalid (server_run s [DirectiveDef "list" ["OBJECT"] [("from", ArgDef (GNamed "Int") None None)]] never).
Proof.
  split.
  - exists [DirectiveDef "async" ["OBJECT"] []]. eexists. split; [vm_compute; reflexivity|reflexivity].
  - exists (query_type (int_field []) [Directive "list" [("from", VInt "1")]]). split; [apply query_type_named|]. eexists. split; [vm_compute; reflexivity|reflexivity].
Qed.
Print Assumptions C63_directive_name_refuted.
(** a scalar keeps the name it has in the schema *)
Theorem C63_scalar_name_refuted : exists s, schema_named s /\ invalid (server_run s [] never).
Proof.
  exists (Schema [("None", TScalar None)] None None None). split.
  - constructor.
    + intros n t H. by_type H; reflexivity.
    + intros n t k H K. by_type H; by_elem K.
    + intros n de ms m H K. by_elem H; discriminate H.
    + intros n de ws k v H K. by_elem H; discriminate H.
    + intros n de fs dirs u dn k H _. by_elem H; discriminate H.
  - eexists. split; [vm_compute; reflexivity|reflexivity].
Qed.
Print Assumptions C63_scalar_name_refuted.
