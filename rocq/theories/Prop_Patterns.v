(** C79: plugins read the documents of their patterns, and no others. *)
From Verif Require Import Base PyAst Gql Config Stylers Registry Utils Documents Inline Recurse Print Enums Inputs Objects Fragments Operations Funcs InputFuncs Strawberry Run Loaders Settings Components Project
  Spec_Docs Spec_Fields Spec_Traits Spec_Settings Spec_Components Spec_Funcs Spec_Bases Spec_Patterns
  P_Base P_Monad P_Patterns P_Patterns2 Ex_Select Prop_Mro Prop_Mro2 Prop_Traits.

(** Operations: if a module is generated, there is a pattern (of the plugin, of the extension or of
    the project, in this order), and each operation of its documents has its class in the module,
    with the name of the stylers and the base classes of the configuration. *)
Theorem C79_operations : forall number iter s directives applied ps add doc_of builtins importable number_str decode environ parse p out t entry,
  loaded_project p -> generate_project number iter s directives applied parse ps add doc_of builtins importable number_str decode (env_vars environ) p = Some out -> out_tree out = Ok t ->
  In entry (plugin_entries p) -> dget "type" entry = Some (JString "turms.plugins.operations.OperationsPlugin") ->
  exists g d, plugin_pattern environ p entry = Some g /\ parse g = Ok d
  /\ forall sl st general own o name, load_components builtins importable number_str decode (env_vars environ) (turms_of p) "stylers" = Some sl -> all_some to_styler sl = Some st ->
     dget "object_bases" (turms_of p) = Some (JArray (map JString general)) ->
     In (DOp o) d -> op_name o = Some name -> listed environ entry "TURMS_PLUGINS_OPERATIONS_" (bases_option (op_kind o)) [] own ->
     exists body, In (SClass (operation_class st (op_kind o) name) (as_bases (or_general general own)) body []) t.
Proof. exact operations_read. Qed.
Print Assumptions C79_operations.
(** Fragments on object types, in the same way; without a pattern there are no fragments. *)
Theorem C79_fragments : forall number iter s directives applied ps add doc_of builtins importable number_str decode environ parse p out t entry g,
  loaded_project p -> generate_project number iter s directives applied parse ps add doc_of builtins importable number_str decode (env_vars environ) p = Some out -> out_tree out = Ok t ->
  In entry (plugin_entries p) -> dget "type" entry = Some (JString "turms.plugins.fragments.FragmentsPlugin") -> plugin_pattern environ p entry = Some g ->
  exists d, parse g = Ok d
  /\ forall sl st general own f a b c e, load_components builtins importable number_str decode (env_vars environ) (turms_of p) "stylers" = Some sl -> all_some to_styler sl = Some st ->
     dget "object_bases" (turms_of p) = Some (JArray (map JString general)) ->
     unique_fragment_names d -> In (DFrag f) d -> get_type s (fr_on f) = Some (TObject a b c e) -> listed environ entry "TURMS_PLUGINS_FRAGMENTS_" "fragment_bases" [] own ->
     based_on t (style_with sty_fragment st (fr_name f)) own general.
Proof. exact fragments_read. Qed.
Print Assumptions C79_fragments.
Theorem C79_functions : forall number iter s directives applied ps add doc_of builtins importable number_str decode environ parse p out t entry,
  loaded_project p -> generate_project number iter s directives applied parse ps add doc_of builtins importable number_str decode (env_vars environ) p = Some out -> out_tree out = Ok t ->
  In entry (plugin_entries p) -> dget "type" entry = Some (JString "turms.plugins.funcs.FuncsPlugin") -> exists g d, plugin_pattern environ p entry = Some g /\ parse g = Ok d.
Proof. exact functions_read. Qed.
Print Assumptions C79_functions.
(** The result depends on the documents at these patterns only. *)
Theorem C79_only : forall number iter s directives applied ps add doc_of builtins importable number_str decode environ parse1 parse2 p, loaded_project p ->
  (forall entry g, In entry (plugin_entries p) -> plugin_pattern environ p entry = Some g -> parse1 g = parse2 g) ->
  generate_project number iter s directives applied parse1 ps add doc_of builtins importable number_str decode (env_vars environ) p
  = generate_project number iter s directives applied parse2 ps add doc_of builtins importable number_str decode (env_vars environ) p.
Proof. exact only_patterns. Qed.
Print Assumptions C79_only.

(** The projects of a file are as the theorems above assume; objects of Python have no key twice. *)
Theorem C79_loaded : forall builtins importable decode environ, (forall t v, decode t = Some v -> uniq v) ->
  forall file projects n p, uniq (JObject file) -> load_projects builtins importable decode (env_vars environ) file = Some projects -> In (n, JObject p) projects -> loaded_project p.
Proof. exact projects_loaded. Qed.
Print Assumptions C79_loaded.

(** ** Examples: two patterns, one from a variable *)
Definition split_file : dict json :=
  [("projects", JObject [("default", JObject [("schema", JString "schema.graphql"); ("documents", JString "all");
    ("extensions", JObject [("turms", JObject [("stylers", JArray [typed "turms.stylers.default.DefaultStyler"]);
      ("plugins", JArray [typed "turms.plugins.fragments.FragmentsPlugin"; JObject [("type", JString "turms.plugins.operations.OperationsPlugin"); ("operations_glob", JString "ops")]])])])])])].
Definition split_environ : list (string * string) := [("turms_plugins_fragments_fragments_glob", "frags")].
Definition split_parse (g : string) : res document :=
  if String.eqb g "frags" then Ok [frag_a; frag_b; frag_node] else if String.eqb g "ops" then Ok [DOp trait_op] else Err (Exn GenerationErrorC "No documents found").
Definition split_project : option (dict json) :=
  match load_projects ["str"] (fun _ => true) (fun _ => None) (env_vars split_environ) split_file with Some [(_, JObject p)] => Some p | _ => None end.
Definition split_output (p : dict json) : option output :=
  generate_project (fun _ => CNone) (fun l => l) sx [] (fun _ => []) split_parse (fun t _ => t) (fun t => Ok t) (fun _ => None) ["str"] (fun _ => true) (fun t => t) (fun _ => None) (env_vars split_environ) p.
Example C79_ex : uniq (JObject split_file) /\ exists p out t, split_project = Some p /\ loaded_project p /\ split_output p = Some out /\ out_tree out = Ok t
  /\ map (plugin_pattern split_environ p) (plugin_entries p) = [Some "frags"; Some "ops"] /\ project_documents p = Some "all"
  /\ dget "FragB" (bases_of t) = Some [EName "FragA"; EName "BaseModel"] /\ dget "Get" (bases_of t) = Some [EName "BaseModel"]
  /\ dget "object_bases" (turms_of p) = Some (JArray (map JString ["pydantic.BaseModel"])).
Proof.
  split; [cbn; repeat split; repeat constructor; cbn; intuition discriminate|]. do 3 eexists. split; [vm_compute; reflexivity|]. split.
  { split; [intros v H; vm_compute in H; injection H as <-; right; eauto|]. intros e H. vm_compute in H. repeat (destruct H as [<-|H]; [cbn; repeat split; repeat constructor; cbn; intuition discriminate|]). destruct H. }
  split; [vm_compute; reflexivity|]. split; [vm_compute; reflexivity|]. split; [vm_compute; reflexivity|]. split; [reflexivity|]. split; [vm_compute; reflexivity|]. split; [vm_compute; reflexivity|reflexivity].
Qed.
