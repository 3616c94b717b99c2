(** C78: configured base classes are the base classes of the generated classes. *)
From Verif Require Import Base PyAst Gql Config Stylers Loaders Registry Utils Documents Inline Recurse Enums Inputs Objects Fragments Operations Strawberry Settings Components
  Spec_Docs Spec_Inputs Spec_Fields Spec_Mro Spec_Mro2 Spec_Traits Spec_Settings Spec_Components Spec_Funcs Spec_Bases
  P_Base P_Gql P_Monad P_Mro P_Components P_Bases P_Bases2 Ex_Inputs Ex_Select Prop_Mro Prop_Mro2 Prop_Traits Prop_Components.

(** The class of an operation has exactly the base classes that the entry of the plugin gives for
    its kind, or else those of the project; they are imported. *)
Theorem C78_operations : forall builtins importable number_str decode environ entry options domain c st s po add doc_of d r l r' o name own,
  uniq (JObject entry) -> load_component builtins importable number_str decode (env_vars environ) entry = Some ("turms.plugins.operations.OperationsPlugin", options) ->
  listed environ entry "TURMS_PLUGINS_OPERATIONS_" (bases_option (op_kind o)) [] own ->
  operations_plugin c st s (to_operations domain options) po add doc_of d r = (Ok l, r') -> In (DOp o) d -> op_name o = Some name ->
  (exists body, In (SClass (operation_class st (op_kind o) name) (as_bases (or_general (c_object_bases c) own)) body []) l)
  /\ provided (r_imports r') (or_general (c_object_bases c) own).
Proof. exact entry_operations. Qed.
Print Assumptions C78_operations.
(** The classes of input types and object types end in the base classes of the entries, or the default. *)
Theorem C78_inputs : forall builtins importable number_str decode environ entry options c st s documents r l r' own,
  uniq (JObject entry) -> load_component builtins importable number_str decode (env_vars environ) entry = Some ("turms.plugins.inputs.InputsPlugin", options) ->
  listed environ entry "TURMS_PLUGINS_INPUTS_" "inputtype_bases" ["pydantic.BaseModel"] own ->
  Inputs.generate_inputs c st (to_inputs options) s documents r = (Ok l, r') -> Forall (ends_in own) l /\ provided (r_imports r') own.
Proof. exact entry_inputs. Qed.
Print Assumptions C78_inputs.
Theorem C78_objects : forall builtins importable number_str decode environ entry options c st s r l r' own,
  uniq (JObject entry) -> load_component builtins importable number_str decode (env_vars environ) entry = Some ("turms.plugins.objects.ObjectsPlugin", options) ->
  listed environ entry "TURMS_PLUGINS_OBJECTS_" "types_bases" ["pydantic.BaseModel"] own ->
  Objects.generate_types c st s (to_objects options) r = (Ok l, r') -> Forall (ends_in own) l /\ provided (r_imports r') own.
Proof. exact entry_objects. Qed.
Print Assumptions C78_objects.
(** The classes of fragments have the base classes of the entry and of the project.
    Full statement: for fragments on interfaces, too ([C78_interface_refuted]). *)
Theorem C78_fragments_partial : forall builtins importable number_str decode environ entry options c st s pf add d r l r' own,
  uniq (JObject entry) -> load_component builtins importable number_str decode (env_vars environ) entry = Some ("turms.plugins.fragments.FragmentsPlugin", options) ->
  listed environ entry "TURMS_PLUGINS_FRAGMENTS_" "fragment_bases" [] own ->
  unique_fragment_names d -> fragments_plugin c st s (to_fragments options) pf add d r = (Ok l, r') -> forall f, In (DFrag f) d ->
  match get_type s (fr_on f) with
  | Some (TObject _ _ _ _) => based_on l (style_with sty_fragment st (fr_name f)) own (c_object_bases c)
  | Some (TUnion _ ms) => forall i, In i ms -> based_on l (style_with sty_fragment st (fr_name f) +s+ i) own (c_object_bases c)
  | _ => True
  end.
Proof. exact entry_fragments. Qed.
Print Assumptions C78_fragments_partial.
(** Every class of fragments and operations, however deep the selection it is made for, inherits
    from the base classes of the project, unless those for interfaces or operations replace them. *)
Theorem C78_models : forall c st s d pc pf add oc po doc_of r lf r1 lo r2 b,
  general_base c [o_query_bases oc; o_mutation_bases oc; o_subscription_bases oc] b ->
  fragments_plugin c st s pc pf add d r = (Ok lf, r1) -> operations_plugin c st s oc po add doc_of d r1 = (Ok lo, r2) ->
  forall n bases body decs, In (SClass n bases body decs) (lf ++ lo) -> inherits (lf ++ lo) (last_comp b) n.
Proof. exact models_based. Qed.
Print Assumptions C78_models.

(** ** Examples *)
Definition bases_config : gconfig :=
  GConfig "v2" None ["pydantic.BaseModel"; "lib.Model"] (Some ["pydantic.BaseModel"]) true false [] [] [] None None true None None
          default_freeze true default_options false [] [] true [] true true "api" "schema.py" false "schema.graphql" false "project.json".
Definition operations_entry := entry "turms.plugins.operations.OperationsPlugin" [("mutation_bases", JArray [JString "lib.Write"]); ("query_bases", JArray [JString "pydantic.BaseModel"; JString "lib.Read"])].
Definition fragments_entry := entry "turms.plugins.fragments.FragmentsPlugin" [("fragment_bases", JArray [JString "lib.Part"])].
Definition inputs_entry := entry "turms.plugins.inputs.InputsPlugin" [("inputtype_bases", JArray [JString "lib.Input"])].
Definition bases_run : res (list stmt) * reg :=
  match ex_component [] fragments_entry, ex_component [] operations_entry with
  | Some (_, f), Some (_, o) =>
      (let* a := fragments_plugin bases_config sst sx (to_fragments f) (fun _ => "fragment") (fun t => Ok t) trait_doc in
       let* b := operations_plugin bases_config sst sx (to_operations None o) (fun _ => "query") (fun t => Ok t) (fun _ => None) trait_doc in
       ret (a ++ b)) sx_reg
  | _, _ => (Ok [], sx_reg)
  end.
Ltac entry_unique := cbn; repeat split; repeat constructor; cbn; intuition discriminate.
Example C78_ex : uniq (JObject operations_entry) /\ uniq (JObject fragments_entry) /\ unique_fragment_names trait_doc
  /\ listed [] operations_entry "TURMS_PLUGINS_OPERATIONS_" (bases_option OpQuery) [] ["pydantic.BaseModel"; "lib.Read"]
  /\ listed [] operations_entry "TURMS_PLUGINS_OPERATIONS_" (bases_option OpSubscription) [] []
  /\ general_base bases_config [["pydantic.BaseModel"; "lib.Read"]; []; []] "pydantic.BaseModel"
  /\ exists l r', bases_run = (Ok l, r')
  /\ dget "FragA" (bases_of l) = Some [EName "Part"; EName "BaseModel"; EName "Model"]
  /\ dget "Get" (bases_of l) = Some [EName "BaseModel"; EName "Read"]
  /\ dget "GetMeFriends" (bases_of l) = Some [EName "BaseModel"; EName "Model"]
  /\ dget "FragNodeBase" (bases_of l) = Some [EName "BaseModel"]
  /\ incl ["lib.Part"; "lib.Read"; "pydantic.BaseModel"] (r_imports r').
Proof.
  split; [entry_unique|]. split; [entry_unique|]. split; [repeat constructor; cbn; intuition discriminate|]. split; [now left|]. split; [right; repeat split; reflexivity|].
  split; [split; [now left|intros l [<-|[<-|[<-|[<-|[]]]]]; cbn; tauto]|].
  do 2 eexists. split; [vm_compute; reflexivity|]. do 4 (split; [vm_compute; reflexivity|]). intros x Hx. apply mem_In. revert x Hx. apply Forall_forall. repeat constructor.
Qed.
Example C78_ex_inputs : uniq (JObject inputs_entry) /\ exists o l r', ex_component [] inputs_entry = Some ("turms.plugins.inputs.InputsPlugin", o)
  /\ Inputs.generate_inputs trait_inputs ex_stylers (to_inputs o) ex_schema (Ok []) ex_reg = (Ok l, r')
  /\ dget "ById" (bases_of l) = Some [EName "Keyed"; EName "Named"; EName "Input"].
Proof. split; [entry_unique|]. do 3 eexists. split; [vm_compute; reflexivity|]. split; [vm_compute; reflexivity|vm_compute; reflexivity]. Qed.
Example C78_ex_objects : exists o l r', ex_component [] (entry "turms.plugins.objects.ObjectsPlugin" [("types_bases", JArray [JString "lib.Type"])]) = Some ("turms.plugins.objects.ObjectsPlugin", o)
  /\ Objects.generate_types trait_config sst sx (to_objects o) sx_reg = (Ok l, r') /\ dget "User" (bases_of l) = Some [EName "UserTrait"; EName "NodeBase"; EName "Type"].
Proof. do 3 eexists. split; [vm_compute; reflexivity|]. split; [vm_compute; reflexivity|vm_compute; reflexivity]. Qed.

(** ** Refutations *)
(** no class of a fragment on an interface has the base classes for fragments *)
Theorem C78_interface_refuted : exists o l r', ex_component [] fragments_entry = Some ("turms.plugins.fragments.FragmentsPlugin", o)
  /\ fragments_plugin bases_config sst sx (to_fragments o) (fun _ => "fragment") (fun t => Ok t) [frag_node] sx_reg = (Ok l, r')
  /\ In "FragNodeBase" (map fst (bases_of l)) /\ ~ In "lib.Part" (r_imports r') /\ forall n b, In (n, b) (bases_of l) -> ~ In (EName "Part") b.
Proof.
  do 3 eexists. split; [vm_compute; reflexivity|]. split; [vm_compute; reflexivity|]. split; [apply mem_In; vm_compute; reflexivity|]. split; [rewrite <- mem_In; vm_compute; discriminate|].
  intros n b H. vm_compute in H. repeat (destruct H as [[= <- <-]|H]; [cbn; intuition discriminate|]). destruct H.
Qed.
Print Assumptions C78_interface_refuted.
(** strawberry.md:39: types_bases change nothing *)
Definition scaffold_entry (o : string) := entry "turms.plugins.strawberry.StrawberryPlugin" [(o, JArray [JString "lib.Part"])].
Theorem C78_scaffold_types_refuted : exists o l r', ex_component [] (scaffold_entry "types_bases") = Some ("turms.plugins.strawberry.StrawberryPlugin", o)
  /\ Strawberry.generate_types default_config sst mro_schema (fun _ => []) (to_strawberry o) (init_reg default_config) = (Ok l, r')
  /\ bases_of l <> [] /\ forall n b, In (n, b) (bases_of l) -> ~ In (EName "Part") b.
Proof.
  do 3 eexists. split; [vm_compute; reflexivity|]. split; [vm_compute; reflexivity|]. split; [vm_compute; discriminate|].
  intros n b H. vm_compute in H. repeat (destruct H as [[= <- <-]|H]; [cbn; intuition discriminate|]). destruct H.
Qed.
Print Assumptions C78_scaffold_types_refuted.
(** strawberry.md:40: inputtype_bases are base classes that nothing imports *)
Theorem C78_scaffold_inputs_refuted : exists o l r', ex_component [] (scaffold_entry "inputtype_bases") = Some ("turms.plugins.strawberry.StrawberryPlugin", o)
  /\ Strawberry.generate_inputs default_config ex_stylers ex_schema (to_strawberry o) ex_reg = (Ok l, r')
  /\ (exists n, In (n, [EName "Part"]) (bases_of l)) /\ ~ In "lib.Part" (r_imports r').
Proof.
  do 3 eexists. split; [vm_compute; reflexivity|]. split; [vm_compute; reflexivity|]. split; [eexists; vm_compute; left; reflexivity|rewrite <- mem_In; vm_compute; discriminate].
Qed.
Print Assumptions C78_scaffold_inputs_refuted.
