(** C58: generation from a schema does not fail. *)
From Verif Require Import Base PyAst Gql Config Stylers Registry Utils Recurse Referencer Enums Inputs Objects Strawberry Run Spec_Mro Spec_Mro2 Spec_Valid P_Base P_Total P_Total2 P_Total3 P_Total4 Ex_Select.

(** C58: code generation succeeds for every valid schema.  Proved for the server plugin, with the
    conditions below.  Missing: the cases of the refutations that follow; [iter] is the iteration order of sets. *)
Theorem C58_scaffold_partial : forall c st s dirs applied pc iter skip_forwards, (forall l x, In x (iter l) -> In x l) ->
  let skip := underscored (sb_skip_underscore pc) (sb_skip_double_underscore pc) in
  valid_schema s ->
  (* no object literals in applied directives *)
  flat_schema s (sb_builtin_directives pc) applied ->
  interfaces_in_order s skip ->
  (c_force_plugin_order c = true -> sb_enums pc = true /\ enums_kept s skip skip
    /\ enums_apart s (style_enum_class st) (map (style_objecttype_class st) (names_with s composite) ++ map (style_inputtype_class st) (names_with s inputlike))) ->
  (forall n, is_scalar s n = true -> In n (sb_builtin_scalars pc) -> In n (known_scalars c)) ->
  sb_directives pc = true ->
  (* the arguments of directives have scalars known from the start *)
  (forall d a ad, In d dirs -> ~ In (dd_name d) (sb_builtin_directives pc) -> In (a, ad) (dd_args d) ->
     is_scalar s (gty_name (arg_type ad)) = true /\ In (gty_name (arg_type ad)) (known_scalars c)) ->
  exists l, generate_ast c iter [Plugin "StrawberryPlugin" (strawberry_plugin c st s dirs applied pc)] skip_forwards = Ok l.
Proof. exact scaffold_ast_total. Qed.
Print Assumptions C58_scaffold_partial.
(** for the plugins of enums, inputs and objects, without documents *)
Theorem C58_schema_partial : forall c st s ec ic oc docs iter skip_forwards, (forall l x, In x (iter l) -> In x l) ->
  let skip := underscored (ob_skip_underscore oc) (ob_skip_double_underscore oc) in
  truthy (c_documents c) = false -> valid_schema s -> plain_inputs s -> interfaces_in_order s skip ->
  (c_always_resolve_interfaces c = false \/ implemented s skip) ->
  scalars_known s (known_scalars c) ->
  (c_force_plugin_order c = true -> enums_kept s skip (underscored (ec_skip_underscore ec) (ec_skip_double_underscore ec))
    /\ enums_apart s (style_enum_class st) (object_classes s (style_objecttype_class st) ++ map (style_inputtype_class st) (flat_map input_names (s_types s)))) ->
  exists l, generate_ast c iter [Plugin "EnumsPlugin" (enums_plugin c st ec s docs); Plugin "InputsPlugin" (inputs_plugin c st ic s docs); Plugin "ObjectsPlugin" (Objects.generate_types c st s oc)] skip_forwards = Ok l.
Proof. exact schema_ast_total. Qed.
Print Assumptions C58_schema_partial.

(** ** Example: interfaces, a union, an enum, a [@oneOf] input and directives *)
Definition arg (t : gty) : argdef := ArgDef t None None.
Definition inf (t : gty) : inputfield := InputField t None None None.
Definition full : schema := Schema
  [("Node", TInterface None [] [("id", out (GNonNull (GNamed "ID")))]);
   ("Entity", TInterface None ["Node"] [("id", out (GNonNull (GNamed "ID")))]);
   ("User", TObject None ["Node"; "Entity"] [("id", out (GNonNull (GNamed "ID"))); ("color", out (GNamed "Color")); ("friends", FieldDef (GList (GNamed "User")) [("by", arg (GNamed "Filter"))] None None [])] []);
   ("Hit", TUnion None ["User"]);
   ("Query", TObject None [] [("search", FieldDef (GList (GNamed "Hit")) [("color", arg (GNamed "Color"))] None None [])] [Directive "tag" [("name", VString "api" false)]]);
   ("Filter", TInput None [("byColor", inf (GNamed "Color")); ("byId", inf (GNamed "ID"))] [Directive "oneOf" []]);
   ("Color", TEnum None [("RED", EnumVal "RED" None None)]);
   ("ID", TScalar None); ("String", TScalar None)] (Some "Query") None None.
Definition tag_dir : directivedef := DirectiveDef "tag" ["OBJECT"] [("name", arg (GNonNull (GNamed "String")))].
Ltac by_type H := cbn in H; repeat match type of H with _ \/ _ => destruct H as [H|H]; [injection H as <- <-|] | False => contradiction end.
Ltac by_elem H := cbn in H; repeat match type of H with _ \/ _ => destruct H as [H|H] | False => contradiction end.
Lemma full_order : interfaces_in_order full (underscored false true).
Proof.
  intros k t i H _ Hi. by_type H; by_elem Hi; subst i; (split; [reflexivity|]); cbn; try discriminate. intros _. exists [], []. do 3 eexists. cbn. reflexivity.
Qed.
Lemma full_enums : enums_kept full (underscored false true) (underscored false true).
Proof. intros k t n H _ Hn E. by_type H; by_elem Hn; subst n; try discriminate E; reflexivity. Qed.
Example C58_scaffold_ex : valid_schema full /\ flat_schema full (sb_builtin_directives default_strawberry_config) (fun _ => [])
  /\ interfaces_in_order full (underscored false true) /\ enums_kept full (underscored false true) (underscored false true)
  /\ enums_apart full (style_enum_class sst) (map (style_objecttype_class sst) (names_with full composite) ++ map (style_inputtype_class sst) (names_with full inputlike))
  /\ (forall n, is_scalar full n = true -> In n (sb_builtin_scalars default_strawberry_config) -> In n (known_scalars default_config))
  /\ (forall d a ad, In d [tag_dir] -> In (a, ad) (dd_args d) -> is_scalar full (gty_name (arg_type ad)) = true /\ In (gty_name (arg_type ad)) (known_scalars default_config))
  /\ exists l, generate_ast default_config (fun l => l) [Plugin "StrawberryPlugin" (strawberry_plugin default_config sst full [tag_dir] (fun _ => []) default_strawberry_config)] false = Ok l /\ (8 < List.length l)%nat.
Proof.
  split; [now apply valid_b_ok|]. split; [|split; [exact full_order|split; [exact full_enums|split; [|split; [|split]]]]].
  - intros k t H. split; [|intros f fd Hf]; by_type H; try (by_elem Hf; injection Hf as <- <-); intros d a v Hd Nd Ha; by_elem Hd; subst d; by_elem Ha; injection Ha as <- <-; reflexivity.
  - intros n E H. unfold is_enum in E. destruct (get_type full n) as [t|] eqn:G; [|discriminate]. apply dget_Some_In in G. by_type G; try discriminate E. vm_compute in H. intuition discriminate.
  - intros n _ H. by_elem H; subst n; vm_compute; tauto.
  - intros d a ad [<-|[]] [[= <- <-]|[]]. vm_compute. tauto.
  - eexists. split; [vm_compute; reflexivity|]. cbn. repeat constructor.
Qed.
Example C58_schema_ex : plain_inputs full /\ implemented full (underscored false true) /\ scalars_known full (known_scalars default_config)
  /\ enums_apart full (style_enum_class sst) (object_classes full (style_objecttype_class sst) ++ map (style_inputtype_class sst) (flat_map input_names (s_types full)))
  /\ exists l, generate_ast default_config (fun l => l) [Plugin "EnumsPlugin" (enums_plugin default_config sst default_enums_config full (Ok [])); Plugin "InputsPlugin" (inputs_plugin default_config sst default_inputs_config full (Ok []));
       Plugin "ObjectsPlugin" (Objects.generate_types default_config sst full default_objects_config)] false = Ok l /\ (8 < List.length l)%nat.
Proof.
  split; [|split; [|split; [|split]]].
  - split; [apply nodupb_NoDup; reflexivity|]. split.
    + intros k d fs ds f fd H _ Hf. cbn in H. repeat (destruct H as [H|H]; [try discriminate H|]); [|contradiction]. injection H as <- <- <- <-. by_elem Hf; injection Hf as <- <-; auto.
    + intros k d fs ds x H Hx. cbn in H. repeat (destruct H as [H|H]; [try discriminate H|]); [|contradiction]. injection H as <- <- <- <-. by_elem Hx; subst x; discriminate.
  - intros i E _. unfold is_iface in E. destruct (get_type full i) as [t|] eqn:G; [|discriminate]. apply dget_Some_In in G.
    exists "User". eexists. split; [cbn; right; right; left; reflexivity|]. split; [reflexivity|]. by_type G; try discriminate E; cbn; tauto.
  - intros k t n H Hn E. by_type H; by_elem Hn; subst n; try discriminate E; vm_compute; tauto.
  - intros n E H. unfold is_enum in E. destruct (get_type full n) as [t|] eqn:G; [|discriminate]. apply dget_Some_In in G. by_type G; try discriminate E. vm_compute in H. intuition discriminate.
  - eexists. split; [vm_compute; reflexivity|]. cbn. repeat constructor.
Qed.

(** ** Refutations: valid schemas for which generation fails *)
Definition scaffold_run (c : gconfig) (s : schema) (dirs : list directivedef) (pc : sbcfg) : res (list stmt) :=
  generate_ast c (fun l => l) [Plugin "StrawberryPlugin" (strawberry_plugin c sst s dirs (fun _ => []) pc)] false.
Definition schema_run (c : gconfig) (s : schema) (d : document) : res (list stmt) :=
  generate_ast c (fun l => l) [Plugin "EnumsPlugin" (enums_plugin c sst default_enums_config s (Ok d)); Plugin "InputsPlugin" (inputs_plugin c sst default_inputs_config s (Ok d));
    Plugin "ObjectsPlugin" (Objects.generate_types c sst s default_objects_config)] false.
Definition fails {A} (x : res A) : Prop := exists e, x = Err e.
Definition oid : list (string * fielddef) := [("id", out (GNonNull (GNamed "ID")))].
(** an interface declared before the interface it implements; servers list types by name *)
Theorem C58_interface_order_refuted : exists s, valid_schema s /\ fails (scaffold_run default_config s [] default_strawberry_config) /\ fails (schema_run default_config s []).
Proof.
  exists (Schema [("Entity", TInterface None ["Node"] oid); ("ID", TScalar None); ("Node", TInterface None [] oid); ("User", TObject None ["Entity"; "Node"] oid [])] None None None).
  split; [now apply valid_b_ok|]. split; eexists; vm_compute; reflexivity.
Qed.
Print Assumptions C58_interface_order_refuted.
(** a directive with an argument of enum type *)
Theorem C58_directive_enum_refuted : exists s d, valid_schema s /\ is_enum s "Role" = true /\ dd_args d = [("requires", arg (GNamed "Role"))]
  /\ fails (scaffold_run default_config s [d] default_strawberry_config).
Proof.
  exists (Schema [("Role", TEnum None [("ADMIN", EnumVal "ADMIN" None None)])] None None None), (DirectiveDef "auth" ["OBJECT"] [("requires", arg (GNamed "Role"))]).
  split; [now apply valid_b_ok|]. split; [reflexivity|]. split; [reflexivity|]. eexists; vm_compute; reflexivity.
Qed.
Print Assumptions C58_directive_enum_refuted.
(** a directive with an argument of a scalar that the same run defines *)
Theorem C58_directive_scalar_refuted : exists s d, valid_schema s /\ is_scalar s "FieldSet" = true /\ dd_args d = [("fields", arg (GNamed "FieldSet"))]
  /\ fails (scaffold_run default_config s [d] default_strawberry_config) /\ exists l, scaffold_run default_config s [] default_strawberry_config = Ok l.
Proof.
  exists (Schema [("FieldSet", TScalar None)] None None None), (DirectiveDef "key" ["OBJECT"] [("fields", arg (GNamed "FieldSet"))]).
  split; [now apply valid_b_ok|]. split; [reflexivity|]. split; [reflexivity|]. split; eexists; vm_compute; reflexivity.
Qed.
Print Assumptions C58_directive_scalar_refuted.
(** with directives switched off scalars are not generated *)
Definition no_directives : sbcfg := SbCfg false true true true true ["include"; "skip"; "deprecated"; "specifiedBy"; "oneOf"] ["String"; "Boolean"; "DateTime"; "Int"; "Float"; "ID"] [] false true.
Theorem C58_scalars_off_refuted : exists s, valid_schema s /\ sb_scalars no_directives = true /\ fails (scaffold_run default_config s [] no_directives)
  /\ exists l, scaffold_run default_config s [] default_strawberry_config = Ok l.
Proof.
  exists (Schema [("Query", TObject None [] [("at", out (GNamed "Date"))] []); ("Date", TScalar None)] None None None).
  split; [now apply valid_b_ok|]. split; [reflexivity|]. split; eexists; vm_compute; reflexivity.
Qed.
Print Assumptions C58_scalars_off_refuted.
(** an enum left out for its name but still mentioned *)
Definition skip_one : sbcfg := SbCfg true true true true true ["include"; "skip"; "deprecated"; "specifiedBy"; "oneOf"] ["String"; "Boolean"; "DateTime"; "Int"; "Float"; "ID"] [] true true.
Theorem C58_skipped_enum_refuted : exists s, valid_schema s /\ fails (scaffold_run default_config s [] skip_one) /\ exists l, scaffold_run default_config s [] default_strawberry_config = Ok l.
Proof.
  exists (Schema [("Query", TObject None [] [("kind", out (GNamed "_Kind"))] []); ("_Kind", TEnum None [("A", EnumVal "A" None None)])] None None None).
  split; [now apply valid_b_ok|]. split; eexists; vm_compute; reflexivity.
Qed.
Print Assumptions C58_skipped_enum_refuted.
(** an object literal as argument of an applied directive *)
Theorem C58_object_literal_refuted : exists s, valid_schema s /\ fails (scaffold_run default_config s [] default_strawberry_config).
Proof.
  exists (Schema [("Query", TObject None [] [("id", out (GNamed "ID"))] [Directive "meta" [("of", VObject [("a", VInt "1")])]]); ("ID", TScalar None)] None None None).
  split; [now apply valid_b_ok|]. eexists; vm_compute; reflexivity.
Qed.
Print Assumptions C58_object_literal_refuted.
(** with documents, an enum no operation uses is left out, while the types still mention it *)
Definition with_documents : gconfig :=
  GConfig "v2" (Some "q.graphql") ["pydantic.BaseModel"] None true false [] [] [] None None true None None
          default_freeze true default_options false [] [] true [] true true "api" "schema.py" false "schema.graphql" false "project.json".
Theorem C58_unreferenced_enum_refuted : exists s d, valid_schema s /\ fails (schema_run with_documents s d) /\ exists l, schema_run default_config s d = Ok l.
Proof.
  exists (Schema [("Query", TObject None [] [("id", out (GNamed "ID")); ("color", out (GNamed "Color"))] []); ("Color", TEnum None [("RED", EnumVal "RED" None None)]); ("ID", TScalar None)] (Some "Query") None None),
    [DOp (Operation OpQuery (Some "GetId") [] [] [plain "id"])].
  split; [now apply valid_b_ok|]. split; eexists; vm_compute; reflexivity.
Qed.
Print Assumptions C58_unreferenced_enum_refuted.
(** an input type with the name of a class for a field of a [@oneOf] type *)
Theorem C58_oneof_name_refuted : exists s, valid_schema s /\ fails (schema_run default_config s []).
Proof.
  exists (Schema [("FilterName", TInput None [("id", inf (GNamed "ID"))] []); ("Filter", TInput None [("name", inf (GNamed "ID"))] [Directive "oneOf" []]); ("ID", TScalar None)] None None None).
  split; [now apply valid_b_ok|]. eexists; vm_compute; reflexivity.
Qed.
Print Assumptions C58_oneof_name_refuted.
