(** Schemas and documents the starter templates work for. *)
From Verif Require Import Base PyAst Gql Config Stylers Registry Strawberry Print Funcs
  Spec_Docs Spec_Refs Spec_Funcs Spec_Scope Spec_Scope2 Spec_Scope3 Spec_Inline Spec_Valid Spec_ValidDoc Spec_ValidFuncs Spec_Naming Spec_Syntax Spec_Syntax2 Spec_Syntax3 Templates.

(** class names: the first letter is capitalised, keywords get an underscore *)
Definition class_name (n : string) : string := if iskeyword (cap_first n) then cap_first n +s+ "_" else cap_first n.
Definition scalars_of_templates : list string := "uuid" :: default_scalars.
Section Client.
Variable s : schema.
Variable d : document.
Variable ps : string -> bool -> string.
Variable add : string -> res string.
Record client_ready : Prop := ClientReady {
  (* the schema is valid, its names are names, its scalars are known *)
  cr_schema : valid_schema s;
  cr_names : schema_named s;
  cr_string : is_scalar s "String" = true;
  cr_scalars : scalars_known s scalars_of_templates;
  cr_inputs : plain_inputs s;
  cr_underscore : forall n, Spec_Refs.is_input s n -> startswith "_" n = false;
  cr_enums : forall k t n, In (k, t) (s_types s) -> Spec_Valid.is_input s k = true -> In n (Spec_Valid.mentions t) -> Spec_Valid.is_enum s n = true -> startswith "__" n = false;
  cr_apart : enums_apart s class_name (map class_name (flat_map input_names (s_types s)));
  (* the document is valid and supported *)
  cr_document : valid_document s d;
  cr_supported : supported_document s d ps add;
  cr_doc_names : document_named d;
  cr_flat : flat_document d;
  cr_selected : forall e, Spec_Refs.is_enum s e -> document_selects s d e -> ~ In e helper_names /\ startswith "__" e = false;
  cr_unions : unions_plain s d;
  cr_members : members_named s d class_name;
  cr_fragments : fragment_classes_named s d class_name;
  cr_variables : variables_plain d;
  cr_variable_types : forall o v n, In o (operations_of d) -> In v (op_vars o) -> n = gty_name (v_type v) ->
    (is_scalar s n = true -> In n scalars_of_templates) /\ (Spec_Valid.is_enum s n = true -> startswith "__" n = false);
  cr_field : optional_variable d -> imports_field s d }.

(** and those the functions of a configuration work for *)
Definition gets_functions (o : operation) (kinds : list optype) : Prop := In o (operations_of d) /\ In (op_kind o) kinds.
Record functions_ready (st : list styler) (pc : fcfg) : Prop := FunctionsReady {
  fr_supported : supported_functions s d (fun o => gets_functions o (map d_kind (f_definitions pc))) true [];
  fr_enums : forall o e, gets_functions o (map d_kind (f_definitions pc)) -> function_enum s true [] o e ->
    startswith "__" e = false /\ ~ In e built_in_keys /\ class_name e <> "SHOULD_NOT_BE_USED";
  fr_inputs : forall n, Spec_Refs.is_input s n -> class_name n <> "SHOULD_NOT_BE_USED";
  fr_roots : roots_plain s d;
  fr_functions : funcs_named st s d pc }.
End Client.
Section Server.
Variable s : schema.
Variable directives : list directivedef.
Variable applied : string -> list directive.
Variable st : list styler.
Definition reserved (n : string) : bool := startswith "__" n.
(** object types keep their name; keywords get an underscore *)
Definition object_name (n : string) : string := if iskeyword n then n +s+ "_" else n.
Record server_ready : Prop := ServerReady {
  sr_schema : valid_schema s;
  sr_names : schema_named s;
  (* names with two underscores belong to introspection, and only introspection refers to them *)
  sr_reserved : forall n t m, In (n, t) (s_types s) -> reserved n = false -> reaches s t m -> reserved m = false;
  sr_inputs : forall n, Spec_Refs.is_input s n -> reserved n = false;
  sr_interfaces : interfaces_in_order s reserved;
  sr_proper : interfaces_proper s;
  sr_apart : enums_apart s class_name (map object_name (names_with s composite) ++ map class_name (names_with s inputlike));
  (* directives are declared, and applied with literals that Python has *)
  sr_declared : directives_declared s directives applied default_strawberry_config;
  sr_flat : flat_schema s (sb_builtin_directives default_strawberry_config) applied;
  sr_arguments : forall d a ad, In d directives -> ~ In (dd_name d) (sb_builtin_directives default_strawberry_config) -> In (a, ad) (dd_args d) ->
     is_scalar s (gty_name (arg_type ad)) = true /\ In (gty_name (arg_type ad)) scalars_of_templates;
  sr_scaffold : scaffold_named st s directives applied default_strawberry_config }.
End Server.
