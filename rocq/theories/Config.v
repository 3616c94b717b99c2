(** Generator configuration (turms/config.py) and document rules (turms/rules.py).
    Only the options that influence generation are kept.  No proofs in this file. *)
From Verif Require Import Base PyAst Gql.

(** config.py:73-80 GraphQLTypes *)
Inductive gqltypes : Set :=
| KInput | KFragment | KObject | KMutation | KQuery | KSubscription | KDirective.

Definition gqltypes_eqb (a b : gqltypes) : bool :=
  match a, b with
  | KInput, KInput | KFragment, KFragment | KObject, KObject | KMutation, KMutation
  | KQuery, KQuery | KSubscription, KSubscription | KDirective, KDirective => true
  | _, _ => false
  end.

(** config.py:99-139 FreezeConfig ([exclude_fields]/[include_fields] are never read) *)
Record freezeconfig : Set := FreezeConfig {
  fz_enabled : bool; fz_types : list gqltypes;
  fz_exclude : option (list string); fz_include : option (list string);
  fz_convert_list_to_tuple : bool }.

(** config.py:144-187 OptionsConfig *)
Record optionsconfig : Set := OptionsConfig {
  oc_enabled : bool; oc_extra : option string; oc_allow_mutation : option bool;
  oc_allow_population_by_field_name : option bool; oc_orm_mode : option bool;
  oc_use_enum_values : option bool; oc_validate_assignment : option bool;
  oc_types : list gqltypes;
  oc_exclude : option (list string); oc_include : option (list string) }.

(** config.py:193-349 GeneratorConfig *)
Record gconfig : Type := GConfig {
  c_pydantic_version : string;                        (* "v1" or "v2" *)
  c_documents : option string;
  c_object_bases : list string;
  c_interface_bases : option (list string);
  c_always_resolve_interfaces : bool;
  c_exclude_typenames : bool;
  c_scalar_definitions : dict string;
  c_coercible_scalars : dict string;
  c_coercible_inputs : dict string;
  c_graphql_default_class : option string;
  c_deprecated_class : option string;
  c_document_field_metadata : bool;
  c_unset_type_class : option string;
  c_unset_instance : option string;
  c_freeze : freezeconfig;
  c_create_catchall : bool;
  c_options : optionsconfig;
  c_skip_forwards : bool;
  c_additional_bases : dict (list string);
  c_additional_config : dict (dict const);
  c_force_plugin_order : bool;
  c_omited_document_rules : list string;
  c_exit_on_error : bool;
  c_allow_introspection : bool;
  c_out_dir : string; c_generated_name : string;
  c_dump_schema : bool; c_schema_name : string;
  c_dump_configuration : bool; c_configuration_name : string }.

(** Defaults: config.py:99-187 and 193-349 *)
Definition default_freeze : freezeconfig :=
  FreezeConfig false [KInput; KFragment; KObject] None None true.
Definition default_options : optionsconfig :=
  OptionsConfig false None None None None None None [KInput; KFragment; KObject] None None.
Definition default_config : gconfig :=
  GConfig "v2" None ["pydantic.BaseModel"] None true false [] [] [] None None true None None
          default_freeze true default_options false [] [] true [] true true
          "api" "schema.py" false "schema.graphql" false "project.json".

(** config.py:351-360 validate_unset_override *)
Definition validate_unset_override (c : gconfig) : res gconfig :=
  if xorb (match c_unset_type_class c with None => true | _ => false end)
          (match c_unset_instance c with None => true | _ => false end)
  then rraise ValueErrorC "unset_type_class and unset_instance must be set together (or neither)."
  else Ok c.

(** rules.py: specified_rules_map (keys in order; a rule is identified with its key) *)
Definition specified_rules_map : list string :=
  ["executable_definitions"; "unique_operation_names"; "lone_anonymous_operation";
   "single_field_subscriptions"; "known_type_names"; "fragments_on_composite_types";
   "variables_are_input_types"; "scalar_leafs"; "fields_on_correct_type";
   "unique_fragment_names"; "known_fragment_names"; "possible_fragment_spreads";
   "no_fragment_cycles"; "no_unused_fragments"; "unique_variable_names";
   "no_undefined_variables"; "no_unused_variables"; "known_directives";
   "unique_directives_per_location"; "known_argument_names"; "unique_argument_names";
   "values_of_correct_type"; "provided_required_arguments"; "variables_in_allowed_position";
   "overlapping_fields_can_be_merged"; "unique_input_field_names"].

(** config.py:374-382 validate_omited_document_rules *)
Fixpoint validate_omited_document_rules (v : list string) : res unit :=
  match v with
  | [] => Ok tt
  | r :: rest => if mem r specified_rules_map then validate_omited_document_rules rest
                 else rraise ValueErrorC ("Invalid rule: " +s+ r)
  end.

(** config.py:401-408 get_document_rules *)
Definition get_document_rules (c : gconfig) : list string :=
  filter (fun key => negb (mem key (c_omited_document_rules c))) specified_rules_map.

(** config.py:66-70 PythonType.validate; [builtins] is [dir(builtins)] *)
Definition pythontype_validate (builtins : list string) (v : string) : res string :=
  if mem v builtins then Ok v
  else if has_dot v then Ok v
  else rraise AssertionErrorC "You need to point to a module if its not a builtin type".

(** config.py:384-399 validate_additional_bases *)
Definition validate_additional_bases (builtins : list string) (v : dict (list string)) : res unit :=
  if forallb (fun kv => forallb (fun b => mem b builtins || has_dot b) (snd kv)) v
  then Ok tt else rraise ValueErrorC "You need to point to a module if its not a builtin type".
