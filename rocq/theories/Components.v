(** The options of the components turms ships: turms/plugins, turms/parsers, turms/stylers and turms/processors, and how
    run.py:404-450 and 282-295 make them from the entries of a configuration.  No proofs in this file.

    An entry is a ConfigProxy (config.py:30-32): [type] and any further keys.  Each component has a [config] field whose class is a
    pydantic settings class, so it reads the environment with the prefix of that class (Settings.v), or in one case a plain model.
    Not modelled: components that are not part of turms ([None]), the texts of errors. *)
From Verif Require Import Base PyAst Gql Config Stylers Loaders Registry Utils Recurse Enums Inputs Objects Fragments Operations Funcs Strawberry Settings.

(** ** Types of options *)
(** a model within a list: keys, types and defaults; a key without default is required, further keys are ignored *)
Definition rows (A : Type) : Type := list (string * A * option json).
Inductive dkind := DLeaf (p : leaf) | DRecords (r : rows leaf).
(** [CVersion]: python_version; [CCommand]: Union[str, List[str]]; [CFunc]: a function given by its path *)
Inductive ckind := CLeaf (p : leaf) | CVersion | CCommand | CRecords (r : rows dkind) | CFunc.
Definition ckind_text (k : ckind) : text :=
  match k with CLeaf p => leaf_text p | CVersion | CFunc => Plain | CCommand => MaybeJson | CRecords _ => Json end.

Section Load.
Variable builtins : list string.
Variable importable : string -> bool.
(** [str] of a number with this text *)
Variable number_str : string -> string.
Notation validate := (validate builtins importable).

Definition validate_record {A} (valid : A -> json -> option json) (r : rows A) (v : json) : option json :=
  match v with
  | JObject d => option_map JObject (all_some (fun x : string * A * option json => let '(o, k, def) := x in
      option_map (pair o) (match dget o d with Some y => valid k y | None => def end)) r)
  | _ => None
  end.
Definition validate_records {A} (valid : A -> json -> option json) (r : rows A) (v : json) : option json :=
  match v with JArray l => option_map JArray (all_some (validate_record valid r) l) | _ => None end.
Definition validate_dkind (k : dkind) : json -> option json :=
  match k with DLeaf p => validate p | DRecords r => validate_records validate r end.
(** polyfill.py:14-22 *)
Definition versions : list string := ["3.7"; "3.8"; "3.9"; "3.10"; "3.11"; "3.12"; "3.13"].
Definition validate_version (v : json) : option json :=
  match v with
  | JString t => if mem t versions then Some (JString t) else None
  | JNumber t => if mem (number_str t) versions then Some (JString (number_str t)) else None
  | _ => None
  end.
(** the functions that are defaults, strawberry.py:389-390 *)
Definition own_functions : list string := ["turms.plugins.strawberry.default_generate_directives"; "turms.plugins.strawberry.default_generate_enums"].
Definition validate_ckind (k : ckind) (v : json) : option json :=
  match k, v with
  | CLeaf p, _ => validate p v
  | CVersion, _ => validate_version v
  | CCommand, JString t => Some v
  | CCommand, _ => validate (LList LStr) v
  | CRecords r, _ => validate_records validate_dkind r v
  | CFunc, JString t => if has_dot t && (mem t own_functions || importable t) then Some v else None (* config.py:44-54 *)
  | CFunc, _ => None
  end.

(** ** The classes *)
(** [Settings_]: prefix of the variables; further keys are an error.  [Model]: no variables, further keys are ignored *)
Inductive cclass := Settings_ (prefix : string) (fs : list (string * ckind * option json)) | Model (fs : rows ckind).
Definition opt (k : string) (p : leaf) (v : json) : string * ckind * option json := (k, CLeaf p, Some v).
Definition ctype (v : string) : string * ckind * option json := opt "type" LStr (JString v).
Definition empty : json := JArray [].
(** enums.py:20-27 *)
Definition enums_class : cclass := Settings_ "TURMS_PLUGINS_ENUMS_"
  [ctype "turms.plugins.enums.EnumsPlugin"; opt "skip_underscore" LBool (JBool false); opt "skip_double_underscore" LBool (JBool true);
   opt "skip_unreferenced" LBool (JBool true); opt "prepend" LStr (JString ""); opt "append" LStr (JString "")].
(** inputs.py:37-45 *)
Definition inputs_class : cclass := Settings_ "TURMS_PLUGINS_INPUTS_"
  [ctype "turms.plugins.inputs.InputsPlugin"; opt "inputtype_bases" (LList LStr) (jstrings ["pydantic.BaseModel"]);
   opt "allow_population_by_field_name" LBool (JBool true); opt "skip_underscore" LBool (JBool true); opt "skip_unreferenced" LBool (JBool true)].
(** objects.py:34-39 *)
Definition objects_class : cclass := Settings_ "TURMS_PLUGINS_OBJECTS_"
  [ctype "turms.plugins.objects.ObjectsPlugin"; opt "types_bases" (LList LStr) (jstrings ["pydantic.BaseModel"]); opt "skip_underscore" LBool (JBool false);
   opt "skip_double_underscore" LBool (JBool true)].
(** fragments.py:129-136 *)
Definition fragments_class : cclass := Settings_ "TURMS_PLUGINS_FRAGMENTS_"
  [ctype "turms.plugins.fragments.FragmentsPlugin"; opt "fragment_bases" (LList LStr) empty; opt "object_bases" (LList LStr) empty; opt "fragments_glob" (LOpt LStr) JNull;
   opt "add_documentation" LBool (JBool true); opt "generate_meta_class" LBool (JBool true)].
(** operations.py:40-50 *)
Definition operations_class : cclass := Settings_ "TURMS_PLUGINS_OPERATIONS_"
  [ctype "turms.plugins.operations.OperationsPlugin"; opt "query_bases" (LList LStr) empty; opt "arguments_bases" (LList LStr) empty; opt "mutation_bases" (LList LStr) empty;
   opt "subscription_bases" (LList LStr) empty; opt "operations_glob" (LOpt LStr) JNull; opt "create_arguments" LBool (JBool true);
   opt "extract_documentation" LBool (JBool true); opt "arguments_allow_population_by_field_name" LBool (JBool false)].
(** funcs.py:57-75 Arg, Kwarg, FunctionDefinition *)
Definition described : string := "Specify that in turms.plugin.funcs.OperationsFuncPlugin".
Definition arg_rows : rows leaf := [("key", LStr, None); ("type", LStr, None); ("description", LStr, Some (JString described))].
Definition kwarg_rows : rows leaf := arg_rows ++ [("default", LAny, Some JNull)].
Definition leaf_rows (r : rows leaf) : rows dkind := map (fun x : string * leaf * option json => let '(o, p, d) := x in (o, DLeaf p, d)) r.
Definition definition_rows : rows dkind :=
  [("type", DLeaf (LLit ["query"; "mutation"; "subscription"]), None); ("is_async", DLeaf LBool, Some (JBool false)); ("extra_args", DRecords arg_rows, Some empty);
   ("extra_kwargs", DRecords kwarg_rows, Some empty); ("use", DLeaf LStr, None)].
(** funcs.py:78-97 *)
Definition funcs_class : cclass := Settings_ "TURMS_PLUGINS_FUNCS_"
  [ctype "turms.plugins.funcs.FuncsPlugin"; opt "funcs_glob" (LOpt LStr) JNull; opt "prepend_sync" LStr (JString ""); opt "prepend_async" LStr (JString "a");
   opt "collapse_lonely" LBool (JBool true); opt "generate_protocol" LBool (JBool false); ("global_args", CRecords (leaf_rows arg_rows), Some empty);
   ("global_kwargs", CRecords (leaf_rows kwarg_rows), Some empty); ("definitions", CRecords definition_rows, Some empty); opt "extract_documentation" LBool (JBool true);
   opt "argument_key_is_styled" LBool (JBool false); opt "expand_input_types" (LList LStr) empty; opt "coercible_scalars" (LMap LPath) (JObject []);
   opt "coercible_inputs" (LMap LPath) (JObject [])].
(** input_funcs.py:34-48 *)
Definition input_funcs_class : cclass := Settings_ "TURMS_PLUGINS_INPUTFUNCS_"
  [ctype "turms.plugins.input_funcs.InputFuncsPlugin"; opt "coercible_scalars" (LMap LPath) (JObject []); opt "coercible_inputs" (LMap LPath) (JObject []);
   opt "skip_underscore" LBool (JBool true); opt "skip_unreferenced" LBool (JBool true); opt "prepend" LStr (JString ""); opt "extract_documentation" LBool (JBool true)].
(** strawberry.py:367-390 *)
Definition strawberry_class : cclass := Settings_ "TURMS_PLUGINS_STRAWBERRY_"
  [ctype "turms.plugins.strawberry.Strawberry"; opt "generate_directives" LBool (JBool true); opt "generate_scalars" LBool (JBool true);
   opt "builtin_directives" (LList LStr) (jstrings ["include"; "skip"; "deprecated"; "specifiedBy"; "oneOf"]);
   opt "builtin_scalars" (LList LStr) (jstrings ["String"; "Boolean"; "DateTime"; "Int"; "Float"; "ID"]); opt "generate_enums" LBool (JBool true);
   opt "generate_types" LBool (JBool true); opt "generate_inputs" LBool (JBool true); opt "types_bases" (LList LStr) empty; opt "inputtype_bases" (LList LStr) empty;
   opt "skip_underscore" LBool (JBool false); opt "skip_double_underscore" LBool (JBool true);
   ("generate_directives_func", CFunc, Some (JString "turms.plugins.strawberry.default_generate_directives"));
   ("generate_enums_func", CFunc, Some (JString "turms.plugins.strawberry.default_generate_enums"))].
(** parsers/polyfill.py:8-22 *)
Definition polyfill_class : cclass := Settings_ "TURMS_PARSERS_POLYFILL_"
  [ctype "turms.parsers.polyfill.PolyfillPlugin"; opt "skip_underscore" LBool (JBool true); ("python_version", CVersion, Some (JString "3.9"))].
(** stylers/appender.py:5-12, stylers/capitalize.py:5-12, stylers/default.py:11-12, stylers/snake_case.py:11-12 *)
Definition appender_class : cclass := Settings_ ""
  [ctype "turms.stylers.appender.AppenderStyler"; opt "append_fragment" LStr (JString "Fragment"); opt "append_query" LStr (JString "Query");
   opt "append_mutation" LStr (JString "Mutation"); opt "append_subscription" LStr (JString "Subscription"); opt "append_enum" LStr (JString "");
   opt "append_input" LStr (JString "")].
Definition capitalize_class : cclass := Model
  (ctype "turms.stylers.capitalize.CapitalizerSyler"
   :: map (fun k => opt ("capitalize_" +s+ k) LBool (JBool true)) ["fragment"; "query"; "mutation"; "subscription"; "enum"; "input"]).
Definition type_class (t : string) : cclass := Settings_ "" [ctype t].
(** processors: ruff.py:9-13, command.py:9-19, disclaimer.py:6-9 *)
Definition ruff_class : cclass := Settings_ "" [ctype "turms.processors.ruff.RuffProcessor"; opt "format" LBool (JBool true); opt "fix" LBool (JBool false)].
Definition command_class : cclass := Settings_ "" [ctype "turms.processors.command.CommandProcessor"; ("command", CCommand, None)].
Definition disclaimer_text : string :=
  """"""" This file was code generated by turms. If you want to change the contents of this file, you should make sure to add the MergeProcessor to your config will keep your changes when you re-run turms).""""""" +s+ nl +s+ "    ".
Definition disclaimer_class : cclass := Settings_ "" [ctype "turms.processors.black.DisclaimerProcessor"; opt "disclaimer" LStr (JString disclaimer_text)].
(** by the path of the component *)
Definition components : dict cclass :=
  [("turms.plugins.enums.EnumsPlugin", enums_class); ("turms.plugins.inputs.InputsPlugin", inputs_class); ("turms.plugins.objects.ObjectsPlugin", objects_class);
   ("turms.plugins.fragments.FragmentsPlugin", fragments_class); ("turms.plugins.operations.OperationsPlugin", operations_class);
   ("turms.plugins.funcs.FuncsPlugin", funcs_class); ("turms.plugins.input_funcs.InputFuncsPlugin", input_funcs_class);
   ("turms.plugins.strawberry.StrawberryPlugin", strawberry_class); ("turms.parsers.polyfill.PolyfillParser", polyfill_class);
   ("turms.stylers.default.DefaultStyler", type_class "turms.stylers.default.DefaultStyler"); ("turms.stylers.capitalize.CapitalizeStyler", capitalize_class);
   ("turms.stylers.snake_case.SnakeCaseStyler", type_class "turms.stylers.snake_case.SnakeCaseStyler"); ("turms.stylers.appender.AppenderStyler", appender_class);
   ("turms.processors.black.BlackProcessor", type_class "turms.processors.black.BlackProcessor"); ("turms.processors.isort.IsortProcessor", type_class "turms.processors.isort.IsortProcessor");
   ("turms.processors.ruff.RuffProcessor", ruff_class); ("turms.processors.command.CommandProcessor", command_class);
   ("turms.processors.merge.MergeProcessor", type_class "turms.processors.merge.MergeProcessor"); ("turms.processors.disclaimer.DisclaimerProcessor", disclaimer_class)].

Variable decode : string -> option json.
Variable env : dict string.
Definition cfield (prefix : string) (x : string * ckind * option json) : sfield ckind := let '(k, p, v) := x in SField k (prefix +s+ k) p v.
Definition load_class (cl : cclass) (entry : dict json) : option (dict json) :=
  match cl with
  | Settings_ prefix fs => settings decode env ckind ckind_text validate_ckind (map (cfield prefix) fs) false entry
  | Model fs => match validate_record validate_ckind fs (JObject entry) with Some (JObject c) => Some c | _ => None end
  end.
(** the component of an entry and its options *)
Definition load_component (entry : dict json) : option (string * dict json) :=
  match dget "type" entry with
  | Some (JString t) => match dget t components with Some cl => option_map (pair t) (load_class cl entry) | None => None end
  | _ => None
  end.
(** run.py:404-450: the components of a loaded configuration *)
Definition load_components (c : dict json) (key : string) : option (list (string * dict json)) :=
  match dget key c with
  | Some (JArray l) => all_some (fun v => match v with JObject d => load_component d | _ => None end) l
  | _ => None
  end.
End Load.

(** ** The records the plugins of the other files take *)
Section Records.
Variable number : string -> const.
Notation k := at_key.
Definition strings (c : dict json) (o : string) : list string := as_list as_str (k c o).
Definition flag (c : dict json) (o : string) : bool := as_bool (k c o).
Definition to_enums (c : dict json) : enums_config := EnumsConfig (flag c "skip_underscore") (flag c "skip_double_underscore") (flag c "skip_unreferenced").
Definition to_inputs (c : dict json) : inputs_config := InputsConfig (strings c "inputtype_bases") (flag c "skip_underscore") (flag c "skip_unreferenced").
Definition to_objects (c : dict json) : obcfg := ObCfg (strings c "types_bases") (flag c "skip_underscore") (flag c "skip_double_underscore").
Definition to_fragments (c : dict json) : frcfg :=
  FrCfg (strings c "fragment_bases") (strings c "object_bases") (as_opt as_str (k c "fragments_glob")) (flag c "add_documentation") (flag c "generate_meta_class").
Definition to_operations (domain : option string) (c : dict json) : ocfg :=
  OCfg (strings c "query_bases") (strings c "arguments_bases") (strings c "mutation_bases") (strings c "subscription_bases") (flag c "create_arguments")
       (flag c "extract_documentation") domain.
Definition as_object (v : json) : dict json := match v with JObject d => d | _ => [] end.
Definition to_arg (v : json) : farg := let d := as_object v in FArg (as_str (k d "key")) (as_str (k d "type")) (as_str (k d "description")).
Definition to_kwarg (v : json) : fkwarg :=
  let d := as_object v in FKwarg (as_str (k d "key")) (as_str (k d "type")) (as_str (k d "description")) (as_const number (k d "default")).
Definition as_optype (v : json) : optype :=
  if String.eqb (as_str v) "mutation" then OpMutation else if String.eqb (as_str v) "subscription" then OpSubscription else OpQuery.
Definition to_definition (v : json) : fdef :=
  let d := as_object v in
  FDef (as_optype (k d "type")) (flag d "is_async") (as_list to_arg (k d "extra_args")) (as_list to_kwarg (k d "extra_kwargs")) (as_str (k d "use")).
Definition to_funcs (c : dict json) : fcfg :=
  FCfg (as_str (k c "prepend_sync")) (as_str (k c "prepend_async")) (flag c "collapse_lonely") (as_list to_arg (k c "global_args")) (as_list to_kwarg (k c "global_kwargs"))
       (as_list to_definition (k c "definitions")) (flag c "extract_documentation") (strings c "expand_input_types") (as_dict as_str (k c "coercible_scalars"))
       (as_dict as_str (k c "coercible_inputs")).
Definition to_input_funcs (c : dict json) : ifcfg :=
  IfCfg (as_dict as_str (k c "coercible_scalars")) (as_dict as_str (k c "coercible_inputs")) (flag c "skip_underscore") (flag c "skip_unreferenced")
        (as_str (k c "prepend")) (flag c "extract_documentation").
Definition to_strawberry (c : dict json) : sbcfg :=
  SbCfg (flag c "generate_directives") (flag c "generate_scalars") (flag c "generate_enums") (flag c "generate_types") (flag c "generate_inputs")
        (strings c "builtin_directives") (strings c "builtin_scalars") (strings c "inputtype_bases") (flag c "skip_underscore") (flag c "skip_double_underscore").
Definition to_appender (c : dict json) : appender_config :=
  AppenderConfig (as_str (k c "append_fragment")) (as_str (k c "append_query")) (as_str (k c "append_mutation")) (as_str (k c "append_subscription"))
                 (as_str (k c "append_enum")) (as_str (k c "append_input")).
End Records.
(** the stylers of a configuration *)
Definition to_styler (x : string * dict json) : option styler :=
  let '(t, c) := x in
  if String.eqb t "turms.stylers.default.DefaultStyler" then Some default_styler
  else if String.eqb t "turms.stylers.capitalize.CapitalizeStyler" then Some capitalize_styler
  else if String.eqb t "turms.stylers.snake_case.SnakeCaseStyler" then Some snake_styler
  else if String.eqb t "turms.stylers.appender.AppenderStyler" then Some (appender_styler (to_appender c))
  else None.
