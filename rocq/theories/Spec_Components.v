(** The options of the components turms ships, as the documentation says (website/docs/config.md:253-309).  Independent of how they are loaded. *)
From Verif Require Import Base Loaders Spec_Settings.

Definition texts (l : list string) : json := JArray (map JString l).
Definition bools (b : bool) (l : list string) : list (string * otype * json) := map (fun o => (o, OBool, JBool b)) l.
Definition words (v : string) (l : list string) : list (string * otype * json) := map (fun o => (o, OStr, JString v)) l.
Definition names (l : list string) : list (string * otype * json) := map (fun o => (o, OList OStr, JArray [])) l.
Definition paths (l : list string) : list (string * otype * json) := map (fun o => (o, OMap OPath, JObject [])) l.
Definition globs (l : list string) : list (string * otype * json) := map (fun o => (o, OMaybe OStr, JNull)) l.
(** component, prefix of its variables, options with types and defaults.  The documentation gives the prefix TURMS_ for all of them *)
Definition plugin_options : list (string * string * list (string * otype * json)) :=
  [("turms.plugins.enums.EnumsPlugin", "TURMS_PLUGINS_ENUMS_",
    bools false ["skip_underscore"] ++ bools true ["skip_double_underscore"; "skip_unreferenced"] ++ words "" ["prepend"; "append"]);
   ("turms.plugins.inputs.InputsPlugin", "TURMS_PLUGINS_INPUTS_",
    ("inputtype_bases", OList OStr, texts ["pydantic.BaseModel"]) :: bools true ["allow_population_by_field_name"; "skip_underscore"; "skip_unreferenced"]);
   ("turms.plugins.objects.ObjectsPlugin", "TURMS_PLUGINS_OBJECTS_",
    ("types_bases", OList OStr, texts ["pydantic.BaseModel"]) :: bools false ["skip_underscore"] ++ bools true ["skip_double_underscore"]);
   ("turms.plugins.fragments.FragmentsPlugin", "TURMS_PLUGINS_FRAGMENTS_",
    names ["fragment_bases"] ++ globs ["fragments_glob"] ++ bools true ["add_documentation"; "generate_meta_class"]);
   ("turms.plugins.operations.OperationsPlugin", "TURMS_PLUGINS_OPERATIONS_",
    names ["query_bases"; "mutation_bases"; "subscription_bases"] ++ globs ["operations_glob"] ++ bools true ["create_arguments"; "extract_documentation"]
    ++ bools false ["arguments_allow_population_by_field_name"]);
   ("turms.plugins.funcs.FuncsPlugin", "TURMS_PLUGINS_FUNCS_",
    words "" ["prepend_sync"] ++ words "a" ["prepend_async"] ++ bools true ["collapse_lonely"] ++ names ["expand_input_types"] ++ bools false ["argument_key_is_styled"]
    ++ paths ["coercible_scalars"]);
   ("turms.plugins.input_funcs.InputFuncsPlugin", "TURMS_PLUGINS_INPUTFUNCS_",
    paths ["coercible_scalars"] ++ bools true ["skip_underscore"; "skip_unreferenced"; "extract_documentation"] ++ words "" ["prepend"]);
   ("turms.plugins.strawberry.StrawberryPlugin", "TURMS_PLUGINS_STRAWBERRY_",
    bools true ["generate_directives"; "generate_scalars"] ++ [("builtin_directives", OList OStr, texts ["include"; "skip"; "deprecated"; "specifiedBy"; "oneOf"]);
     ("builtin_scalars", OList OStr, texts ["String"; "Boolean"; "DateTime"; "Int"; "Float"; "ID"])])].
(** their variables have no prefix *)
Definition bare_options : list (string * string * list (string * otype * json)) :=
  [("turms.stylers.default.DefaultStyler", "", []); ("turms.stylers.snake_case.SnakeCaseStyler", "", []);
   ("turms.stylers.appender.AppenderStyler", "",
    [("append_fragment", OStr, JString "Fragment"); ("append_query", OStr, JString "Query"); ("append_mutation", OStr, JString "Mutation");
     ("append_subscription", OStr, JString "Subscription")] ++ words "" ["append_enum"; "append_input"]);
   ("turms.processors.black.BlackProcessor", "", []); ("turms.processors.isort.IsortProcessor", "", []); ("turms.processors.merge.MergeProcessor", "", []);
   ("turms.processors.ruff.RuffProcessor", "", bools true ["format"] ++ bools false ["fix"])].
Definition component_options := plugin_options ++ bare_options.
(** further options, by component: those with other types, and those the documentation does not mention *)
Definition further_options (t : string) : list string :=
  match dget t [("turms.plugins.fragments.FragmentsPlugin", ["object_bases"]); ("turms.plugins.operations.OperationsPlugin", ["arguments_bases"]);
                ("turms.plugins.funcs.FuncsPlugin", ["definitions"; "global_args"; "global_kwargs"; "funcs_glob"; "generate_protocol"; "extract_documentation"; "coercible_inputs"]);
                ("turms.plugins.input_funcs.InputFuncsPlugin", ["coercible_inputs"]);
                ("turms.plugins.strawberry.StrawberryPlugin", ["generate_enums"; "generate_types"; "generate_inputs"; "types_bases"; "inputtype_bases"; "skip_underscore";
                  "skip_double_underscore"; "generate_directives_func"; "generate_enums_func"])] with
  | Some l => l
  | None => []
  end.

(** ** Lists of objects with fixed keys: definitions, global_args, global_kwargs *)
Section Objects.
Variable A : Type.
Variable value : A -> json -> json -> Prop.
(** an object with these keys; a key without default is required *)
Definition object_of (keys : list (string * A * option json)) (raw v : json) : Prop :=
  exists d z, raw = JObject d /\ v = JObject z /\ map fst z = map (fun x => fst (fst x)) keys
  /\ Forall (fun x : string * A * option json => let '(o, t, def) := x in exists y, dget o z = Some y /\ match dget o d with Some r => value t r y | None => def = Some y end) keys.
Definition objects_of (keys : list (string * A * option json)) (raw v : json) : Prop :=
  exists l k, raw = JArray l /\ v = JArray k /\ Forall2 (object_of keys) l k.
End Objects.
(** an argument: [description] is what an omitted description becomes *)
Definition argument (description : string) : list (string * otype * option json) :=
  [("key", OStr, None); ("type", OStr, None); ("description", OStr, Some (JString description))].
Definition keyword (description : string) : list (string * otype * option json) := argument description ++ [("default", OFree, Some JNull)].
Inductive part := POption (t : otype) | PObjects (keys : list (string * otype * option json)).
(** how a kind of operation is turned into a function: config.md:266-281 *)
Definition definition (description : string) : list (string * part * option json) :=
  [("type", POption (OOne ["query"; "mutation"; "subscription"]), None); ("is_async", POption OBool, Some (JBool false));
   ("extra_args", PObjects (argument description), Some (JArray [])); ("extra_kwargs", PObjects (keyword description), Some (JArray [])); ("use", POption OStr, None)].
Section Parts.
Variable builtins : list string.
Variable importable : string -> bool.
Definition part_value (p : part) : json -> json -> Prop :=
  match p with POption t => means builtins importable t | PObjects keys => objects_of otype (means builtins importable) keys end.
(** the option [o] of the loaded component [c] is such a list *)
Definition has_objects (decode : string -> option json) (environ : list (string * string)) {A} (value : A -> json -> json -> Prop)
    (file : dict json) (prefix : string) (c : dict json) (o : string) (keys : list (string * A * option json)) : Prop :=
  exists v, dget o c = Some v /\ ((exists raw, given decode environ file o (OList OFree) (prefix +s+ o) raw /\ objects_of A value keys raw v)
    \/ (not_given environ file o (prefix +s+ o) /\ v = JArray [])).
End Parts.

(** an entry that follows the documentation *)
Definition documented_entry (builtins : list string) (importable : string -> bool) (t : string) (options : list (string * otype * json)) (entry : dict json) : Prop :=
  dget "type" entry = Some (JString t) /\ incl (dkeys entry) ("type" :: map (fun x => fst (fst x)) options)
  /\ forall o ty d raw, In (o, ty, d) options -> dget o entry = Some raw -> exists v, means builtins importable ty raw v.
(** variables with a prefix *)
Definition with_prefix (prefix n : string) : Prop := exists r, str_lower n = str_lower prefix +s+ r.
(** a command is a text or a list of texts *)
Definition command_value (v : json) : Prop := (exists w, v = JString w) \/ exists l, v = JArray (map JString l).
Definition python_versions : list string := ["3.7"; "3.8"; "3.9"; "3.10"; "3.11"; "3.12"; "3.13"].
