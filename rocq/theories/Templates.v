(** turms/cli/main.py:50-198: the starter templates of [turms init].  No proofs in this file.
    A template is rendered to YAML and read back when code is generated; the model goes from the template to the configuration
    that reading it gives: what the template does not mention has the default of config.py and of the plugins. *)
From Verif Require Import Base PyAst Gql Config Stylers Registry Strawberry Enums Inputs Print Fragments Operations Funcs Run.

(** main.py:55-58 DEFAULT_STYLERS *)
Definition template_stylers : list styler := [capitalize_styler; snake_styler].
(** main.py:87-98, 148-165: [out_dir] and [scalar_definitions]; [documents] is taken from the project (run.py:409) *)
Definition template_config (documents : option string) (skip_forwards : bool) : gconfig :=
  GConfig "v2" documents ["pydantic.BaseModel"] None true false [("uuid", "str")] [] [] None None true None None
          default_freeze true default_options skip_forwards [] [] true [] true true
          "api" "schema.py" false "schema.graphql" false "project.json".
Definition client_config : gconfig := template_config (Some "graphql/**.graphql") false.
Definition server_config : gconfig := template_config None true.
(** main.py:60-65 DOCUMENT_PLUGINS with the defaults of fragments.py:129-136 and operations.py:40-50 *)
Definition default_fragments_config : frcfg := FrCfg [] [] None true true.
Definition default_operations_config : ocfg := OCfg [] [] [] [] true true None.
Section Plugins.
Variable s : schema.
Variable d : document.
Variable ps : string -> bool -> string.
Variable add : string -> res string.
Variable doc_of : operation -> option string.
Definition document_plugins : list plugin :=
  [Plugin "EnumsPlugin" (enums_plugin client_config template_stylers default_enums_config s (Ok d));
   Plugin "InputsPlugin" (inputs_plugin client_config template_stylers default_inputs_config s (Ok d));
   Plugin "FragmentsPlugin" (fragments_plugin client_config template_stylers s default_fragments_config (print_fragment ps) add d);
   Plugin "OperationsPlugin" (operations_plugin client_config template_stylers s default_operations_config (print_operation ps) add doc_of d)].
(** main.py:101-124 and 127-145: the functions for rath and for gql, funcs.py:78-97 *)
Definition functions_config (args : list farg) (kwargs : list fkwarg) (defs : list fdef) : fcfg := FCfg "" "a" true args kwargs defs true [] [] [].
Definition rath_functions : fcfg := functions_config []
  [FKwarg "rath" "rath.Rath" "The client we want to use (defaults to the currently active client)" CNone]
  [FDef OpQuery true [] [] "api.proxies.aexecute"; FDef OpMutation true [] [] "api.proxies.aexecute"; FDef OpSubscription true [] [] "api.proxies.asubscribe";
   FDef OpQuery false [] [] "api.proxies.execute"; FDef OpMutation false [] [] "api.proxies.execute"; FDef OpSubscription false [] [] "api.proxies.subscribe"].
Definition gql_functions : fcfg := functions_config [FArg "client" "gql.Client" "The client we want to use to execute the operation"] []
  [FDef OpQuery false [] [] "api.proxies.execute"; FDef OpMutation false [] [] "api.proxies.execute"; FDef OpSubscription false [] [] "api.proxies.subscribe"].
Definition function_plugins (pc : fcfg) : list plugin :=
  document_plugins ++ [Plugin "FuncsPlugin" (funcs_plugin client_config template_stylers s pc doc_of d)].
(** main.py:148-165 *)
Definition server_plugins (directives : list directivedef) (applied : string -> list directive) : list plugin :=
  [Plugin "StrawberryPlugin" (strawberry_plugin server_config template_stylers s directives applied default_strawberry_config)].
End Plugins.
(** what [turms gen] generates for each template, before the processors *)
Definition documents_template (iter : list string -> list string) s d ps add doc_of : res (list stmt) :=
  generate_ast client_config iter (document_plugins s d ps add doc_of) (c_skip_forwards client_config).
Definition functions_template (pc : fcfg) (iter : list string -> list string) s d ps add doc_of : res (list stmt) :=
  generate_ast client_config iter (function_plugins s d ps add doc_of pc) (c_skip_forwards client_config).
Definition server_template (iter : list string -> list string) s directives applied : res (list stmt) :=
  generate_ast server_config iter (server_plugins s directives applied) (c_skip_forwards server_config).
