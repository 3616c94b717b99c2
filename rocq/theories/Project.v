(** turms/run.py:380-460 generate, from the loaded project to the generated statements, and the files turms/cli/main.py:50-198 writes.
    No proofs in this file.
    Building the schema is a parameter; so is [parse_documents], by the pattern it is called with.  The file is the value that
    [yaml.dump] writes and [yaml.safe_load] reads back. *)
From Verif Require Import Base PyAst Gql Config Stylers Loaders Registry Utils Recurse Print Enums Inputs Objects Fragments Operations Funcs InputFuncs Strawberry Run Settings Components.

Section Project.
Variable number : string -> const.
Variable iter : list string -> list string.
Variable s : schema.
Variable directives : list directivedef.
Variable applied : string -> list directive.
Variable parse : string -> res document.
Variable ps : string -> bool -> string.
Variable add : string -> res string.
Variable doc_of : operation -> option string.

(** [a or b] for patterns; a missing and an empty pattern are both false *)
Definition pattern (a b : option string) : option string := if truthy a then a else if truthy b then b else None.
Definition documents_at (g : option string) : res document :=
  match g with Some g => parse g | None => Err (Exn TypeErrorC "") end.
(** a plugin from its options: enums.py:112-140, inputs.py:805-830, objects.py:418-440, fragments.py:650-681, operations.py:478-520,
    funcs.py:1385-1430, input_funcs.py:200-221, strawberry.py:1157-1200 *)
Definition to_plugin (c : gconfig) (st : list styler) (domain : option string) (x : string * dict json) : option plugin :=
  let '(t, o) := x in
  let docs := documents_at (c_documents c) in
  let at_pattern (k : string) := pattern (as_opt as_str (at_key o k)) (c_documents c) in
  if String.eqb t "turms.plugins.enums.EnumsPlugin" then Some (Plugin "EnumsPlugin" (enums_plugin c st (to_enums o) s docs))
  else if String.eqb t "turms.plugins.inputs.InputsPlugin" then Some (Plugin "InputsPlugin" (inputs_plugin c st (to_inputs o) s docs))
  else if String.eqb t "turms.plugins.objects.ObjectsPlugin" then Some (Plugin "ObjectsPlugin" (Objects.generate_types c st s (to_objects o)))
  else if String.eqb t "turms.plugins.fragments.FragmentsPlugin" then
    Some (Plugin "FragmentsPlugin" (match at_pattern "fragments_glob" with
                                    | Some g => let* d := lift (parse g) in fragments_plugin c st s (to_fragments o) (print_fragment ps) add d
                                    | None => ret []
                                    end))
  else if String.eqb t "turms.plugins.operations.OperationsPlugin" then
    Some (Plugin "OperationsPlugin" (match at_pattern "operations_glob" with
                                     | Some g => let* d := lift (parse g) in operations_plugin c st s (to_operations domain o) (print_operation ps) add doc_of d
                                     | None => raise ValueErrorC "No documents found. Please provide a glob pattern for the documents."
                                     end))
  else if String.eqb t "turms.plugins.funcs.FuncsPlugin" then
    Some (Plugin "FuncsPlugin" (let* d := lift (documents_at (at_pattern "funcs_glob")) in funcs_plugin c st s (to_funcs number o) doc_of d))
  else if String.eqb t "turms.plugins.input_funcs.InputFuncsPlugin" then Some (Plugin "InputFuncsPlugin" (input_funcs_plugin c st (to_input_funcs o) s docs))
  else if String.eqb t "turms.plugins.strawberry.StrawberryPlugin" then
    Some (Plugin "StrawberryPlugin" (strawberry_plugin c st s directives applied (to_strawberry o)))
  else None.

Variable builtins : list string.
Variable importable : string -> bool.
Variable number_str : string -> string.
Variable decode : string -> option json.
Variable env : dict string.
Notation load_components := (load_components builtins importable number_str decode env).
(** what run.py:404-460 makes of a project: the generated statements before the parsers, the parsers and the processors *)
Record output : Type := Output { out_tree : res (list stmt); out_parsers : list (string * dict json); out_processors : list (string * dict json) }.
Definition generate_project (p : dict json) : option output :=
  let turms := section_at (section_at p "extensions") "turms" in
  (* run.py:409 *)
  let documents := match at_key turms "documents" with JString (String _ _) => at_key turms "documents" | _ => at_key p "documents" end in
  let c := to_gconfig number (dset "documents" documents turms) in
  match load_components turms "parsers", load_components turms "plugins", load_components turms "stylers", load_components turms "processors" with
  | Some parsers, Some plugins, Some stylers, Some processors =>
      match all_some to_styler stylers with
      | Some st => match all_some (to_plugin c st (as_opt as_str (at_key turms "domain"))) plugins with
                   | Some pls => Some (Output (generate_ast c iter pls (c_skip_forwards c)) parsers processors)
                   | None => None
                   end
      | None => None
      end
  | _, _, _, _ => None
  end.
(** run.py:90-118 and cli/main.py:206-262: the projects of a file *)
Definition generate_file (file : dict json) : option (dict output) :=
  match load_projects builtins importable decode env file with
  | Some projects => all_some (fun kv => match snd kv with JObject p => option_map (pair (fst kv)) (generate_project p) | _ => None end) projects
  | None => None
  end.
End Project.
Arguments Output : clear implicits.

(** ** cli/main.py:50-198: the starter files.  [installed] is [importlib.util.find_spec(module) is not None] *)
Section Files.
Variable installed : string -> bool.
Definition typed (t : string) : json := JObject [("type", JString t)].
(** main.py:50-53, 68-76 *)
Definition formatters : list json :=
  flat_map (fun mp => if installed (fst mp) then [typed (snd mp)] else [])
    [("black", "turms.processors.black.BlackProcessor"); ("isort", "turms.processors.isort.IsortProcessor")].
(** main.py:55-65 *)
Definition starter_stylers : json := JArray (map typed ["turms.stylers.capitalize.CapitalizeStyler"; "turms.stylers.snake_case.SnakeCaseStyler"]).
Definition starter_plugins : list json :=
  map typed ["turms.plugins.enums.EnumsPlugin"; "turms.plugins.inputs.InputsPlugin"; "turms.plugins.fragments.FragmentsPlugin"; "turms.plugins.operations.OperationsPlugin"].
(** main.py:79-84 *)
Definition starter_project (turms : dict json) (schema : string) (documents : option string) : dict json :=
  [("projects", JObject [("default", JObject ([("schema", JString schema)] ++ (match documents with Some g => [("documents", JString g)] | None => [] end)
    ++ [("extensions", JObject [("turms", JObject turms)])]))])].
(** main.py:87-98; the processors are left out if there are none *)
Definition with_processors (l : list json) : dict json := match l with [] => [] | _ => [("processors", JArray l)] end.
Definition uuid_definition : json := JObject [("uuid", JString "str")].
Definition client_file (plugins : list json) : dict json :=
  starter_project ([("out_dir", JString "api"); ("stylers", starter_stylers); ("plugins", JArray plugins)] ++ with_processors formatters ++ [("scalar_definitions", uuid_definition)])
    "https://countries.trevorblades.com/" (Some "graphql/**.graphql").
Definition documents_file : dict json := client_file starter_plugins.
(** main.py:101-145 *)
Definition described_argument (t k d : string) : json := JObject [("type", JString t); ("key", JString k); ("description", JString d)].
Definition async_definition (k u : string) : json := JObject [("type", JString k); ("is_async", JBool true); ("use", JString u)].
Definition sync_definition (k u : string) : json := JObject [("type", JString k); ("use", JString u)].
Definition rath_file : dict json := client_file (starter_plugins ++ [JObject
  [("type", JString "turms.plugins.funcs.FuncsPlugin");
   ("global_kwargs", JArray [described_argument "rath.Rath" "rath" "The client we want to use (defaults to the currently active client)"]);
   ("definitions", JArray [async_definition "query" "api.proxies.aexecute"; async_definition "mutation" "api.proxies.aexecute"; async_definition "subscription" "api.proxies.asubscribe";
                           sync_definition "query" "api.proxies.execute"; sync_definition "mutation" "api.proxies.execute"; sync_definition "subscription" "api.proxies.subscribe"])]]).
Definition gql_file : dict json := client_file (starter_plugins ++ [JObject
  [("type", JString "turms.plugins.funcs.FuncsPlugin");
   ("global_args", JArray [described_argument "gql.Client" "client" "The client we want to use to execute the operation"]);
   ("definitions", JArray [sync_definition "query" "api.proxies.execute"; sync_definition "mutation" "api.proxies.execute"; sync_definition "subscription" "api.proxies.subscribe"])]]).
(** main.py:148-165 *)
Definition strawberry_file : dict json :=
  starter_project [("out_dir", JString "api"); ("skip_forwards", JBool true); ("stylers", starter_stylers);
    ("plugins", JArray [typed "turms.plugins.strawberry.StrawberryPlugin"]);
    ("processors", JArray ([typed "turms.processors.disclaimer.DisclaimerProcessor"] ++ formatters
                           ++ (if installed "libcst" then [typed "turms.processors.merge.MergeProcessor"] else [])));
    ("scalar_definitions", uuid_definition)] "schema.graphql" None.
End Files.
