(** turms/config.py: how a configuration file and the environment become a configuration; turms/run.py:78-118 and 196-214.
    No proofs in this file.

    The classes are pydantic settings.  What pydantic and pydantic-settings do is written down as follows: a field is
    taken from the file, else from its environment variable, else from its default; objects given by both are merged, the
    file has priority.  Variables of fields with structured types hold JSON, which [decode] parses.  A settings class
    nested in another one reads the environment by itself, with its own prefix.  Values are those of [model_dump]: JSON.
    Not modelled: the texts of errors ([None] is any of them), [1.0] and [0.0] for Booleans, normalisation of URLs. *)
From Verif Require Import Base PyAst Gql Config Loaders.

(** ** Types of fields *)
Inductive leaf : Type :=
| LBool | LStr | LPath | LLit (l : list string) | LAny | LProxy | LSchema
| LList (p : leaf) | LMap (p : leaf) | LOpt (p : leaf).
(** whether the variable of a field holds JSON: always, if it can be parsed, or never *)
Inductive text := Plain | Json | MaybeJson.
Definition leaf_text (p : leaf) : text :=
  match p with
  | LList _ | LMap _ => Json
  | LOpt (LList _) | LOpt (LMap _) | LSchema => MaybeJson
  | _ => Plain
  end.
Record sfield (K : Type) : Type := SField { sf_key : string; sf_env : string; sf_kind : K; sf_default : option json }.
Arguments SField {K}. Arguments sf_key {K}. Arguments sf_env {K}. Arguments sf_kind {K}. Arguments sf_default {K}.

Fixpoint all_some {A B} (f : A -> option B) (l : list A) : option (list B) :=
  match l with
  | [] => Some []
  | x :: r => match f x, all_some f r with Some y, Some ys => Some (y :: ys) | _, _ => None end
  end.
(** pydantic's [deep_update]: what [high] gives is kept *)
Fixpoint deep_update (low high : json) : json :=
  match low, high with
  | JObject l, JObject h =>
      JObject ((fix go (h : dict json) (acc : dict json) : dict json :=
                  match h with
                  | [] => acc
                  | (k, v) :: r => go r (dset k (match dget k acc with Some x => deep_update x v | None => v end) acc)
                  end) h l)
  | _, _ => high
  end.
(** pydantic's words for Booleans *)
Definition true_words : list string := ["1"; "on"; "t"; "true"; "y"; "yes"].
Definition false_words : list string := ["0"; "off"; "f"; "false"; "n"; "no"].
(** names of variables do not depend on case; later ones win *)
Definition env_vars (environ : list (string * string)) : dict string := dict_of (map (fun kv => (str_lower (fst kv), snd kv)) environ).

Section Load.
Variable builtins : list string.
Variable importable : string -> bool.
Variable decode : string -> option json.
Variable env : dict string.

(** config.py:427-428 *)
Definition valid_headers (v : json) : bool :=
  match v with
  | JObject d => match dget "headers" d with
                 | Some (JObject h) => forallb (fun kv => match snd kv with JString _ => true | _ => false end) h
                 | _ => false
                 end
  | _ => false
  end.
(** config.py:431 SchemaField *)
Definition valid_schema_field (v : json) : bool :=
  match v with JString _ => true | JObject d => forallb (fun kv => valid_headers (snd kv)) d | _ => false end.
(** a value of a type; config.py:66-70 PythonType, 362-372 validate_importable *)
Fixpoint validate (p : leaf) (v : json) : option json :=
  match p, v with
  | LBool, JBool b => Some (JBool b)
  | LBool, JNumber t => if String.eqb t "1" then Some (JBool true) else if String.eqb t "0" then Some (JBool false) else None
  | LBool, JString t => if mem (str_lower t) true_words then Some (JBool true)
                        else if mem (str_lower t) false_words then Some (JBool false) else None
  | LStr, JString t => Some (JString t)
  | LPath, JString t => match pythontype_validate builtins t with Ok x => Some (JString x) | Err _ => None end
  | LLit l, JString t => if mem t l then Some (JString t) else None
  | LAny, v => Some v
  | LProxy, JObject d => match dget "type" d with
                         | Some (JString t) => if importable t then Some (JObject d) else None
                         | _ => None
                         end
  | LSchema, JArray l => if forallb valid_schema_field l then Some v else None
  | LSchema, v => if valid_schema_field v then Some v else None
  | LList p, JArray l => option_map JArray (all_some (validate p) l)
  | LMap p, JObject d => option_map JObject (all_some (fun kv => option_map (pair (fst kv)) (validate p (snd kv))) d)
  | LOpt p, JNull => Some JNull
  | LOpt p, v => validate p v
  | _, _ => None
  end.

(** ** A settings class *)
Section Settings.
Variable K : Type.
Variable text_of : K -> text.
Variable valid : K -> json -> option json.
(** what the environment gives for a field; None is an error *)
Definition from_env (f : sfield K) : option (option json) :=
  match dget (str_lower (sf_env f)) env with
  | None => Some None
  | Some t => match text_of (sf_kind f) with
              | Plain => Some (Some (JString t))
              | Json => option_map Some (decode t)
              | MaybeJson => Some (Some (match decode t with Some v => v | None => JString t end))
              end
  end.
Definition over (low high : option json) : option json :=
  match low, high with
  | Some l, Some h => Some (deep_update l h)
  | Some l, None => Some l
  | None, h => h
  end.
Definition load_field (file : dict json) (f : sfield K) : option (string * json) :=
  match from_env f with
  | None => None
  | Some e => match over e (dget (sf_key f) file) with
              | Some v => option_map (pair (sf_key f)) (valid (sf_kind f) v)
              | None => match sf_default f with
                        | Some v => option_map (pair (sf_key f)) (valid (sf_kind f) v)
                        | None => None
                        end
              end
  end.
(** [allow]: extra="allow" *)
Definition settings (fs : list (sfield K)) (allow : bool) (file : dict json) : option (dict json) :=
  let extra := filter (fun kv => negb (mem (fst kv) (map sf_key fs))) file in
  match extra, allow with
  | _ :: _, false => None
  | _, _ => option_map (fun d => d ++ extra) (all_some (load_field file) fs)
  end.
End Settings.

(** ** The classes of config.py *)
Definition jstrings (l : list string) : json := JArray (map JString l).
Definition field_of (prefix : string) (x : string * leaf * json) : sfield leaf :=
  let '(k, p, v) := x in SField k (prefix +s+ k) p (Some v).
(** config.py:73-80 *)
Definition LKinds : leaf := LList (LLit ["input"; "fragment"; "object"; "mutation"; "query"; "subscription"; "directive"]).
Definition default_kinds : json := jstrings ["input"; "fragment"; "object"].
(** config.py:99-139 FreezeConfig and 144-187 OptionsConfig: no prefix *)
Definition freeze_fields : list (sfield leaf) := map (field_of "")
  [("enabled", LBool, JBool false); ("types", LKinds, default_kinds); ("exclude", LOpt (LList LStr), JNull);
   ("include", LOpt (LList LStr), JNull); ("exclude_fields", LOpt (LList LStr), JArray []);
   ("include_fields", LOpt (LList LStr), JArray []); ("convert_list_to_tuple", LBool, JBool true)].
Definition options_fields : list (sfield leaf) := map (field_of "")
  [("enabled", LBool, JBool false); ("extra", LOpt (LLit ["ignore"; "allow"; "forbid"]), JNull); ("allow_mutation", LOpt LBool, JNull);
   ("allow_population_by_field_name", LOpt LBool, JNull); ("orm_mode", LOpt LBool, JNull); ("use_enum_values", LOpt LBool, JNull);
   ("validate_assignment", LOpt LBool, JNull); ("types", LKinds, default_kinds); ("exclude", LOpt (LList LStr), JNull);
   ("include", LOpt (LList LStr), JNull)].
(** fields of GeneratorConfig *)
Inductive gkind := GLeaf (p : leaf) | GSettings (fs : list (sfield leaf)).
Definition gkind_text (k : gkind) : text := match k with GLeaf p => leaf_text p | GSettings _ => Json end.
Definition validate_gkind (k : gkind) (v : json) : option json :=
  match k, v with
  | GLeaf p, _ => validate p v
  | GSettings fs, JObject d => option_map JObject (settings leaf leaf_text validate fs false d)
  | GSettings _, _ => None
  end.
Definition gfield (x : string * gkind * json) : sfield gkind := let '(k, p, v) := x in SField k ("TURMS_" +s+ k) p (Some v).
(** config.py:193-349; the rules of validate_omited_document_rules (374-382) and validate_additional_bases (384-399) are part of the types *)
Definition generator_fields : list (sfield gkind) := map gfield
  [("pydantic_version", GLeaf (LLit ["v1"; "v2"]), JString "v2"); ("domain", GLeaf (LOpt LStr), JNull); ("out_dir", GLeaf LStr, JString "api");
   ("dump_configuration", GLeaf LBool, JBool false); ("configuration_name", GLeaf LStr, JString "project.json");
   ("dump_schema", GLeaf LBool, JBool false); ("schema_name", GLeaf LStr, JString "schema.graphql");
   ("generated_name", GLeaf LStr, JString "schema.py"); ("documents", GLeaf (LOpt LStr), JNull); ("verbose", GLeaf LBool, JBool false);
   ("exit_on_error", GLeaf LBool, JBool true); ("allow_introspection", GLeaf LBool, JBool true);
   ("object_bases", GLeaf (LList LStr), jstrings ["pydantic.BaseModel"]); ("interface_bases", GLeaf (LOpt (LList LStr)), JNull);
   ("always_resolve_interfaces", GLeaf LBool, JBool true); ("exclude_typenames", GLeaf LBool, JBool false);
   ("scalar_definitions", GLeaf (LMap LPath), JObject []); ("coercible_scalars", GLeaf (LMap LPath), JObject []);
   ("coercible_inputs", GLeaf (LMap LPath), JObject []); ("graphql_default_class", GLeaf (LOpt LPath), JNull);
   ("deprecated_class", GLeaf (LOpt LPath), JNull); ("document_field_metadata", GLeaf LBool, JBool true);
   ("unset_type_class", GLeaf (LOpt LPath), JNull); ("unset_instance", GLeaf (LOpt LPath), JNull);
   ("freeze", GSettings freeze_fields, JObject []); ("create_catchall", GLeaf LBool, JBool true);
   ("options", GSettings options_fields, JObject []); ("skip_forwards", GLeaf LBool, JBool false);
   ("additional_bases", GLeaf (LMap (LList LPath)), JObject []); ("additional_config", GLeaf (LMap (LMap LAny)), JObject []);
   ("force_plugin_order", GLeaf LBool, JBool true); ("omited_document_rules", GLeaf (LList (LLit specified_rules_map)), JArray []);
   ("parsers", GLeaf (LList LProxy), JArray []); ("plugins", GLeaf (LList LProxy), JArray []);
   ("processors", GLeaf (LList LProxy), JArray []); ("stylers", GLeaf (LList LProxy), JArray [])].
Definition is_null (v : option json) : bool := match v with None | Some JNull => true | _ => false end.
Definition load_generator (file : dict json) : option (dict json) :=
  match settings gkind gkind_text validate_gkind generator_fields false file with
  | Some c => if Bool.eqb (is_null (dget "unset_type_class" c)) (is_null (dget "unset_instance" c)) then Some c else None
  | None => None
  end.

(** config.py:411-473 Extensions, GraphQLProject, GraphQLConfigSingle.  A field with an alias has the variable of the alias,
    without prefix *)
Inductive pkind := PLeaf (p : leaf) | PExtensions.
Definition pkind_text (k : pkind) : text := match k with PLeaf p => leaf_text p | PExtensions => Json end.
Definition validate_pkind (k : pkind) (v : json) : option json :=
  match k, v with
  | PLeaf p, _ => validate p v
  | PExtensions, JObject d => match dget "turms" d with
                              | Some (JObject t) => option_map (fun c => JObject [("turms", JObject c)]) (load_generator t)
                              | _ => None
                              end
  | PExtensions, _ => None
  end.
Definition project_fields : list (sfield pkind) :=
  [SField "schema" "schema" (PLeaf LSchema) None; SField "documents" "TURMS_GRAPHQL_documents" (PLeaf (LOpt LStr)) (Some JNull);
   SField "extensions" "TURMS_GRAPHQL_extensions" PExtensions None].
Definition load_project (file : dict json) : option (dict json) := settings pkind pkind_text validate_pkind project_fields true file.
(** config.py:447-461 GraphQLConfigMultiple: no prefix *)
Definition validate_projects (_ : unit) (v : json) : option json :=
  match v with
  | JObject d => option_map JObject (all_some (fun kv => match snd kv with
                                                         | JObject p => option_map (fun x => (fst kv, JObject x)) (load_project p)
                                                         | _ => None
                                                         end) d)
  | _ => None
  end.
Definition load_multiple (file : dict json) : option (dict json) :=
  settings unit (fun _ => Json) validate_projects [SField "projects" "projects" tt None] true file.
(** run.py:102-108: the projects of a file *)
Definition load_projects (file : dict json) : option (dict json) :=
  if dmem "projects" file then
    match load_multiple file with
    | Some c => match dget "projects" c with Some (JObject ps) => Some ps | _ => None end
    | None => None
    end
  else option_map (fun p => [("default", JObject p)]) (load_project file).
End Load.

(** run.py:196-214 write_project: [model_dump_json] writes names of fields, not aliases *)
Definition dump_project (p : dict json) : dict json :=
  map (fun kv => if String.eqb (fst kv) "schema" then ("schema_url", snd kv) else kv) p.

(** ** The part of a configuration that Config.v has *)
Section Record.
Variable number : string -> const.
Definition as_str (v : json) : string := match v with JString t => t | _ => "" end.
Definition as_bool (v : json) : bool := match v with JBool b => b | _ => false end.
Definition as_opt {A} (f : json -> A) (v : json) : option A := match v with JNull => None | _ => Some (f v) end.
Definition as_list {A} (f : json -> A) (v : json) : list A := match v with JArray l => map f l | _ => [] end.
Definition as_dict {A} (f : json -> A) (v : json) : dict A := match v with JObject d => map (fun kv => (fst kv, f (snd kv))) d | _ => [] end.
Definition as_const (v : json) : const :=
  match v with JBool b => CBool b | JString t => CStr t | JNumber t => number t | _ => CNone end.
Definition as_kind (v : json) : gqltypes :=
  match as_str v with
  | "input" => KInput | "fragment" => KFragment | "object" => KObject | "mutation" => KMutation | "query" => KQuery
  | "subscription" => KSubscription | _ => KDirective
  end.
Definition at_key (c : dict json) (k : string) : json := match dget k c with Some v => v | None => JNull end.
Definition section_at (c : dict json) (k : string) : dict json := match dget k c with Some (JObject d) => d | _ => [] end.
Definition to_freeze (c : dict json) : freezeconfig :=
  FreezeConfig (as_bool (at_key c "enabled")) (as_list as_kind (at_key c "types")) (as_opt (as_list as_str) (at_key c "exclude"))
    (as_opt (as_list as_str) (at_key c "include")) (as_bool (at_key c "convert_list_to_tuple")).
Definition to_options (c : dict json) : optionsconfig :=
  OptionsConfig (as_bool (at_key c "enabled")) (as_opt as_str (at_key c "extra")) (as_opt as_bool (at_key c "allow_mutation"))
    (as_opt as_bool (at_key c "allow_population_by_field_name")) (as_opt as_bool (at_key c "orm_mode")) (as_opt as_bool (at_key c "use_enum_values"))
    (as_opt as_bool (at_key c "validate_assignment")) (as_list as_kind (at_key c "types")) (as_opt (as_list as_str) (at_key c "exclude"))
    (as_opt (as_list as_str) (at_key c "include")).
Definition to_gconfig (c : dict json) : gconfig :=
  let k := at_key c in
  GConfig (as_str (k "pydantic_version")) (as_opt as_str (k "documents")) (as_list as_str (k "object_bases")) (as_opt (as_list as_str) (k "interface_bases"))
    (as_bool (k "always_resolve_interfaces")) (as_bool (k "exclude_typenames")) (as_dict as_str (k "scalar_definitions")) (as_dict as_str (k "coercible_scalars"))
    (as_dict as_str (k "coercible_inputs")) (as_opt as_str (k "graphql_default_class")) (as_opt as_str (k "deprecated_class")) (as_bool (k "document_field_metadata"))
    (as_opt as_str (k "unset_type_class")) (as_opt as_str (k "unset_instance")) (to_freeze (section_at c "freeze")) (as_bool (k "create_catchall"))
    (to_options (section_at c "options")) (as_bool (k "skip_forwards")) (as_dict (as_list as_str) (k "additional_bases")) (as_dict (as_dict as_const) (k "additional_config"))
    (as_bool (k "force_plugin_order")) (as_list as_str (k "omited_document_rules")) (as_bool (k "exit_on_error")) (as_bool (k "allow_introspection"))
    (as_str (k "out_dir")) (as_str (k "generated_name")) (as_bool (k "dump_schema")) (as_str (k "schema_name")) (as_bool (k "dump_configuration")) (as_str (k "configuration_name")).
End Record.
