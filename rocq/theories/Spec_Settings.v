(** Where options come from, as the documentation says (website/docs/config.md).  Independent of how they are loaded. *)
From Verif Require Import Base Loaders.

(** ** Types of options *)
Inductive otype : Type :=
| OBool | OStr | OPath | OOne (l : list string) | OFree | OComponent
| OList (t : otype) | OMap (t : otype) | OMaybe (t : otype).
(** the words for Booleans, in any case *)
Definition word_bool (w : string) (b : bool) : Prop :=
  In (str_lower w) (if b then ["1"; "true"; "yes"; "on"; "t"; "y"] else ["0"; "false"; "no"; "off"; "f"; "n"]).
Section Values.
Variable builtins : list string.
Variable importable : string -> bool.
(** [means t raw v]: [raw] stands for the value [v] of type [t] *)
Fixpoint means (t : otype) (raw v : json) : Prop :=
  match t with
  | OBool => exists b, v = JBool b /\ (raw = JBool b \/ raw = JNumber (if b then "1" else "0") \/ exists w, raw = JString w /\ word_bool w b)
  | OStr => raw = v /\ exists x, v = JString x
  | OPath => raw = v /\ exists x, v = JString x /\ (In x builtins \/ exists a b, x = a +s+ "." +s+ b)
  | OOne l => raw = v /\ exists x, v = JString x /\ In x l
  | OFree => raw = v
  | OComponent => raw = v /\ exists d n, v = JObject d /\ dget "type" d = Some (JString n) /\ importable n = true
  | OList t => exists l k, raw = JArray l /\ v = JArray k /\ Forall2 (means t) l k
  | OMap t => exists l k, raw = JObject l /\ v = JObject k /\ Forall2 (fun a b => fst a = fst b /\ means t (snd a) (snd b)) l k
  | OMaybe t => (raw = JNull /\ v = JNull) \/ means t raw v
  end.
End Values.
(** options whose variable holds JSON *)
Definition structured (t : otype) : bool :=
  match t with OList _ | OMap _ | OMaybe (OList _) | OMaybe (OMap _) => true | _ => false end.

(** ** The documented options: config.md:66-110 and 190-240 *)
Definition general_options : list (string * otype * json) :=
  [("out_dir", OStr, JString "api"); ("generated_name", OStr, JString "schema.py"); ("documents", OMaybe OStr, JNull); ("domain", OMaybe OStr, JNull);
   ("verbose", OBool, JBool false); ("exit_on_error", OBool, JBool true); ("allow_introspection", OBool, JBool true); ("dump_schema", OBool, JBool false);
   ("schema_name", OStr, JString "schema.graphql"); ("dump_configuration", OBool, JBool false); ("configuration_name", OStr, JString "project.json");
   ("pydantic_version", OOne ["v1"; "v2"], JString "v2"); ("object_bases", OList OStr, JArray [JString "pydantic.BaseModel"]);
   ("interface_bases", OMaybe (OList OStr), JNull); ("always_resolve_interfaces", OBool, JBool true); ("create_catchall", OBool, JBool true);
   ("exclude_typenames", OBool, JBool false); ("skip_forwards", OBool, JBool false); ("scalar_definitions", OMap OPath, JObject []);
   ("coercible_scalars", OMap OPath, JObject []); ("coercible_inputs", OMap OPath, JObject []); ("graphql_default_class", OMaybe OPath, JNull);
   ("deprecated_class", OMaybe OPath, JNull); ("document_field_metadata", OBool, JBool true); ("unset_type_class", OMaybe OPath, JNull);
   ("unset_instance", OMaybe OPath, JNull); ("additional_bases", OMap (OList OPath), JObject []); ("additional_config", OMap (OMap OFree), JObject []);
   ("force_plugin_order", OBool, JBool true);
   ("parsers", OList OComponent, JArray []); ("plugins", OList OComponent, JArray []); ("stylers", OList OComponent, JArray []); ("processors", OList OComponent, JArray [])].
(** omited_document_rules is a list of names of rules, see C43 *)
Definition other_options : list string := ["omited_document_rules"; "freeze"; "options"].
Definition kinds : otype := OList (OOne ["input"; "fragment"; "object"; "mutation"; "query"; "subscription"; "directive"]).
Definition default_kinds : json := JArray [JString "input"; JString "fragment"; JString "object"].
Definition freeze_options : list (string * otype * json) :=
  [("enabled", OBool, JBool false); ("types", kinds, default_kinds); ("include", OMaybe (OList OStr), JNull); ("exclude", OMaybe (OList OStr), JNull);
   ("include_fields", OMaybe (OList OStr), JArray []); ("exclude_fields", OMaybe (OList OStr), JArray []); ("convert_list_to_tuple", OBool, JBool true)].
Definition pydantic_options : list (string * otype * json) :=
  [("enabled", OBool, JBool false); ("extra", OMaybe (OOne ["ignore"; "allow"; "forbid"]), JNull); ("use_enum_values", OMaybe OBool, JNull);
   ("validate_assignment", OMaybe OBool, JNull); ("allow_population_by_field_name", OMaybe OBool, JNull); ("allow_mutation", OMaybe OBool, JNull);
   ("orm_mode", OMaybe OBool, JNull); ("types", kinds, default_kinds); ("include", OMaybe (OList OStr), JNull); ("exclude", OMaybe (OList OStr), JNull)].

(** ** Sources *)
(** objects of Python have no key twice *)
Fixpoint uniq (v : json) : Prop :=
  match v with
  | JArray l => (fix go (l : list json) : Prop := match l with [] => True | x :: r => uniq x /\ go r end) l
  | JObject d => NoDup (map fst d) /\ (fix go (d : list (string * json)) : Prop := match d with [] => True | x :: r => uniq (snd x) /\ go r end) d
  | _ => True
  end.
(** the value of a variable: names are compared without case, the last one counts *)
Fixpoint variable (environ : list (string * string)) (n : string) : option string :=
  match environ with
  | [] => None
  | (k, v) :: r => match variable r n with
                   | Some x => Some x
                   | None => if String.eqb (str_lower k) (str_lower n) then Some v else None
                   end
  end.
Section Sources.
Variable decode : string -> option json.
Variable environ : list (string * string).
(** what the variable [n] gives for an option of type [t] *)
Definition in_variable (t : otype) (n : string) (raw : json) : Prop :=
  exists x, variable environ n = Some x /\ if structured t then decode x = Some raw else raw = JString x.
(** objects in the file and in the variable: entries of the file have priority, entry by entry *)
Inductive overlay : json -> json -> json -> Prop :=
| ov_objects l h v : (forall k, dget k h = None -> dget k v = dget k l) -> (forall k y, dget k h = Some y -> dget k l = None -> dget k v = Some y) ->
    (forall k x y, dget k h = Some y -> dget k l = Some x -> exists z, dget k v = Some z /\ overlay x y z) -> overlay (JObject l) (JObject h) (JObject v)
| ov_other l h : (forall a b, l = JObject a -> h = JObject b -> False) -> overlay l h h.
(** [raw] is given for the option [o] of type [t] in the section [file], with the variable [n] *)
Inductive given (file : dict json) (o : string) (t : otype) (n : string) : json -> Prop :=
| g_file raw : dget o file = Some raw -> (forall x, ~ in_variable t n x) -> given file o t n raw
| g_env raw : dget o file = None -> in_variable t n raw -> given file o t n raw
| g_both x y raw : dget o file = Some y -> in_variable t n x -> overlay x y raw -> given file o t n raw.
Definition not_given (file : dict json) (o : string) (n : string) : Prop := dget o file = None /\ variable environ n = None.
(** the option [o] of the loaded section [c] has its value or the documented default *)
Definition has_option (builtins : list string) (importable : string -> bool) (file : dict json) (prefix : string) (c : dict json) (x : string * otype * json) : Prop :=
  let '(o, t, d) := x in
  exists v, dget o c = Some v /\ ((exists raw, given file o t (prefix +s+ o) raw /\ means builtins importable t raw v) \/ (not_given file o (prefix +s+ o) /\ v = d)).
(** the section [o] of the file, an object *)
Definition section (file : dict json) (o : string) (d : dict json) : Prop :=
  given file o (OMap OFree) ("TURMS_" +s+ o) (JObject d) \/ (not_given file o ("TURMS_" +s+ o) /\ d = []).
End Sources.
(** variables that belong to turms by their name *)
Definition turms_variable (n : string) : Prop := exists r, str_lower n = str_lower "TURMS_" +s+ r.
(** the same variables of turms *)
Definition same_turms (e1 e2 : list (string * string)) : Prop := forall n, turms_variable n -> variable e1 n = variable e2 n.
(** variables without prefix that are read all the same *)
Definition unprefixed : list string :=
  ["SCHEMA"; "PROJECTS"; "ENABLED"; "TYPES"; "EXCLUDE"; "INCLUDE"; "EXCLUDE_FIELDS"; "INCLUDE_FIELDS"; "CONVERT_LIST_TO_TUPLE"; "EXTRA"; "ALLOW_MUTATION";
   "ALLOW_POPULATION_BY_FIELD_NAME"; "ORM_MODE"; "USE_ENUM_VALUES"; "VALIDATE_ASSIGNMENT"].
(** none of them is set *)
Definition plain_environ (environ : list (string * string)) : Prop := forall n, In n unprefixed -> variable environ n = None.
(** the option of the loaded section [z] is what the section [d] gives, else the default; no variable counts *)
Definition from_section (builtins : list string) (importable : string -> bool) (d z : dict json) (x : string * otype * json) : Prop :=
  let '(o, t, def) := x in exists v, dget o z = Some v /\ match dget o d with Some raw => means builtins importable t raw v | None => v = def end.
(** a file that follows the documentation, with general options only *)
Definition absent (file : dict json) (o : string) : Prop := dget o file = None \/ dget o file = Some JNull.
Definition documented (builtins : list string) (importable : string -> bool) (file : dict json) : Prop :=
  incl (map fst file) (map (fun x => fst (fst x)) general_options)
  /\ (forall o t d raw, In (o, t, d) general_options -> dget o file = Some raw -> exists v, means builtins importable t raw v)
  /\ (absent file "unset_type_class" <-> absent file "unset_instance").
