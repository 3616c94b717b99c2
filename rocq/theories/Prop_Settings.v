(** C73: options come from the configuration file, TURMS_ variables or the documented defaults. *)
From Verif Require Import Base PyAst Gql Config Loaders Settings Spec_Settings P_Base P_Settings P_Settings2.

(** Full statement: [C73_options_partial] without [plain_environ], [C73_isolation_partial] for environments with the same
    variables of turms only, and: the project that is written loads as the same project. *)
Theorem C73_options_partial : forall builtins importable decode environ file c,
  uniq (JObject file) -> load_generator builtins importable decode (env_vars environ) file = Some c ->
  incl (dkeys file) (map (fun x => fst (fst x)) general_options ++ other_options)
  /\ Forall (has_option decode environ builtins importable file "TURMS_" c) general_options
  /\ (plain_environ environ ->
      (exists d z, section decode environ file "freeze" d /\ dget "freeze" c = Some (JObject z)
        /\ Forall (from_section builtins importable d z) freeze_options /\ incl (dkeys d) (map (fun x => fst (fst x)) freeze_options))
      /\ (exists d z, section decode environ file "options" d /\ dget "options" c = Some (JObject z)
        /\ Forall (from_section builtins importable d z) pydantic_options /\ incl (dkeys d) (map (fun x => fst (fst x)) pydantic_options))).
Proof. intros b i d e f c U H. exact (conj (known_options b i d e f c H) (conj (general_loaded b i d e f c U H) (fun P => sections_loaded b i d e f c P U H))). Qed.
Print Assumptions C73_options_partial.
Theorem C73_documented : forall builtins importable decode environ file,
  (forall n, turms_variable n -> variable environ n = None) -> plain_environ environ -> documented builtins importable file ->
  exists c, load_generator builtins importable decode (env_vars environ) file = Some c.
Proof. exact documented_loads. Qed.
Print Assumptions C73_documented.
(** other variables do not matter *)
Theorem C73_isolation_partial : forall builtins importable decode e1 e2 file,
  same_turms e1 e2 -> (forall n, In n unprefixed -> variable e1 n = variable e2 n) ->
  load_projects builtins importable decode (env_vars e1) file = load_projects builtins importable decode (env_vars e2) file.
Proof. intros b i d e1 e2 f H1 H2. exact (same_projects b i d e1 e2 H1 H2 f). Qed.
Print Assumptions C73_isolation_partial.
(** a loaded configuration loads as itself *)
Theorem C73_reload : forall builtins importable decode environ file c,
  load_generator builtins importable decode (env_vars environ) file = Some c -> load_generator builtins importable decode [] c = Some c.
Proof. exact load_again. Qed.
Print Assumptions C73_reload.

(** ** Examples *)
Definition ex_decode (t : string) : option json :=
  if String.eqb t "{""ID"": ""uuid.UUID"", ""Date"": ""datetime.date""}" then Some (JObject [("ID", JString "uuid.UUID"); ("Date", JString "datetime.date")])
  else if String.eqb t "{""enabled"": true}" then Some (JObject [("enabled", JBool true)]) else None.
Definition ex_load := load_generator ["str"; "int"] (fun n => String.eqb n "turms.plugins.enums.EnumsPlugin") ex_decode.
Definition ex_file : dict json :=
  [("generated_name", JString "api.py"); ("scalar_definitions", JObject [("ID", JString "str"); ("Any", JString "typing.Any")]);
   ("plugins", JArray [JObject [("type", JString "turms.plugins.enums.EnumsPlugin")]]); ("freeze", JObject [("types", JArray [JString "input"])])].
Definition ex_environ : list (string * string) :=
  [("PATH", "/bin"); ("TURMS_OUT_DIR", "generated"); ("TURMS_GENERATED_NAME", "other.py"); ("turms_verbose", "Yes"); ("TURMS_FREEZE", "{""enabled"": true}");
   ("TURMS_SCALAR_DEFINITIONS", "{""ID"": ""uuid.UUID"", ""Date"": ""datetime.date""}")].
Definition option_of (o : string) (c : option (dict json)) : option json := match c with Some d => dget o d | None => None end.
(** the file has priority, objects are merged *)
Example C73_ex : let c := ex_load (env_vars ex_environ) ex_file in
  map (fun o => option_of o c) ["out_dir"; "generated_name"; "verbose"; "exit_on_error"; "scalar_definitions"]
  = map Some [JString "generated"; JString "api.py"; JBool true; JBool true;
              JObject [("ID", JString "str"); ("Date", JString "datetime.date"); ("Any", JString "typing.Any")]]
  /\ option_map (fun c => (fz_enabled (c_freeze (to_gconfig (fun _ => CNone) c)), fz_types (c_freeze (to_gconfig (fun _ => CNone) c)))) c = Some (true, [KInput]).
Proof. vm_compute. split; reflexivity. Qed.
Example C73_ex_plain : plain_environ ex_environ.
Proof. intros n H. repeat (destruct H as [<-|H]; [reflexivity|]). destruct H. Qed.
Example C73_ex_uniq : uniq (JObject ex_file).
Proof. cbn. repeat split; repeat constructor; cbn; intuition discriminate. Qed.
(** mistakes fail *)
Example C73_ex_rejected : ex_load [] [("out_dri", JString "api")] = None /\ ex_load [] [("freeze", JObject [("enable", JBool true)])] = None
  /\ ex_load [] [("plugins", JArray [JObject [("type", JString "turms.plugin.Enums")]])] = None /\ ex_load [] [("scalar_definitions", JObject [("ID", JString "UUID")])] = None
  /\ ex_load [] [("unset_type_class", JString "x.T")] = None /\ ex_load (env_vars [("TURMS_OBJECT_BASES", "pydantic.BaseModel")]) [] = None.
Proof. vm_compute. repeat split; reflexivity. Qed.
(** without file and environment the configuration is the one of the other theorems *)
Example C73_ex_default : option_map (to_gconfig (fun _ => CNone)) (ex_load [] []) = Some default_config.
Proof. vm_compute. reflexivity. Qed.
Example C73_ex_documented : documented ["str"; "int"] (fun n => String.eqb n "turms.plugins.enums.EnumsPlugin") (firstn 3 ex_file).
Proof.
  split; [|split].
  - intros x [<-|[<-|[<-|[]]]]; apply mem_In; vm_compute; reflexivity.
  - intros o t d raw I D. repeat (destruct I as [[= <- <- <-]|I]; [try discriminate D; vm_compute in D; injection D as <-; eexists; apply P_Settings.validate_means; vm_compute; reflexivity|]). destruct I.
  - unfold absent. cbn. split; intros _; now left.
Qed.
Example C73_ex_isolation : same_turms ex_environ (("HOME", "/root") :: ex_environ).
Proof.
  intros n (r & H). cbn [variable]. destruct (variable ex_environ n); [reflexivity|]. replace (String.eqb (str_lower "HOME") (str_lower n)) with false; [reflexivity|]. rewrite H. reflexivity.
Qed.

(** ** Refutations *)
Definition ex_project : dict json :=
  [("schema", JString "schema.graphql"); ("documents", JString "docs/**/*.graphql"); ("extensions", JObject [("turms", JObject ex_file)])].
Definition ex_load_project := load_project ["str"; "int"] (fun n => String.eqb n "turms.plugins.enums.EnumsPlugin") ex_decode.
(** no project that is written with dump_configuration loads: run.py:212-214 writes [schema_url], the field is called [schema] *)
Theorem C73_dump_refuted : (exists p, ex_load_project [] ex_project = Some p)
  /\ forall builtins importable decode environ p, variable environ "SCHEMA" = None -> load_project builtins importable decode (env_vars environ) (dump_project p) = None.
Proof. split; [eexists; vm_compute; reflexivity|exact dump_unloadable]. Qed.
Print Assumptions C73_dump_refuted.
(** config.py:99-139: FreezeConfig reads the variable INCLUDE, which compilers on Windows use for a list of directories *)
Theorem C73_include_refuted : exists e1 e2 c, same_turms e1 e2 /\ ex_load (env_vars e1) ex_file = Some c /\ ex_load (env_vars e2) ex_file = None.
Proof.
  exists [], [("INCLUDE", "C:\VC\include;C:\ucrt")]. eexists. split; [|split; [vm_compute; reflexivity|vm_compute; reflexivity]].
  intros n (r & H). cbn [variable]. replace (String.eqb (str_lower "INCLUDE") (str_lower n)) with false; [reflexivity|]. rewrite H. reflexivity.
Qed.
Print Assumptions C73_include_refuted.
(** a variable ENABLED freezes classes *)
Theorem C73_enabled_refuted : exists c, ex_load (env_vars [("ENABLED", "1")]) [] = Some c
  /\ fz_enabled (c_freeze (to_gconfig (fun _ => CNone) c)) = true /\ oc_enabled (c_options (to_gconfig (fun _ => CNone) c)) = true.
Proof. eexists. vm_compute. repeat split; reflexivity. Qed.
Print Assumptions C73_enabled_refuted.
(** the variable of an option of a section has no effect *)
Theorem C73_section_variable_refuted : ex_load (env_vars [("TURMS_FREEZE_ENABLED", "1")]) [] = ex_load [] [] /\ ex_load [] [] <> None.
Proof. vm_compute. split; [reflexivity|discriminate]. Qed.
Print Assumptions C73_section_variable_refuted.
