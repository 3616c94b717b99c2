(** C76: the options of plugins, parsers, stylers and processors come from their entry, their variables or the documented defaults. *)
From Verif Require Import Base PyAst Gql Config Stylers Loaders Registry Utils Recurse Enums Inputs Objects Fragments Operations Funcs Strawberry Run Print Templates Settings Components Spec_Settings Spec_Components P_Base P_Settings P_Components.

(** Full statement: for every component of the documentation, with variables that start with TURMS_ and no others. *)
Theorem C76_options_partial : forall builtins importable number_str decode environ entry t prefix options c,
  In (t, prefix, options) component_options -> uniq (JObject entry) ->
  load_component builtins importable number_str decode (env_vars environ) entry = Some (t, c) ->
  dget "type" entry = Some (JString t)
  /\ incl (dkeys entry) ("type" :: map (fun x => fst (fst x)) options ++ further_options t)
  /\ Forall (has_option decode environ builtins importable entry prefix c) options.
Proof. intros b i ns d e en t p o c I U H. exact (conj (component_type b i ns d e en t c H) (component_loaded b i ns d e t p o en c I U H)). Qed.
Print Assumptions C76_options_partial.
(** how functions are made *)
Theorem C76_functions : forall builtins importable number_str decode environ entry c,
  uniq (JObject entry) -> load_component builtins importable number_str decode (env_vars environ) entry = Some ("turms.plugins.funcs.FuncsPlugin", c) ->
  has_objects decode environ (means builtins importable) entry "TURMS_PLUGINS_FUNCS_" c "global_args" (argument described)
  /\ has_objects decode environ (means builtins importable) entry "TURMS_PLUGINS_FUNCS_" c "global_kwargs" (keyword described)
  /\ has_objects decode environ (part_value builtins importable) entry "TURMS_PLUGINS_FUNCS_" c "definitions" (definition described).
Proof. exact funcs_loaded. Qed.
Print Assumptions C76_functions.
Theorem C76_python_version : forall builtins importable number_str decode environ entry c,
  load_component builtins importable number_str decode (env_vars environ) entry = Some ("turms.parsers.polyfill.PolyfillParser", c) ->
  exists v, dget "python_version" c = Some (JString v) /\ In v python_versions
  /\ (forall w, dget "python_version" entry = Some (JString w) -> v = w) /\ (forall w, dget "python_version" entry = Some (JNumber w) -> v = number_str w)
  /\ (dget "python_version" entry = None -> v = match variable environ "TURMS_PARSERS_POLYFILL_python_version" with Some w => w | None => "3.9" end).
Proof. exact version_loaded. Qed.
Print Assumptions C76_python_version.
Theorem C76_command : forall builtins importable number_str decode environ entry c,
  load_component builtins importable number_str decode (env_vars environ) entry = Some ("turms.processors.command.CommandProcessor", c) ->
  exists v, dget "command" c = Some v /\ command_value v
  /\ match dget "command" entry with Some raw => v = raw | None => exists x, variable environ "COMMAND" = Some x /\ (v = JString x \/ decode x = Some v) end.
Proof. exact command_loaded. Qed.
Print Assumptions C76_command.
(** entries that follow the documentation load *)
Theorem C76_documented : forall builtins importable number_str decode environ t prefix options entry,
  In (t, prefix, options) component_options -> documented_entry builtins importable t options entry ->
  (forall o, In o ("type" :: map (fun x => fst (fst x)) options ++ further_options t) -> variable environ (prefix +s+ o) = None) ->
  exists c, load_component builtins importable number_str decode (env_vars environ) entry = Some (t, c).
Proof. exact entry_loads. Qed.
Print Assumptions C76_documented.
(** a plugin looks at the variables with its prefix only *)
Theorem C76_isolation_partial : forall builtins importable number_str decode e1 e2 t prefix options entry,
  In (t, prefix, options) plugin_options -> dget "type" entry = Some (JString t) ->
  (forall n, with_prefix prefix n -> variable e1 n = variable e2 n) ->
  load_component builtins importable number_str decode (env_vars e1) entry = load_component builtins importable number_str decode (env_vars e2) entry.
Proof. exact same_plugin. Qed.
Print Assumptions C76_isolation_partial.

(** ** Examples *)
Definition ex_definitions : json :=
  JArray [JObject [("type", JString "query"); ("use", JString "lib.execute")]; JObject [("type", JString "mutation"); ("is_async", JString "yes"); ("use", JString "lib.aexecute");
          ("extra_kwargs", JArray [JObject [("key", JString "rath"); ("type", JString "rath.Rath")]])]].
Definition ex_decode (t : string) : option json :=
  if String.eqb t "[""ID""]" then Some (JArray [JString "ID"]) else if String.eqb t "[definitions]" then Some ex_definitions else None.
Definition ex_str (t : string) : string := if String.eqb t "3.10" then "3.1" else t.
Definition ex_component (environ : list (string * string)) (entry : dict json) := load_component ["str"; "int"] (fun _ => false) ex_str ex_decode (env_vars environ) entry.
Definition entry (t : string) (l : dict json) : dict json := ("type", JString t) :: l.
Definition ex_environ : list (string * string) :=
  [("PATH", "/bin"); ("TURMS_PLUGINS_ENUMS_SKIP_UNDERSCORE", "on"); ("turms_plugins_enums_prepend", "E"); ("TURMS_PLUGINS_STRAWBERRY_BUILTIN_SCALARS", "[""ID""]");
   ("TURMS_PLUGINS_FUNCS_DEFINITIONS", "[definitions]")].
Definition ex_entry : dict json := entry "turms.plugins.enums.EnumsPlugin" [("prepend", JString "P"); ("skip_unreferenced", JBool false)].
Example C76_ex : In ("turms.plugins.enums.EnumsPlugin", "TURMS_PLUGINS_ENUMS_", bools false ["skip_underscore"] ++ bools true ["skip_double_underscore"; "skip_unreferenced"] ++ words "" ["prepend"; "append"]) component_options
  /\ uniq (JObject ex_entry)
  /\ ex_component ex_environ ex_entry = Some ("turms.plugins.enums.EnumsPlugin",
       [("type", JString "turms.plugins.enums.EnumsPlugin"); ("skip_underscore", JBool true); ("skip_double_underscore", JBool true); ("skip_unreferenced", JBool false);
        ("prepend", JString "P"); ("append", JString "")]).
Proof. split; [now left|]. split; [cbn; repeat split; repeat constructor; cbn; intuition discriminate|]. vm_compute. reflexivity. Qed.
Example C76_ex_functions : option_map (fun x => f_definitions (to_funcs (fun _ => CNone) (snd x))) (ex_component ex_environ (entry "turms.plugins.funcs.FuncsPlugin" []))
  = Some [FDef OpQuery false [] [] "lib.execute"; FDef OpMutation true [] [FKwarg "rath" "rath.Rath" described CNone] "lib.aexecute"].
Proof. vm_compute. reflexivity. Qed.
(** 3.10 without quotes is the number 3.1 *)
Example C76_ex_version : option_map (fun x => at_key (snd x) "python_version") (ex_component [] (entry "turms.parsers.polyfill.PolyfillParser" [("python_version", JNumber "3.9")])) = Some (JString "3.9")
  /\ ex_component [] (entry "turms.parsers.polyfill.PolyfillParser" [("python_version", JNumber "3.10")]) = None.
Proof. vm_compute. split; reflexivity. Qed.
Example C76_ex_command : option_map (fun x => at_key (snd x) "command") (ex_component [("COMMAND", "rm")] (entry "turms.processors.command.CommandProcessor" [("command", JString "uvx ruff format -")])) = Some (JString "uvx ruff format -")
  /\ ex_component [] (entry "turms.processors.command.CommandProcessor" []) = None.
Proof. vm_compute. split; reflexivity. Qed.
(** mistakes fail *)
Example C76_ex_rejected : ex_component [] (entry "turms.plugins.enums.EnumsPlugin" [("skip_undercore", JBool true)]) = None
  /\ ex_component [] (entry "turms.plugins.inputs.InputsPlugin" [("inputtype_bases", JString "pydantic.BaseModel")]) = None
  /\ ex_component [] (entry "turms.plugins.funcs.FuncsPlugin" [("definitions", JArray [JObject [("type", JString "query")]])]) = None
  /\ ex_component [] (entry "turms.plugins.funcs.FuncsPlugin" [("definitions", JArray [JObject [("type", JString "fragment"); ("use", JString "f.g")]])]) = None.
Proof. vm_compute. repeat split; reflexivity. Qed.
(** without options and variables the plugins have the configurations of the other theorems *)
Definition ex_default {A} (f : dict json -> A) (t : string) : option A := option_map (fun x => f (snd x)) (ex_component [] (entry t [])).
Example C76_ex_defaults : ex_default to_enums "turms.plugins.enums.EnumsPlugin" = Some default_enums_config
  /\ ex_default to_inputs "turms.plugins.inputs.InputsPlugin" = Some default_inputs_config
  /\ ex_default to_objects "turms.plugins.objects.ObjectsPlugin" = Some default_objects_config
  /\ ex_default to_fragments "turms.plugins.fragments.FragmentsPlugin" = Some default_fragments_config
  /\ ex_default (to_operations None) "turms.plugins.operations.OperationsPlugin" = Some default_operations_config
  /\ ex_default to_strawberry "turms.plugins.strawberry.StrawberryPlugin" = Some default_strawberry_config
  /\ ex_default to_appender "turms.stylers.appender.AppenderStyler" = Some default_appender
  /\ ex_default (to_funcs (fun _ => CNone)) "turms.plugins.funcs.FuncsPlugin" = Some (FCfg "" "a" true [] [] [] true [] [] [])
  /\ ex_default to_input_funcs "turms.plugins.input_funcs.InputFuncsPlugin" = Some (IfCfg [] [] true true "" true).
Proof. vm_compute. repeat split; reflexivity. Qed.
Example C76_ex_documented : documented_entry ["str"; "int"] (fun _ => false) "turms.plugins.enums.EnumsPlugin"
  (bools false ["skip_underscore"] ++ bools true ["skip_double_underscore"; "skip_unreferenced"] ++ words "" ["prepend"; "append"]) ex_entry.
Proof.
  split; [reflexivity|]. split.
  - intros x [<-|[<-|[<-|[]]]]; apply mem_In; vm_compute; reflexivity.
  - intros o t d raw I D. repeat (destruct I as [[= <- <- <-]|I]; [try discriminate D; vm_compute in D; injection D as <-; eexists; apply P_Settings.validate_means; vm_compute; reflexivity|]). destruct I.
Qed.
Example C76_ex_isolation : forall n, with_prefix "TURMS_PLUGINS_ENUMS_" n -> variable ex_environ n = variable (("FORMAT", "no") :: ex_environ) n.
Proof.
  intros n (r & H). cbn [variable]. destruct (variable ex_environ n); [reflexivity|]. replace (String.eqb (str_lower "FORMAT") (str_lower n)) with false; [reflexivity|]. rewrite H. reflexivity.
Qed.

(** ** Refutations *)
(** config.md:294 and README.md:237: no class has this name *)
Theorem C76_parser_refuted : forall builtins importable number_str decode env l,
  load_component builtins importable number_str decode env (entry "turms.parsers.polyfill.PolyfillPlugin" l) = None.
Proof. reflexivity. Qed.
Print Assumptions C76_parser_refuted.
(** a variable that is not of turms switches a processor off, and gives another one its command *)
Lemma no_turms : forall n v, startswith "turms_" (str_lower n) = false -> same_turms [] [(n, v)].
Proof.
  intros n v H m (r & E). cbn [variable]. destruct (String.eqb_spec (str_lower n) (str_lower m)) as [Em|]; [|reflexivity]. exfalso. rewrite E in Em. rewrite Em in H. cbn in H. destruct r; discriminate H.
Qed.
Theorem C76_variable_refuted : exists v e, same_turms [] v /\ e = entry "turms.processors.ruff.RuffProcessor" []
  /\ option_map (fun x => at_key (snd x) "format") (ex_component [] e) = Some (JBool true) /\ option_map (fun x => at_key (snd x) "format") (ex_component v e) = Some (JBool false).
Proof. exists [("FORMAT", "0")]. eexists. split; [apply no_turms; reflexivity|]. split; [reflexivity|]. vm_compute. split; reflexivity. Qed.
Print Assumptions C76_variable_refuted.
Theorem C76_command_refuted : exists v e, same_turms [] v /\ e = entry "turms.processors.command.CommandProcessor" []
  /\ ex_component [] e = None /\ option_map (fun x => at_key (snd x) "command") (ex_component v e) = Some (JString "rm -rf /").
Proof. exists [("Command", "rm -rf /")]. eexists. split; [apply no_turms; reflexivity|]. split; [reflexivity|]. vm_compute. split; reflexivity. Qed.
Print Assumptions C76_command_refuted.
(** no variable of turms reaches a styler or a processor *)
Theorem C76_prefix_refuted : forall builtins importable number_str decode e1 e2 t prefix options entry,
  In (t, prefix, options) bare_options -> dget "type" entry = Some (JString t) ->
  (forall n, In n ("type" :: map (fun x => fst (fst x)) options) -> variable e1 n = variable e2 n) ->
  load_component builtins importable number_str decode (env_vars e1) entry = load_component builtins importable number_str decode (env_vars e2) entry.
Proof.
  intros b i ns d e1 e2 t p o en I T H. eapply same_component; [apply in_or_app; right; exact I|exact T|]. intros n Hn.
  assert (E : p = "" /\ further_options t = []) by (repeat (destruct I as [X|I]; [apply (f_equal fst) in X; cbn [fst] in X; injection X as <- <-; split; reflexivity|]); destruct I). destruct E as [-> E]. rewrite E, app_nil_r in Hn. exact (H n Hn).
Qed.
Print Assumptions C76_prefix_refuted.
(** a mistake in an option of CapitalizeStyler is not noticed *)
Theorem C76_capitalize_refuted : forall builtins importable number_str decode env o v, o <> "type" -> (forall k, o <> "capitalize_" +s+ k) ->
  exists c, load_component builtins importable number_str decode env (entry "turms.stylers.capitalize.CapitalizeStyler" [(o, v)]) = Some ("turms.stylers.capitalize.CapitalizeStyler", c)
  /\ load_component builtins importable number_str decode env (entry "turms.stylers.capitalize.CapitalizeStyler" []) = Some ("turms.stylers.capitalize.CapitalizeStyler", c).
Proof.
  intros b i ns d env o v H1 H2. eexists. split; [|cbv; reflexivity]. rewrite (capitalize_ext b i ns d env (entry "turms.stylers.capitalize.CapitalizeStyler" [(o, v)]) (entry "turms.stylers.capitalize.CapitalizeStyler" []) eq_refl); [cbv; reflexivity|].
  intros k Hk. cbn [entry dget]. destruct (String.eqb_spec k "type"); [reflexivity|]. destruct (String.eqb_spec k o) as [->|]; [|reflexivity]. exfalso.
  repeat (destruct Hk as [E|Hk]; [first [now apply n|now apply (H2 "fragment")|now apply (H2 "query")|now apply (H2 "mutation")|now apply (H2 "subscription")|now apply (H2 "enum")|now apply (H2 "input")]|]). destruct Hk.
Qed.
Print Assumptions C76_capitalize_refuted.
