(** Proofs about the starter files. *)
From Verif Require Import Base PyAst Gql Config Stylers Loaders Registry Utils Recurse Print Enums Inputs Objects Fragments Operations Funcs InputFuncs Strawberry Run Templates Settings Components Project
  Spec_Settings Spec_Components Spec_Project P_Base P_Settings P_Settings2 P_Components.

Section Proofs.
Variable builtins : list string.
Variable importable : string -> bool.
Variable number_str : string -> string.
Variable decode : string -> option json.
Variable environ : list (string * string).
Hypothesis HQ : quiet environ.
Hypothesis HB : In "str" builtins.
Notation env := (env_vars environ).

(** ** The environment does not matter *)
Definition silent (n : string) : bool := (startswith "turms_" (str_lower n) || existsb (fun m => String.eqb (str_lower n) (str_lower m)) ["TYPE"; "DISCLAIMER"])%bool.
Lemma silent_none : forall n, silent n = true -> variable environ n = None.
Proof.
  intros n H. unfold silent in H. apply orb_prop in H as [H|H].
  - apply (proj1 HQ). apply prefix_ex in H as (r & H). exists r. exact H.
  - apply existsb_exists in H as (m & Im & E). apply String.eqb_eq in E. rewrite (variable_case environ n m E). apply (proj2 HQ). apply in_or_app. now right.
Qed.
Definition silent_class (cl : cclass) : bool := match cl with Settings_ p fs => forallb (fun f => silent (p +s+ key f)) fs | Model _ => true end.
Lemma class_quiet : forall cl entry, silent_class cl = true ->
  load_class builtins importable number_str decode env cl entry = load_class builtins importable number_str decode [] cl entry.
Proof.
  intros [p fs|fs] entry H; [|reflexivity]. cbn [load_class silent_class] in *. apply settings_ext; [|reflexivity]. intros f If. apply in_map_iff in If as ([[o k] d] & <- & If). cbn [cfield sf_env dget].
  rewrite env_variable. apply silent_none. rewrite forallb_forall in H. exact (H _ If).
Qed.
Definition silent_entry (v : json) : bool :=
  match v with
  | JObject d => match dget "type" d with Some (JString t) => match dget t components with Some cl => silent_class cl | None => true end | _ => true end
  | _ => true
  end.
Lemma components_quiet : forall c k, forallb silent_entry (as_list (fun v => v) (at_key c k)) = true ->
  load_components builtins importable number_str decode env c k = load_components builtins importable number_str decode [] c k.
Proof.
  intros c k H. unfold load_components, at_key in *. destruct (dget k c) as [[| | | |l|]|]; try reflexivity. cbn [as_list] in H. rewrite map_id in H. induction l as [|v l IH]; [reflexivity|].
  cbn [forallb] in H. apply andb_prop in H as [H1 H2]. cbn [all_some]. rewrite (IH H2). destruct v as [| | | | |d]; try reflexivity. unfold load_component. cbn [silent_entry] in H1.
  destruct (dget "type" d) as [[| | |t| |]|]; try reflexivity. destruct (dget t components) as [cl|]; [|reflexivity]. now rewrite (class_quiet cl d H1).
Qed.
Lemma projects_quiet : forall file, load_projects builtins importable decode env file = load_projects builtins importable decode [] file.
Proof.
  intros file. transitivity (load_projects builtins importable decode (env_vars []) file); [|reflexivity]. apply same_projects.
  - intros n H. cbn [variable]. now apply (proj1 HQ).
  - intros n H. cbn [variable]. apply (proj2 HQ). apply in_or_app. now left.
Qed.
Lemma str_type : pythontype_validate builtins "str" = Ok "str".
Proof. unfold pythontype_validate. apply mem_In in HB. now rewrite HB. Qed.
End Proofs.

Section Generate.
Variable builtins : list string.
Variable importable : string -> bool.
Variable number_str : string -> string.
Variable number : string -> const.
Variable decode : string -> option json.
Variable environ : list (string * string).
Variable installed : string -> bool.
Hypothesis HQ : quiet environ.
Hypothesis HB : In "str" builtins.
Hypothesis HI : turms_installed installed importable.
Variable iter : list string -> list string.
Variable s : schema.
Variable directives : list directivedef.
Variable applied : string -> list directive.
Variable parse : string -> res document.
Variable ps : string -> bool -> string.
Variable add : string -> res string.
Variable doc_of : operation -> option string.
Notation env := (env_vars environ).
Notation generate_project := (generate_project number iter s directives applied parse ps add doc_of builtins importable number_str decode).
Notation generate_file := (generate_file number iter s directives applied parse ps add doc_of builtins importable number_str decode).
Notation load_components := (load_components builtins importable number_str decode).

Lemma project_parts : forall env p turms c pa pl sl pr st pls, section_at (section_at p "extensions") "turms" = turms ->
  to_gconfig number (dset "documents" (match at_key turms "documents" with JString (String _ _) => at_key turms "documents" | _ => at_key p "documents" end) turms) = c ->
  load_components env turms "parsers" = Some pa -> load_components env turms "plugins" = Some pl -> load_components env turms "stylers" = Some sl -> load_components env turms "processors" = Some pr ->
  all_some to_styler sl = Some st -> all_some (to_plugin number s directives applied parse ps add doc_of c st (as_opt as_str (at_key turms "domain"))) pl = Some pls ->
  generate_project env p = Some (Output (generate_ast c iter pls (c_skip_forwards c)) pa pr).
Proof. intros env p turms c pa pl sl pr st pls <- <- H1 H2 H3 H4 H5 H6. unfold Project.generate_project. cbn zeta. now rewrite H1, H2, H3, H4, H5, H6. Qed.
Lemma imp : forall t, In t starter_components -> importable t = true.
Proof. exact (proj1 HI). Qed.

(** ** The starter files *)
Definition document_plugins_of (r : res document) : list plugin :=
  [Plugin "EnumsPlugin" (enums_plugin client_config template_stylers default_enums_config s r);
   Plugin "InputsPlugin" (inputs_plugin client_config template_stylers default_inputs_config s r);
   Plugin "FragmentsPlugin" (let* d := lift r in fragments_plugin client_config template_stylers s default_fragments_config (print_fragment ps) add d);
   Plugin "OperationsPlugin" (let* d := lift r in operations_plugin client_config template_stylers s default_operations_config (print_operation ps) add doc_of d)].
Definition function_plugins_of (pc : fcfg) (r : res document) : list plugin :=
  document_plugins_of r ++ [Plugin "FuncsPlugin" (let* d := lift r in funcs_plugin client_config template_stylers s pc doc_of d)].
Ltac member := cbn; repeat (first [left; reflexivity|right]).
(* compute the loading of a file; what is imported is found by the hypotheses *)
Ltac loads := repeat (progress (cbv -[pythontype_validate]; rewrite ?(str_type builtins HB);
  repeat match goal with |- context [importable ?t] => first [rewrite (imp t) by member | match goal with H : importable t = true |- _ => rewrite H end] end)).
Ltac part := rewrite (components_quiet builtins importable number_str decode environ HQ) by reflexivity; loads; reflexivity.
Ltac tool m t := destruct (installed m) eqn:?; [match goal with E : installed m = true |- _ => assert (importable t = true) by (exact (proj2 HI m t ltac:(member) E)) end|].
Ltac file c plugins others :=
  unfold Project.generate_file; rewrite (projects_quiet builtins importable decode environ HQ); unfold installed_tools; cbn [flat_map];
  tool "black" "turms.processors.black.BlackProcessor"; tool "isort" "turms.processors.isort.IsortProcessor"; others; cbn [app];
  eexists; (split; [match goal with |- match ?l with Some _ => _ | None => _ end = _ =>
    let H := fresh in eassert (H : l = Some [("default", JObject _)]) by (loads; reflexivity); rewrite H; clear H end;
    cbn [all_some fst snd]; erewrite (project_parts env _ _ c [] _ _ _ template_stylers plugins); [reflexivity|cbv; reflexivity|cbv; reflexivity|part|part|part|part|reflexivity|reflexivity]
   |reflexivity]).
Section Client.
Variable d : document.
Hypothesis HP : parse "graphql/**.graphql" = Ok d.
Lemma documents_starts : exists procs, generate_file env (documents_file installed) = Some [("default", Output (documents_template iter s d ps add doc_of) [] procs)]
  /\ map fst procs = installed_tools installed ["black"; "isort"].
Proof.
  change (documents_template iter s d ps add doc_of) with (generate_ast client_config iter (document_plugins_of (Ok d)) (c_skip_forwards client_config)). rewrite <- HP.
  unfold documents_file, client_file, formatters. cbn [flat_map fst snd]. file client_config (document_plugins_of (parse "graphql/**.graphql")) idtac.
Qed.
Lemma rath_starts : exists procs, generate_file env (rath_file installed) = Some [("default", Output (functions_template rath_functions iter s d ps add doc_of) [] procs)]
  /\ map fst procs = installed_tools installed ["black"; "isort"].
Proof.
  change (functions_template rath_functions iter s d ps add doc_of) with (generate_ast client_config iter (function_plugins_of rath_functions (Ok d)) (c_skip_forwards client_config)). rewrite <- HP.
  unfold rath_file, client_file, formatters. cbn [flat_map fst snd]. file client_config (function_plugins_of rath_functions (parse "graphql/**.graphql")) idtac.
Qed.
Lemma gql_starts : exists procs, generate_file env (gql_file installed) = Some [("default", Output (functions_template gql_functions iter s d ps add doc_of) [] procs)]
  /\ map fst procs = installed_tools installed ["black"; "isort"].
Proof.
  change (functions_template gql_functions iter s d ps add doc_of) with (generate_ast client_config iter (function_plugins_of gql_functions (Ok d)) (c_skip_forwards client_config)). rewrite <- HP.
  unfold gql_file, client_file, formatters. cbn [flat_map fst snd]. file client_config (function_plugins_of gql_functions (parse "graphql/**.graphql")) idtac.
Qed.
End Client.
Lemma strawberry_starts : exists procs, generate_file env (strawberry_file installed) = Some [("default", Output (server_template iter s directives applied) [] procs)]
  /\ map fst procs = "turms.processors.disclaimer.DisclaimerProcessor" :: installed_tools installed ["black"; "isort"; "libcst"].
Proof.
  unfold strawberry_file, formatters. cbn [flat_map fst snd].
  file server_config (server_plugins s directives applied) ltac:(tool "libcst" "turms.processors.merge.MergeProcessor").
Qed.
End Generate.
