(** C77: the starter files of [turms init] load, and give the modules of C65. *)
From Verif Require Import Base PyAst Gql Config Stylers Loaders Registry Utils Recurse Print Enums Inputs Objects Inline Fragments Operations Funcs InputFuncs Strawberry Run Templates Settings Components Project
  Spec_Docs Spec_Refs Spec_Imports Spec_Inputs Spec_Types Spec_Scope Spec_Scope2 Spec_Scope3 Spec_Inline Spec_Valid Spec_ValidDoc Spec_ValidFuncs Spec_Naming Spec_Syntax Spec_Syntax2 Spec_Syntax3 Spec_Templates
  Spec_Settings Spec_Components Spec_Project P_Base P_InputProps P_Print P_Total4 P_Total8 P_Project P_Project2 Ex_Select Prop_Inline Prop_Total Prop_TotalDoc Prop_TotalFuncs Prop_Scope Prop_Scope2 Prop_Scope3 Prop_Scope4 Prop_Syntax Prop_Templates Prop_Components.

(** C77: without variables that turms reads, the file of a template loads as one project named "default", without parsers, with the
    processors of the tools that are installed, and the statements generated for it are those of the template in C65 *)
Theorem C77_documents : forall builtins importable number_str number decode environ installed, quiet environ -> In "str" builtins -> turms_installed installed importable ->
  forall iter s directives applied parse ps add doc_of d, parse "graphql/**.graphql" = Ok d ->
  exists procs, generate_file number iter s directives applied parse ps add doc_of builtins importable number_str decode (env_vars environ) (documents_file installed)
    = Some [("default", Output (documents_template iter s d ps add doc_of) [] procs)] /\ map fst procs = installed_tools installed ["black"; "isort"].
Proof. exact documents_starts. Qed.
Print Assumptions C77_documents.
Theorem C77_rath : forall builtins importable number_str number decode environ installed, quiet environ -> In "str" builtins -> turms_installed installed importable ->
  forall iter s directives applied parse ps add doc_of d, parse "graphql/**.graphql" = Ok d ->
  exists procs, generate_file number iter s directives applied parse ps add doc_of builtins importable number_str decode (env_vars environ) (rath_file installed)
    = Some [("default", Output (functions_template rath_functions iter s d ps add doc_of) [] procs)] /\ map fst procs = installed_tools installed ["black"; "isort"].
Proof. exact rath_starts. Qed.
Print Assumptions C77_rath.
Theorem C77_gql : forall builtins importable number_str number decode environ installed, quiet environ -> In "str" builtins -> turms_installed installed importable ->
  forall iter s directives applied parse ps add doc_of d, parse "graphql/**.graphql" = Ok d ->
  exists procs, generate_file number iter s directives applied parse ps add doc_of builtins importable number_str decode (env_vars environ) (gql_file installed)
    = Some [("default", Output (functions_template gql_functions iter s d ps add doc_of) [] procs)] /\ map fst procs = installed_tools installed ["black"; "isort"].
Proof. exact gql_starts. Qed.
Print Assumptions C77_gql.
(** the template for servers needs no documents *)
Theorem C77_strawberry : forall builtins importable number_str number decode environ installed, quiet environ -> In "str" builtins -> turms_installed installed importable ->
  forall iter s directives applied parse ps add doc_of,
  exists procs, generate_file number iter s directives applied parse ps add doc_of builtins importable number_str decode (env_vars environ) (strawberry_file installed)
    = Some [("default", Output (server_template iter s directives applied) [] procs)]
    /\ map fst procs = "turms.processors.disclaimer.DisclaimerProcessor" :: installed_tools installed ["black"; "isort"; "libcst"].
Proof. exact strawberry_starts. Qed.
Print Assumptions C77_strawberry.

(** from the file to a module that can be imported.  Missing: what C65 leaves out *)
Theorem C77_documents_module_partial : forall builtins importable number_str number decode environ installed, quiet environ -> In "str" builtins -> turms_installed installed importable ->
  forall s parse ps add d, parse "graphql/**.graphql" = Ok d -> client_ready s d ps add -> forall iter bi doc_of directives applied, set_order iter -> incl simple_types bi ->
  exists t procs, generate_file number iter s directives applied parse ps add doc_of builtins importable number_str decode (env_vars environ) (documents_file installed)
    = Some [("default", Output (Ok t) [] procs)] /\ valid_module t = true /\ scoped (fun n => In n bi) t.
Proof. exact documents_module. Qed.
Print Assumptions C77_documents_module_partial.
Theorem C77_gql_module_partial : forall builtins importable number_str number decode environ installed, quiet environ -> In "str" builtins -> turms_installed installed importable ->
  forall s parse ps add d, parse "graphql/**.graphql" = Ok d -> client_ready s d ps add -> functions_ready s d template_stylers gql_functions ->
  forall iter bi doc_of directives applied, set_order iter -> incl simple_types bi ->
  exists t procs, generate_file number iter s directives applied parse ps add doc_of builtins importable number_str decode (env_vars environ) (gql_file installed)
    = Some [("default", Output (Ok t) [] procs)] /\ valid_module t = true /\ scoped (fun n => In n bi) t.
Proof.
  intros b i ns nu de en inst HQ HB HI s pa ps add d HP R F iter bi doc_of di ap HO HS. destruct (C65_gql_partial _ _ _ _ R F iter doc_of HO bi HS) as (t & E & V & S).
  destruct (gql_starts b i ns nu de en inst HQ HB HI iter s di ap pa ps add doc_of d HP) as (procs & G & _). exists t, procs. rewrite G, E. auto.
Qed.
Print Assumptions C77_gql_module_partial.
Theorem C77_strawberry_module_partial : forall builtins importable number_str number decode environ installed, quiet environ -> In "str" builtins -> turms_installed installed importable ->
  forall s directives applied, server_ready s directives applied template_stylers -> forall iter bi parse ps add doc_of, set_order iter -> incl simple_types bi -> In "None" bi ->
  exists t procs, generate_file number iter s directives applied parse ps add doc_of builtins importable number_str decode (env_vars environ) (strawberry_file installed)
    = Some [("default", Output (Ok t) [] procs)] /\ valid_module t = true /\ scoped_paths (fun n => In n bi) t /\ quotes_bound (fun n => In n bi) t.
Proof. exact strawberry_module. Qed.
Print Assumptions C77_strawberry_module_partial.

(** ** Examples *)
Definition ex_installed (m : string) : bool := mem m ["black"; "libcst"].
Definition ex_importable (t : string) : bool := mem t (starter_components ++ ["turms.processors.black.BlackProcessor"; "turms.processors.merge.MergeProcessor"]).
Definition ex_files (g : string) : res document := if String.eqb g "graphql/**.graphql" then Ok vf_doc else Err (Exn OSErrorC "").
Definition ex_env : list (string * string) := [("PATH", "/bin"); ("HOME", "/root")].
Lemma ex_quiet : quiet ex_env.
Proof.
  split.
  - intros n (r & H). cbn [ex_env variable]. rewrite H. reflexivity.
  - intros n H. repeat (destruct H as [<-|H]; [reflexivity|]). destruct H.
Qed.
Lemma ex_turms : turms_installed ex_installed ex_importable.
Proof. split; [intros t H|intros m t H I]; repeat (destruct H as [H|H]; [try injection H as <- <-; try subst t; try reflexivity; discriminate I|]); destruct H. Qed.
Definition ex_run (environ : list (string * string)) (file : dict json) : option (dict output) :=
  generate_file (fun _ => CNone) (@rev string) vf [] never ex_files no_strings (add_for vf_doc) no_doc ["str"; "int"] ex_importable (fun x => x) (fun _ => None) (env_vars environ) file.
Definition shown (o : output) : option (list string) * list string := (match out_tree o with Ok t => Some (names_of t) | Err _ => None end, map fst (out_processors o)).
Example C77_ex : quiet ex_env /\ turms_installed ex_installed ex_importable /\ ex_files "graphql/**.graphql" = Ok vf_doc /\ client_ready vf vf_doc no_strings (add_for vf_doc)
  /\ option_map (map (fun kv => (fst kv, shown (snd kv)))) (ex_run ex_env (documents_file ex_installed))
     = Some [("default", (Some ["GraphQLDefault"; "Color"; "Filter"; "PersonFriends"; "Person"; "GetMe"; "Colors"; "PutPut"; "Put"], ["turms.processors.black.BlackProcessor"]))]
  /\ option_map (map (fun kv => snd (shown (snd kv)))) (ex_run ex_env (strawberry_file ex_installed))
     = Some [["turms.processors.disclaimer.DisclaimerProcessor"; "turms.processors.black.BlackProcessor"; "turms.processors.merge.MergeProcessor"]].
Proof. split; [exact ex_quiet|]. split; [exact ex_turms|]. split; [reflexivity|]. split; [exact vf_client|]. split; vm_compute; reflexivity. Qed.

(** ** Refutations *)
(** [quiet] asks for more than that no variable of turms is set: with a variable EXTRA the file loads no more *)
Theorem C77_variable_refuted : exists e, same_turms ex_env (e ++ ex_env) /\ ex_run ex_env (documents_file ex_installed) <> None /\ ex_run (e ++ ex_env) (documents_file ex_installed) = None.
Proof.
  exists [("EXTRA", "--index-url x")]. split.
  - intros n (r & H). cbn [ex_env variable app]. rewrite H. reflexivity.
  - split; vm_compute; [discriminate|reflexivity].
Qed.
Print Assumptions C77_variable_refuted.
