(** Proofs about the modules of the starter files. *)
From Verif Require Import Base PyAst Gql Config Stylers Loaders Registry Utils Recurse Print Enums Inputs Objects Inline Fragments Operations Funcs InputFuncs Strawberry Run Templates Settings Components Project
  Spec_Docs Spec_Refs Spec_Imports Spec_Inputs Spec_Types Spec_Scope Spec_Scope2 Spec_Scope3 Spec_Inline Spec_Valid Spec_ValidDoc Spec_ValidFuncs Spec_Naming Spec_Syntax Spec_Syntax2 Spec_Syntax3 Spec_Templates
  Spec_Settings Spec_Components Spec_Project P_Base P_Templates P_Project.

(** ** Modules *)
Lemma documents_module : forall builtins importable number_str number decode environ installed, quiet environ -> In "str" builtins -> turms_installed installed importable ->
  forall s parse ps add d, parse "graphql/**.graphql" = Ok d -> client_ready s d ps add -> forall iter bi doc_of directives applied, set_order iter -> incl simple_types bi ->
  exists t procs, generate_file number iter s directives applied parse ps add doc_of builtins importable number_str decode (env_vars environ) (documents_file installed)
    = Some [("default", Output (Ok t) [] procs)] /\ valid_module t = true /\ scoped (fun n => In n bi) t.
Proof.
  intros b i ns nu de en inst HQ HB HI s pa ps add d HP R iter bi doc_of di ap HO HS. destruct (documents_template_ok _ _ _ _ R iter bi doc_of HO HS) as (t & E & V & S).
  destruct (documents_starts b i ns nu de en inst HQ HB HI iter s di ap pa ps add doc_of d HP) as (procs & G & _). exists t, procs. rewrite G, E. auto.
Qed.
Lemma strawberry_module : forall builtins importable number_str number decode environ installed, quiet environ -> In "str" builtins -> turms_installed installed importable ->
  forall s directives applied, server_ready s directives applied template_stylers -> forall iter bi parse ps add doc_of, set_order iter -> incl simple_types bi -> In "None" bi ->
  exists t procs, generate_file number iter s directives applied parse ps add doc_of builtins importable number_str decode (env_vars environ) (strawberry_file installed)
    = Some [("default", Output (Ok t) [] procs)] /\ valid_module t = true /\ scoped_paths (fun n => In n bi) t /\ quotes_bound (fun n => In n bi) t.
Proof.
  intros b i ns nu de en inst HQ HB HI s di ap R iter bi pa ps add doc_of HO HS HN. destruct (server_template_ok _ _ _ R iter bi HO HS HN) as (t & E & V & S).
  destruct (strawberry_starts b i ns nu de en inst HQ HB HI iter s di ap pa ps add doc_of) as (procs & G & _). exists t, procs. rewrite G, E. auto.
Qed.
