(** C41 and C42: how files that are found are read. *)
From Coq Require Import Sorting.Sorted Sorting.Permutation.
From Verif Require Import Base PyAst Gql Config Stylers Registry Run Spec_Run P_Base P_Run2.

(** The configuration file that is found is read by the loader for its ending; case does not matter. *)
Theorem C41_loaded : forall folder listing path, scan_folder_for_single_config folder listing = Ok path ->
  exists n base e, path = path_join folder n /\ In n listing /\ In e ["yaml"; "yml"; "toml"; "json"] /\ ci_eq n (base +s+ "." +s+ e)
  /\ forall A V (load : string -> string -> res V) (validate : V -> option (dict A)) v projects,
       load e path = Ok v -> validate v = Some projects -> load_projects_from_configpath load validate path None = Ok projects.
Proof. exact found_loaded. Qed.
Print Assumptions C41_loaded.
(** the same for a file named on the command line *)
Theorem C41_loader : forall stem ending e, In e ["yaml"; "yml"; "toml"; "json"] -> ci_eq ending e -> get_file_loader (stem +s+ "." +s+ ending) = Ok e.
Proof. exact loader_of. Qed.
Print Assumptions C41_loader.
Example C41_loaded_ex : scan_folder_for_single_config "." ["a.py"; "GraphQL.config.YAML"] = Ok "./GraphQL.config.YAML"
  /\ load_projects_from_configpath (fun e p => if String.eqb e "yaml" then Ok p else rraise KeyErrorC e) (fun p => Some [(p, 1%nat)]) "./GraphQL.config.YAML" None
     = Ok [("./GraphQL.config.YAML", 1%nat)]
  /\ ci_eq "JSON" "json" /\ get_file_loader "conf/my.turms.JSON" = Ok "json".
Proof. repeat split. Qed.

(** A glob stands for all files it matches, each once and in the order of their names. *)
Theorem C42_glob : forall glob read g text, load_dsl_from_glob glob read g = Ok text <->
  exists files texts, files <> [] /\ Permutation files (glob g) /\ StronglySorted (fun a b => str_leb a b = true) files
    /\ Forall2 (fun f t => read f = Ok t) files texts /\ text = join "" texts.
Proof. exact glob_reads. Qed.
Print Assumptions C42_glob.
(** The order in which the file system lists them does not matter, also if reading fails. *)
Theorem C42_glob_order : forall glob glob' read g, Permutation (glob g) (glob' g) -> load_dsl_from_glob glob read g = load_dsl_from_glob glob' read g.
Proof. exact glob_order. Qed.
Print Assumptions C42_glob_order.
Example C42_glob_ex : load_dsl_from_glob (fun _ => ["b.graphql"; "a.graphql"]) (fun f => Ok (f +s+ ";")) "*.graphql" = Ok "a.graphql;b.graphql;"
  /\ Permutation ["b.graphql"; "a.graphql"] ["a.graphql"; "b.graphql"]
  /\ is_ok (load_dsl_from_glob (fun _ => []) (fun f => Ok f) "*.graphql") = false.
Proof. repeat split. apply perm_swap. Qed.
