(** C38, C39, C40, C41, C42, C49: the pipeline, the command line, schema sources, watch mode. *)
From Verif Require Import Base PyAst Gql Config Stylers Registry Run Spec_Run P_Base P_Run.
From Coq Require Import Lia.

(** ** C38: the code is the result of running plugins, parsers, unparsing and processors in
    configuration order, each on the result of the one before. *)
Theorem C38_stages_in_order : forall c iter unparse plugins parsers processors code,
  generate_code c iter unparse plugins parsers processors = Ok code <->
  exists r tree helpers parsed text,
    ran plugin_step plugins (init_reg c, []) (r, tree)
    /\ generate_builtins iter r = Ok helpers
    /\ ran parser_step parsers (generate_imports iter r ++ helpers ++ tree
                                ++ (if c_skip_forwards c then [] else generate_forward_refs c r)) parsed
    /\ unparse parsed = Ok text
    /\ ran processor_step processors text code.
Proof. exact pipeline_C38. Qed.
Print Assumptions C38_stages_in_order.
(** A failing stage stops the pipeline; the error names the stage and keeps its message. *)
Theorem C38_plugin_failure : forall c iter unparse pre p post parsers processors r t e r',
  ran plugin_step pre (init_reg c, []) (r, t) -> pl_generate p r = (Err e, r') ->
  exists err, generate_code c iter unparse (pre ++ p :: post) parsers processors = Err err
  /\ reports (pl_name p) e err.
Proof. exact plugin_failure_C38. Qed.
Print Assumptions C38_plugin_failure.
Theorem C38_parser_failure : forall c iter unparse plugins pre p post processors r t helpers mid e,
  ran plugin_step plugins (init_reg c, []) (r, t) -> generate_builtins iter r = Ok helpers ->
  ran parser_step pre (generate_imports iter r ++ helpers ++ t
                       ++ (if c_skip_forwards c then [] else generate_forward_refs c r)) mid ->
  pa_parse p mid = Err e ->
  exists err, generate_code c iter unparse plugins (pre ++ p :: post) processors = Err err
  /\ reports (pa_cls p) e err.
Proof. exact parser_failure_C38. Qed.
Print Assumptions C38_parser_failure.
Theorem C38_processor_failure : forall c iter unparse plugins parsers pre p post tree parsed text mid e,
  generate_ast c iter plugins (c_skip_forwards c) = Ok tree -> ran parser_step parsers tree parsed ->
  unparse parsed = Ok text -> ran processor_step pre text mid -> pr_run p mid = Err e ->
  exists err, generate_code c iter unparse plugins parsers (pre ++ p :: post) = Err err
  /\ reports (pr_name p) e err.
Proof. exact processor_failure_C38. Qed.
Print Assumptions C38_processor_failure.

Definition ex_plugin : plugin := {| pl_name := "APlugin"; pl_generate := fun r => (Ok [SPass], r) |}.
Definition ex_bad_plugin : plugin := {| pl_name := "BPlugin"; pl_generate := fun r => (rraise NotImplementedErrorC "no", r) |}.
Definition ex_parser : parser := {| pa_cls := "Dup"; pa_parse := fun l => Ok (l ++ l) |}.
Definition ex_proc : processor := {| pr_name := "Bang"; pr_run := fun s => Ok (s +s+ "!") |}.
Definition ex_bad_proc : processor := {| pr_name := "Black"; pr_run := fun s => rraise ExceptionC ("cannot format " +s+ s) |}.
Example C38_ex : generate_code default_config (fun l => l) (fun t => Ok (nat_to_string (length t)))
                   [ex_plugin; ex_plugin] [ex_parser] [ex_proc] = Ok "4!"
  /\ generate_code default_config (fun l => l) (fun t => Ok (nat_to_string (length t)))
                   [ex_plugin; ex_bad_plugin; ex_plugin] [ex_parser] [ex_proc]
     = Err (Exn GenerationErrorC ("BPlugin failed!" +s+ nl +s+ " no"))
  /\ generate_code default_config (fun l => l) (fun t => Ok (nat_to_string (length t)))
                   [ex_plugin] [ex_parser] [ex_bad_proc; ex_proc]
     = Err (Exn GenerationErrorC ("Black failed!" +s+ nl +s+ " cannot format 2")).
Proof. repeat split. Qed.

(** ** C39: projects are independent.  A file changes only if a project that can be generated
    writes it; in particular a project that fails to generate leaves its output alone.
    [_partial]: the full statement says this about every failing project, see the refutation. *)
Theorem C39_untouched_partial : forall writable ps f path,
  (forall k p, In (k, p) ps -> is_ok (p_generate p) = true -> ~ may_write p path) ->
  snd (generate_projects writable ps f) path = f path.
Proof. exact untouched_C39. Qed.
Print Assumptions C39_untouched_partial.
(** Whatever the other projects do, the code of a project that can be generated is written. *)
Theorem C39_written : forall writable pre k p post f code schema,
  p_generate p = Ok (code, schema) -> writable (p_out p) = true ->
  (p_dump_schema p = true -> p_out p <> path_join (p_out_dir p) (p_schema_name p)) ->
  (p_dump_configuration p = true -> p_out p <> path_join (p_out_dir p) (p_configuration_name p)) ->
  (forall k' p', In (k', p') post -> is_ok (p_generate p') = true -> ~ may_write p' (p_out p)) ->
  snd (generate_projects writable (pre ++ (k, p) :: post) f) (p_out p) = Some code.
Proof. exact written_C39. Qed.
Print Assumptions C39_written.
Theorem C39_exit_code : forall writable ps f,
  is_ok (fst (generate_projects writable ps f)) = false <->
  exists k p, In (k, p) ps /\ p_exit_on_error p = true /\ project_fails writable p.
Proof. exact exit_C39. Qed.
Print Assumptions C39_exit_code.

Definition ex_project (out : string) (g : res (string * res string)) (dump exit : bool) : project :=
  {| p_generate := g; p_schema := Ok (Ok "schema"); p_json := "{}"; p_out_dir := "api"; p_generated_name := out;
     p_dump_schema := dump; p_schema_name := "schema.graphql"; p_dump_configuration := false;
     p_configuration_name := "project.json"; p_exit_on_error := exit |}.
Definition ex_fs : fs := fun _ => Some "old".
Definition ex_projects : list (string * project) :=
  [("bad", ex_project "bad.py" (rraise GenerationErrorC "boom") false true);
   ("good", ex_project "good.py" (Ok ("code", Ok "type Query")) true true)].
Example C39_ex : let '(x, f) := generate_projects (fun _ => true) ex_projects ex_fs in
  is_ok x = false /\ f "api/bad.py" = Some "old" /\ f "api/good.py" = Some "code"
  /\ f "api/schema.graphql" = Some "type Query".
Proof. repeat split. Qed.
(** A project whose schema cannot be dumped is reported as failing, after its output file was
    overwritten and the schema file emptied. *)
Theorem C39_dump_refuted : exists p f,
  project_fails (fun _ => true) p /\ is_ok (fst (generate_projects (fun _ => true) [("p", p)] f)) = false
  /\ f (p_out p) = Some "old" /\ snd (generate_projects (fun _ => true) [("p", p)] f) (p_out p) = Some "new"
  /\ snd (generate_projects (fun _ => true) [("p", p)] f) "api/schema.graphql" = Some "".
Proof.
  exists (ex_project "out.py" (Ok ("new", rraise TypeErrorC "unprintable")) true true), ex_fs. repeat split. right. left. split; [reflexivity|].
  right. reflexivity.
Qed.
Print Assumptions C39_dump_refuted.

(** ** C40: [gen].  [_partial]: only the half about failing projects holds. *)
Theorem C40_failure_untouched_partial : forall writable strict ow ps f path,
  (forall k p, In (k, p) ps -> is_ok (p_generate p) = false) ->
  snd (gen_loop writable strict ow ps f) path = f path.
Proof. exact gen_untouched_C40. Qed.
Print Assumptions C40_failure_untouched_partial.
Example C40_ex : is_ok (p_generate (ex_project "a.py" (rraise GenerationErrorC "boom") true true)) = false.
Proof. reflexivity. Qed.
(** Every project that generates successfully has its output emptied instead of written. *)
Theorem C40_output_destroyed_refuted : forall writable strict ps k p f x,
  p_generate p = Ok x -> writable (p_out p) = true -> ps = [(k, p)] ->
  snd (gen_loop writable strict None ps f) (p_out p) = Some "".
Proof. exact gen_destroys_C40. Qed.
Print Assumptions C40_output_destroyed_refuted.
Example C40_destroyed_ex : snd (gen_loop (fun _ => true) false None
    [("good", ex_project "good.py" (Ok ("code", Ok "type Query")) true true)] ex_fs) "api/good.py" = Some "".
Proof. reflexivity. Qed.

(** ** C41 *)
Theorem C41_single_config : forall folder listing, NoDup listing ->
  (forall path, scan_folder_for_single_config folder listing = Ok path <->
     exists n, path = path_join folder n /\ In n listing /\ recognised n
       /\ forall m, In m listing -> recognised m -> m = n)
  /\ ((forall n, In n listing -> ~ recognised n)
      \/ (exists n m, In n listing /\ In m listing /\ recognised n /\ recognised m /\ n <> m) ->
      exists msg, scan_folder_for_single_config folder listing = Err (Exn GenerationErrorC msg)).
Proof. exact single_config_C41. Qed.
Print Assumptions C41_single_config.
Example C41_ex : recognised "GraphQL.config.YAML"
  /\ scan_folder_for_single_config "." ["a.py"; "GraphQL.config.YAML"] = Ok "./GraphQL.config.YAML"
  /\ is_ok (scan_folder_for_single_config "." [".graphqlrc.yml"; "graphql.config.yaml"]) = false
  /\ is_ok (scan_folder_for_single_config "." ["graphqlrc.yml"]) = false.
Proof.
  split; [|repeat split]. exists "graphql.config", "yaml".
  split; [cbn; tauto|]. split; [cbn; tauto|]. reflexivity.
Qed.
(** Choosing a project by name: exactly that project, or an error. *)
Theorem C41_select : forall A (projects : dict A) n, NoDup (dkeys projects) -> n <> "" ->
  match dget n projects with
  | Some p => select_projects (Some n) projects = Ok [(n, p)]
  | None => is_ok (select_projects (Some n) projects) = false
  end.
Proof. intros A. exact select_C41. Qed.
Print Assumptions C41_select.
Theorem C41_cli_select : forall A V load (validate : V -> option (dict A)) cwd listing config n projects,
  NoDup (dkeys projects) -> n <> "" ->
  with_projects load validate cwd listing config None = Ok projects ->
  match dget n projects with
  | Some p => with_projects load validate cwd listing config (Some n) = Ok [(n, p)]
  | None => is_ok (with_projects load validate cwd listing config (Some n)) = false
  end.
Proof. intros A V. exact cli_select_C41. Qed.
Print Assumptions C41_cli_select.
Example C41_select_ex :
  with_projects (fun _ _ => Ok 0%nat) (fun _ : nat => Some [("a", 1%nat); ("b", 2%nat)]) "." ["graphql.config.json"] None (Some "b")
  = Ok [("b", 2%nat)]
  /\ NoDup (dkeys [("a", 1%nat); ("b", 2%nat)]).
Proof. split; [reflexivity|]. repeat constructor; cbn; intuition discriminate. Qed.

(** ** C42.  [_partial]: lists with two or more entries are only right when all entries are
    globs. *)
Theorem C42_single_source : forall S lu lg (iu : string -> list (string * string) -> res S) ig build allow,
  let bs := build_schema_from_schema_type S lu lg iu ig build allow in
  (forall url headers, sdl_or_introspection allow (sdl_of build (lu url headers)) (iu url headers)
                                            (bs (One (SrcDict [(url, headers)]))))
  /\ (forall s, http s -> sdl_or_introspection allow (sdl_of build (lu s [])) (iu s []) (bs (One (SrcStr s))))
  /\ (forall s, ~ http s -> sdl_or_introspection allow (sdl_of build (lg s)) (ig s) (bs (One (SrcStr s))))
  /\ forall s, bs (Many [s]) = bs (One s).
Proof. intros S. exact single_C42. Qed.
Print Assumptions C42_single_source.
Theorem C42_dict_of_urls : forall S lu lg (iu : string -> list (string * string) -> res S) ig build allow l dsls,
  contributes lu lg (SrcDict l) dsls -> length l <> 1%nat ->
  build_schema_from_schema_type S lu lg iu ig build allow (One (SrcDict l)) = build (join " " dsls)
  /\ build_schema_from_schema_type S lu lg iu ig build allow (Many [SrcDict l]) = build (join " " dsls).
Proof. intros S. exact dict_C42. Qed.
Print Assumptions C42_dict_of_urls.
Theorem C42_list_of_globs_partial : forall S lu lg (iu : string -> list (string * string) -> res S) ig build allow gs dsls,
  (forall g, In g gs -> ~ http g) ->
  Forall2 (fun g d => contributes lu lg (SrcStr g) [d]) gs dsls -> (2 <= length gs)%nat ->
  build_schema_from_schema_type S lu lg iu ig build allow (Many (map SrcStr gs)) = build (join " " dsls).
Proof. intros S. exact globs_C42. Qed.
Print Assumptions C42_list_of_globs_partial.
Definition ex_lu (u : string) (_ : list (string * string)) : res string := Ok ("url:" +s+ u).
Definition ex_lg (g : string) : res string :=
  if is_url g then rraise GenerationErrorC "No files found for glob string" else Ok ("file:" +s+ g).
Example C42_ex : let bs := build_schema_from_schema_type string ex_lu ex_lg (fun _ _ => Ok "intro") (fun _ => Ok "intro") (fun s => Ok s) in
  bs true (Many [SrcStr "a.graphql"; SrcStr "b.graphql"]) = Ok "file:a.graphql file:b.graphql"
  /\ bs false (One (SrcDict [("http://a", []); ("http://b", [("k", "v")])])) = Ok "url:http://a url:http://b"
  /\ bs true (One (SrcStr "http://a")) = Ok "url:http://a".
Proof. repeat split. Qed.
Example C42_glob_ex : contributes ex_lu ex_lg (SrcStr "a.graphql") ["file:a.graphql"] /\ ~ http "a.graphql".
Proof. assert (~ http "a.graphql") by (intros (r & E); discriminate). split; [constructor; [assumption|reflexivity]|assumption]. Qed.
(** A list containing a URL and a glob is rejected although both can be loaded, because the URL
    is also looked up as a glob; so is a list containing a URL with options. *)
Theorem C42_list_with_url_refuted : exists lu lg srcs dsls,
  Forall2 (contributes lu lg) srcs dsls
  /\ is_ok (build_schema_from_schema_type string lu lg (fun _ _ => Ok "intro") (fun _ => Ok "intro") (fun s => Ok s) true (Many srcs)) = false.
Proof.
  exists ex_lu, ex_lg, [SrcStr "http://a"; SrcStr "b.graphql"], [["url:http://a"]; ["file:b.graphql"]].
  split; [|reflexivity]. repeat constructor; [eexists; reflexivity|]. intros (r & E); discriminate.
Qed.
Print Assumptions C42_list_with_url_refuted.
Theorem C42_list_with_dict_refuted : forall S lu lg (iu : string -> list (string * string) -> res S) ig build allow l x rest,
  is_ok (build_schema_from_schema_type S lu lg iu ig build allow (Many (SrcDict l :: x :: rest))) = false.
Proof. reflexivity. Qed.
Print Assumptions C42_list_with_dict_refuted.
Example C42_list_with_dict_ex : contributes ex_lu ex_lg (SrcDict [("http://a", [])]) ["url:http://a"].
Proof. repeat constructor. Qed.

(** ** C49.  [_partial]: names with exactly one dot. *)
Theorem C49_one_dot_partial : forall path stem ending,
  basename path = stem +s+ "." +s+ ending -> no_char "." stem -> no_char "." ending ->
  graphql_filter true path = Ok (String.eqb ending "graphql").
Proof. exact watch_C49. Qed.
Print Assumptions C49_one_dot_partial.
Example C49_ex : graphql_filter true "/p/docs/query.graphql" = Ok true /\ graphql_filter true "/p/docs/api.py" = Ok false.
Proof. split; reflexivity. Qed.
(** A file without a dot crashes the watcher, "a.b.graphql" is missed, "x.graphql.bak" triggers. *)
Theorem C49_watch_refuted :
  (exists path, is_ok (graphql_filter true path) = false)
  /\ (exists path, graphql_file (basename path) /\ graphql_filter true path = Ok false)
  /\ (exists path, ~ graphql_file (basename path) /\ graphql_filter true path = Ok true).
Proof.
  split; [exists "/p/Makefile"; reflexivity|]. split.
  - exists "/p/a.b.graphql". split; [exists "a.b"; reflexivity|reflexivity].
  - exists "/p/x.graphql.bak". split; [|reflexivity]. intros (stem & E).
    change (basename "/p/x.graphql.bak") with "x.graphql.bak" in E.
    change "x.graphql.bak" with ("x.gra" +s+ "phql.bak") in E.
    assert (L : stem = "x.gra").
    { assert (N := f_equal String.length E). rewrite !length_app_s in N. cbn in N.
      destruct stem as [|c1 [|c2 [|c3 [|c4 [|c5 [|c6 stem]]]]]]; cbn in N; try lia.
      cbn in E. injection E. intros. subst. reflexivity. }
    subst. discriminate.
Qed.
Print Assumptions C49_watch_refuted.
