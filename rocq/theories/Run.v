(** turms/run.py, turms/helpers.py, turms/cli/main.py, turms/cli/watch.py: the pipeline, files,
    configuration discovery and schema sources.  No proofs in this file. *)
From Verif Require Import Base PyAst Gql Config Stylers Registry Referencer.

(** ** run.py:468-603: the pipeline *)
(** A plugin is anything that produces statements from the registry; parsers and processors
    are arbitrary functions.  The name is [x.__class__.__name__]. *)
Record plugin : Type := Plugin { pl_name : string; pl_generate : M (list stmt) }.
Record parser : Type := Parser { pa_cls : string; pa_parse : list stmt -> res (list stmt) }.
Record processor : Type := Processor { pr_name : string; pr_run : string -> res string }.

(** [raise GenerationError(f"{name} failed!\n {str(e)}") from e] *)
Definition stage_error (name : string) (e : exn) : exn :=
  Exn GenerationErrorC (name +s+ " failed!" +s+ nl +s+ " " +s+ emsg e).

(** run.py:498-504 *)
Fixpoint run_plugins (ps : list plugin) (r : reg) (tree : list stmt) : res (list stmt * reg) :=
  match ps with
  | [] => Ok (tree, r)
  | p :: rest =>
      match pl_generate p r with
      | (Ok l, r') => run_plugins rest r' (tree ++ l)
      | (Err e, _) => Err (stage_error (pl_name p) e)
      end
  end.
(** run.py:468-511 generate_ast; [iter_set] is the iteration order of Python sets *)
Definition generate_ast (c : gconfig) (iter_set : list string -> list string) (plugins : list plugin)
           (skip_forwards : bool) : res (list stmt) :=
  let? tr := run_plugins plugins (init_reg c) [] in
  let '(tree, r) := tr in
  let? bs := generate_builtins iter_set r in
  Ok (generate_imports iter_set r ++ bs ++ tree ++ (if skip_forwards then [] else generate_forward_refs c r)).
(** run.py:514-544 parse_ast *)
Fixpoint parse_ast (ps : list parser) (l : list stmt) : res (list stmt) :=
  match ps with
  | [] => Ok l
  | p :: rest => match pa_parse p l with
                 | Ok l' => parse_ast rest l'
                 | Err e => Err (stage_error (pa_cls p) e)
                 end
  end.
(** run.py:547-577 process_code *)
Fixpoint process_code (ps : list processor) (code : string) : res string :=
  match ps with
  | [] => Ok code
  | p :: rest => match pr_run p code with
                 | Ok code' => process_code rest code'
                 | Err e => Err (stage_error (pr_name p) e)
                 end
  end.
(** run.py:580-603 generate_code; [unparse] is [ast.unparse] (run.py:463-465) *)
Definition generate_code (c : gconfig) (iter_set : list string -> list string)
           (unparse : list stmt -> res string)
           (plugins : list plugin) (parsers : list parser) (processors : list processor) : res string :=
  let? tree := generate_ast c iter_set plugins (c_skip_forwards c) in
  let? parsed := parse_ast parsers tree in
  let? code := unparse parsed in
  process_code processors code.

(** ** Files *)
(** The file system: contents by path.  [writable] tells for which paths creating the folder
    and opening the file succeed. *)
Definition fs := string -> option string.
Definition fset (p content : string) (f : fs) : fs := fun q => if String.eqb q p then Some content else f q.
Definition path_join (dir name : string) : string := dir +s+ "/" +s+ name.

(** A project as far as the drivers look at it: [p_generate] is the outcome of run.generate
    (run.py:380-460), a pair of code and schema; the schema is represented by the outcome of
    [print_schema], which is called after the file has been opened. *)
Record project : Type := Project {
  p_generate : res (string * res string);
  p_schema : res (res string);              (* build_schema_from_schema_type, again *)
  p_json : string;                          (* model_dump_json *)
  p_out_dir : string; p_generated_name : string;
  p_dump_schema : bool; p_schema_name : string;
  p_dump_configuration : bool; p_configuration_name : string;
  p_exit_on_error : bool }.
Definition p_out (p : project) : string := path_join (p_out_dir p) (p_generated_name p).

Section Files.
Variable writable : string -> bool.

(** run.py:165-181, 184-200, 203-219: open for writing (which empties the file), then write
    whatever [content] evaluates to *)
Definition write_to_file (content : res string) (dir name : string) (f : fs) : res unit * fs :=
  let p := path_join dir name in
  if writable p then
    match content with
    | Ok s => (Ok tt, fset p s f)
    | Err e => (Err e, fset p "" f)
    end
  else (Err (Exn OSErrorC p), f).
Definition fbind (x : res unit * fs) (k : fs -> res unit * fs) : res unit * fs :=
  match x with (Ok _, f) => k f | (Err e, f) => (Err e, f) end.

(** cli/main.py:223-249: the try block for one project *)
Definition generate_one (p : project) (f : fs) : res unit * fs :=
  match p_generate p with
  | Err e => (Err e, f)
  | Ok (code, schema) =>
      fbind (write_to_file (Ok code) (p_out_dir p) (p_generated_name p) f) (fun f =>
      fbind (if p_dump_schema p then write_to_file schema (p_out_dir p) (p_schema_name p) f else (Ok tt, f)) (fun f =>
      if p_dump_configuration p
      then write_to_file (Ok (p_json p)) (p_out_dir p) (p_configuration_name p) f else (Ok tt, f)))
  end.
(** cli/main.py:200-270 generate_projects; the first component is the list raised_exceptions *)
Fixpoint generate_loop (ps : list (string * project)) (f : fs) : list exn * fs :=
  match ps with
  | [] => ([], f)
  | (_, p) :: rest =>
      let '(x, f1) := generate_one p f in
      let '(errs, f2) := generate_loop rest f1 in
      (match x with Err e => if p_exit_on_error p then e :: errs else errs | Ok _ => errs end, f2)
  end.
Definition generate_projects (ps : list (string * project)) (f : fs) : res unit * fs :=
  let '(errs, f') := generate_loop ps f in
  match errs with
  | [] => (Ok tt, f')
  | _ => (rraise ExceptionC "One or more projects failed to generate. First error", f')
  end.

(** run.py:222-280 gen: one project.  [generate] returns a pair, which is handed to
    [file.write]: the file is emptied and a TypeError raised. *)
Definition gen_one (overwrite_path : option string) (p : project) (f : fs) : res unit * fs :=
  match p_generate p with
  | Err e => (Err e, f)
  | Ok _ =>
      let dir := if truthy overwrite_path then opt_str overwrite_path else p_out_dir p in
      fbind (write_to_file (rraise TypeErrorC "write() argument must be str, not tuple") dir (p_generated_name p) f) (fun f =>
      fbind (if p_dump_schema p then
               match p_schema p with
               | Err e => (Err e, f)
               | Ok s => write_to_file s (p_out_dir p) (p_schema_name p) f
               end
             else (Ok tt, f)) (fun f =>
      if p_dump_configuration p
      then write_to_file (Ok (p_json p)) (p_out_dir p) (p_configuration_name p) f else (Ok tt, f)))
  end.
Fixpoint gen_loop (strict : bool) (overwrite_path : option string) (ps : list (string * project)) (f : fs)
  : res unit * fs :=
  match ps with
  | [] => (Ok tt, f)
  | (_, p) :: rest =>
      match gen_one overwrite_path p f with
      | (Ok _, f') => gen_loop strict overwrite_path rest f'
      | (Err e, f') => if strict then (rraise GenerationErrorC "", f')
                       else gen_loop strict overwrite_path rest f'
      end
  end.
End Files.

(** ** Configuration discovery *)
(** run.py:60-69 SCANNABLE_FILE_NAMES *)
Definition scannable_file_names : list string :=
  ["graphql.config.yaml"; ".graphqlrc.yaml"; "graphql.config.yml"; ".graphqlrc.yml";
   "graphql.config.toml"; ".graphqlrc.toml"; "graphql.config.json"; ".graphqlrc.json"].
(** run.py:121-137 scan_folder_for_configs; [listing] is [os.listdir(folder)] *)
Definition scan_folder_for_configs (folder : string) (listing : list string) : list string :=
  map (path_join folder) (filter (fun n => mem (str_lower n) scannable_file_names) listing).
(** run.py:140-162 scan_folder_for_single_config *)
Definition scan_folder_for_single_config (folder : string) (listing : list string) : res string :=
  match scan_folder_for_configs folder listing with
  | [] => rraise GenerationErrorC "No config files found"
  | [x] => Ok x
  | _ => rraise GenerationErrorC "Multiple config files found"
  end.
(** run.py:72-85 get_file_loader: only AttributeError is translated, an unknown ending is a
    KeyError *)
Definition file_loaders : list string := ["yaml"; "yml"; "toml"; "json"].
Definition get_file_loader (file_name : string) : res string :=
  let ending := last_comp (str_lower file_name) in
  if mem ending file_loaders then Ok ending else rraise KeyErrorC ending.
(** run.py:88-118 load_projects_from_configpath: [load loader path] reads and parses the file,
    [validate] is the pydantic validation of the loaded value into projects *)
Definition select_projects {A} (select : option string) (projects : dict A) : res (dict A) :=
  if truthy select then
    match filter (fun kv => String.eqb (fst kv) (opt_str select)) projects with
    | [] => rraise AssertionErrorC "At least one project must be selected"
    | l => Ok l
    end
  else Ok projects.
Definition load_projects_from_configpath {A V} (load : string -> string -> res V)
           (validate : V -> option (dict A)) (config_path : string) (select : option string) : res (dict A) :=
  let? loader := get_file_loader config_path in
  let? v := load loader config_path in
  match validate v with
  | None => rraise GenerationErrorC "does not conform with turms."
  | Some projects => select_projects select projects
  end.
(** cli/main.py:273-308 with_projects: which projects a command is run on; every failure is
    reported as ClickException *)
Definition with_projects {A V} (load : string -> string -> res V) (validate : V -> option (dict A))
           (cwd : string) (listing : list string) (config project : option string) : res (dict A) :=
  let? path := if truthy config then Ok (opt_str config) else scan_folder_for_single_config cwd listing in
  let? projects := load_projects_from_configpath load validate path None in
  if truthy project then
    match filter (fun kv => String.eqb (fst kv) (opt_str project)) projects with
    | [] => rraise ExceptionC "Project not found"
    | l => Ok l
    end
  else Ok projects.

(** ** Schema sources: run.py:297-377 *)
Inductive source : Set :=
| SrcStr (s : string)
| SrcDict (l : list (string * list (string * string))).     (* url -> headers *)
Inductive schema_type : Set := One (s : source) | Many (l : list source).
Section Sources.
Variable SchemaT : Type.
Variable load_url : string -> list (string * string) -> res string.        (* load_dsl_from_url *)
Variable load_glob : string -> res string.                                 (* load_dsl_from_glob *)
Variable introspect_url : string -> list (string * string) -> res SchemaT. (* load_introspection_from_url, build_client_schema *)
Variable introspect_glob : string -> res SchemaT.
Variable build : string -> res SchemaT.                                    (* parse, build_ast_schema; the
   assume_valid flags, set for single strings only, are not distinguished *)

(** run.py:297-298 is_url *)
Definition is_url (s : string) : bool := startswith "http" s || startswith "https" s.
Definition or_introspect (allow : bool) (m : res SchemaT) (i : res SchemaT) : res SchemaT :=
  match m with Ok s => Ok s | Err e => if allow then i else Err e end.
Definition build_one (allow : bool) (s : source) : res SchemaT :=
  match s with
  | SrcDict [(key, headers)] =>
      or_introspect allow (let? dsl := load_url key headers in build dsl) (introspect_url key headers)
  | SrcDict l =>
      let? dsls := rmap (fun kv => load_url (fst kv) (snd kv)) l in build (join " " dsls)
  | SrcStr s =>
      if is_url s
      then or_introspect allow (let? dsl := load_url s [] in build dsl) (introspect_url s [])
      else or_introspect allow (let? dsl := load_glob s in build dsl) (introspect_glob s)
  end.
(** run.py:340-350: the loop over a list of sources.  A dict has no [startswith]; a URL string
    is also a string. *)
Definition list_item (s : source) : res (list string) :=
  match s with
  | SrcDict _ => rraise AttributeErrorC "startswith"
  | SrcStr s =>
      let? a := if is_url s then let? d := load_url s [] in Ok [d] else Ok [] in
      let? b := load_glob s in Ok (a ++ [b])
  end.
Definition build_schema_from_schema_type (allow : bool) (t : schema_type) : res SchemaT :=
  match t with
  | One s => build_one allow s
  | Many [s] => build_one allow s
  | Many l => let? dsls := rmap list_item l in build (join " " (concat dsls))
  end.
End Sources.

(** helpers.py:118-135 load_dsl_from_glob *)
Definition load_dsl_from_glob (glob : string -> list string) (read : string -> res string) (g : string) : res string :=
  match str_sort (glob g) with
  | [] => rraise GenerationErrorC "No files found for glob string"
  | files => let? l := rmap read files in Ok (join "" l)
  end.

(** ** cli/watch.py:6-15 GraphQLFilter.  [base] is the verdict of watchfiles' BaseFilter. *)
Definition slash : ascii := ascii_of_nat 47.
Definition basename (path : string) : string := last (split_on slash path) "".
Definition graphql_filter (base : bool) (path : string) : res bool :=
  if negb base then Ok false
  else match nth_error (split_on (ascii_of_nat 46) (basename path)) 1 with
       | Some ending => Ok (String.eqb ending "graphql")
       | None => rraise IndexErrorC "list index out of range"
       end.
