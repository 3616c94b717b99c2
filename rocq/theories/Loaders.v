(** turms/helpers.py lines 43-107 and 142-155, turms/cli/main.py:311-457, turms/processors/command.py, ruff.py, disclaimer.py.
    No proofs in this file.  Servers, external programs and libraries are parameters that may answer anything. *)
From Verif Require Import Base Run Merge.

(** ** JSON as Python reads it *)
Inductive json : Type :=
| JNull | JBool (b : bool) | JNumber (text : string) | JString (s : string)
| JArray (l : list json) | JObject (d : dict json).
Fixpoint substring_of (p s : string) : bool :=
  startswith p s || match s with EmptyString => false | String _ r => substring_of p r end.
(** [k in x] *)
Definition py_in (k : string) (x : json) : res bool :=
  match x with
  | JObject d => Ok (dmem k d)
  | JArray l => Ok (existsb (fun y => match y with JString s => String.eqb s k | _ => false end) l)
  | JString s => Ok (substring_of k s)
  | _ => rraise TypeErrorC "argument is not iterable"
  end.
(** [x[k]] with a string *)
Definition py_item (x : json) (k : string) : res json :=
  match x with
  | JObject d => match dget k d with Some v => Ok v | None => rraise KeyErrorC k end
  | JArray _ => rraise TypeErrorC "list indices must be integers or slices, not str"
  | JString _ => rraise TypeErrorC "string indices must be integers, not 'str'"
  | _ => rraise TypeErrorC "object is not subscriptable"
  end.

(** ** Schemas from URLs: helpers.py:43-107 *)
Record response : Type := Response { re_status : nat; re_content : string }.
Section Http.
Variable requests_installed : bool.
Variable post : string -> string -> dict string -> res response.      (* requests.post(url, data, headers) *)
Variable get : string -> dict string -> res response.                 (* requests.get(url, headers) *)
Variable to_json : response -> res json.                              (* Response.json *)
Variable decode : string -> res string.                               (* bytes.decode *)
Variable shown : json -> string.                                      (* str *)
Variable query : string.                                              (* the introspection query, encoded *)

(** [except Exception as e: raise GenerationError] *)
Definition or_fail {A} (url : string) (m : res A) : res A :=
  match m with Ok x => Ok x | Err _ => rraise GenerationErrorC ("Failed to fetch schema from " +s+ url) end.
Definition require_requests {A} (m : res A) : res A :=
  if requests_installed then m
  else rraise GenerationErrorC "The requests library is required to introspect a schema from a url".
(** helpers.py:66-68; [headers] is None or empty if none are configured *)
Definition introspection_headers (headers : dict string) : dict string :=
  dmerge [("Content-Type", "application/json"); ("Accept", "application/json")] headers.
(** helpers.py:43-84 load_introspection_from_url *)
Definition load_introspection_from_url (url : string) (headers : dict string) : res json :=
  require_requests (
    let? x := or_fail url (let? req := post url query (introspection_headers headers) in to_json req) in
    let? failed := py_in "errors" x in
    if failed then
      let? errors := py_item x "errors" in
      rraise GenerationErrorC ("Failed to fetch schema from " +s+ url +s+ " Graphql error: " +s+ shown errors)
    else
    let? has_data := py_in "data" x in
    if has_data then py_item x "data"
    else rraise GenerationErrorC ("Failed to fetch schema from " +s+ url +s+ ". Did not receive data attripute: " +s+ shown x)).
(** helpers.py:87-107 load_dsl_from_url *)
Definition load_dsl_from_url (url : string) (headers : dict string) : res string :=
  require_requests (or_fail url (
    let? req := get url (dmerge [] headers) in
    if Nat.eqb (re_status req) 200 then
      if String.eqb (re_content req) "" then rraise AssertionErrorC "No content" else decode (re_content req)
    else rraise AssertionErrorC "Incorrect status code")).
End Http.
(** helpers.py:142-155 load_introspection_from_glob; [load] is load_introspection_from_file *)
Definition load_introspection_from_glob (glob : string -> list string) (load : string -> res json) (g : string) : res json :=
  match str_sort (glob g) with
  | [] => rraise GenerationErrorC ("No files found for glob string " +s+ g)
  | [file] => load file
  | _ => rraise GenerationErrorC ("More than one file found for glob string " +s+ g +s+ ". Introspection can only be loaded from one file.")
  end.

(** ** Commands *)
Section Commands.
Variable writable : string -> bool.
(** cli/main.py:426-457 download: a project is the outcome of [build_schema_from_schema_type] and then of [print_schema].
    click.ClickException is an Exception. *)
Fixpoint download_loop (dir out : string) (ps : list (string * res (res string))) (f : fs) : res unit * fs :=
  match ps with
  | [] => (Ok tt, f)
  | (key, schema) :: rest =>
      match schema with
      | Err e => (Err e, f)
      | Ok sdl => fbind (write_to_file writable sdl dir (key +s+ out) f) (download_loop dir out rest)
      end
  end.
Definition click_exception (x : res unit * fs) : res unit * fs :=
  match x with (Err e, f) => (rraise ExceptionC (emsg e), f) | _ => x end.
Definition download (dir : option string) (cwd out : string) (ps : list (string * res (res string))) (f : fs) : res unit * fs :=
  click_exception (download_loop (if truthy dir then opt_str dir else cwd) out ps f).
(** cli/main.py:379-409 init; [confirmed] is the answer to the question, [settings] the rendered template *)
Definition init (cwd config : string) (confirmed : bool) (settings : string) (f : fs) : res unit * fs :=
  match f (path_join cwd config) with
  | Some _ => if confirmed then write_to_file writable (Ok settings) cwd config f else (Ok tt, f)
  | None => write_to_file writable (Ok settings) cwd config f
  end.
(** cli/main.py:311-366 watch_projects.  An event is a change of the files by somebody else; [p f] is the project with what [generate]
    gives for the files [f].  What turms writes itself is no event (its output does not end in .graphql). *)
Definition watch_step (p : fs -> project) (f : fs) (change : fs -> fs) : fs :=
  let f := change f in
  match p_generate (p f) with
  | Ok (code, _) => snd (write_to_file writable (Ok code) (p_out_dir (p f)) (p_generated_name (p f)) f)
  | Err _ => f
  end.
Definition watch_projects (ps : list (string * (fs -> project))) (events : list (fs -> fs)) (f : fs) : res fs :=
  match ps with
  | [(_, p)] => Ok (fold_left (watch_step p) events f)
  | [] => rraise IndexErrorC "list index out of range"
  | _ => rraise ExceptionC "Watching multiple projects is not supported. Please specify a single project!"
  end.
End Commands.

(** ** Processors that run programs *)
Record outcome : Type := Outcome { o_code : Z; o_stdout : string; o_stderr : string }.
Section Programs.
Variable execute : list string -> string -> res outcome.       (* subprocess.run(command, input) *)
Variable split : string -> res (list string).                  (* shlex.split *)
Variable python : string.                                      (* sys.executable *)
Variable show_code : Z -> string.
Definition run_program (name : string) (command : list string) (gen_file : string) : res string :=
  let? result := execute command gen_file in
  if Z.eqb (o_code result) 0 then Ok (o_stdout result)
  else rraise RuntimeErrorC (name +s+ " failed (exit code " +s+ show_code (o_code result) +s+ "):" +s+ nl +s+ o_stderr result).
(** processors/command.py:39-54; the command is a string or a list *)
Definition command_run (command : string + list string) (gen_file : string) : res string :=
  let? command := match command with inl s => split s | inr l => Ok l end in
  run_program ("Command " +s+ join " " command) command gen_file.
(** processors/ruff.py:30-57 *)
Definition run_ruff (args : list string) (gen_file : string) : res string :=
  run_program ("ruff " +s+ join " " args) ([python; "-m"; "ruff"] ++ args ++ ["-"]) gen_file.
Definition ruff_run (format fix_ : bool) (gen_file : string) : res string :=
  let? gen_file := if fix_ then run_ruff ["check"; "--fix"; "--quiet"; "--stdin-filename"; "generated.py"] gen_file else Ok gen_file in
  if format then run_ruff ["format"; "--quiet"; "--stdin-filename"; "generated.py"] gen_file else Ok gen_file.
End Programs.
(** processors/disclaimer.py:23-24 *)
Definition disclaimer_run (disclaimer gen_file : string) : string := disclaimer +s+ nl +s+ gen_file.
(** the same on parsed modules, if the disclaimer is a string as the default one is: one more statement at the start *)
Definition disclaim (disclaimer : string) (m : cmodule) : cmodule :=
  CModule "" (CLine [Small disclaimer] (m_header m) :: m_body m) (m_footer m).
(** run.py:432-460 with the processors merge and disclaimer, on parsed modules, for code that does not change; the file is written
    before the next run reads it *)
Definition run_merge (old : option cmodule) (generated : cmodule) : res cmodule :=
  match old with None => Ok generated | Some existing => merge_modules existing generated end.
Definition merge_then_disclaim (disclaimer : string) (generated : cmodule) (old : option cmodule) : res cmodule :=
  let? m := run_merge old generated in Ok (disclaim disclaimer m).
Definition disclaim_then_merge (disclaimer : string) (generated : cmodule) (old : option cmodule) : res cmodule :=
  run_merge old (disclaim disclaimer generated).
Fixpoint runs (one : option cmodule -> res cmodule) (n : nat) (old : option cmodule) : res (option cmodule) :=
  match n with
  | O => Ok old
  | S n => let? m := one old in runs one n (Some m)
  end.
