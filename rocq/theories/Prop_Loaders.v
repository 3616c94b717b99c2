(** C66: a schema loaded from a server is what the server answered.  C67: download and init write what they announce.
    C68: processors use what programs print only if they succeed.  C69: watching keeps the output up to date. *)
From Verif Require Import Base PyAst Config Registry Run Merge Spec_Run Spec_Merge Loaders Spec_Loaders P_Run P_Loaders Prop_Merge.

(** ** C66 *)
(** SDL: the text of a response with status 200 and some content; anything else is a generation error *)
Theorem C66_sdl_partial : forall installed get decode url configured, NoDup (dkeys configured) -> exists sent, headers_sent no_headers configured sent
  /\ (forall t, load_dsl_from_url installed get decode url configured = Ok t <->
        installed = true /\ exists content, content <> "" /\ get url sent = Ok (Response 200 content) /\ decode content = Ok t)
  /\ (forall e, load_dsl_from_url installed get decode url configured = Err e -> ecls e = GenerationErrorC).
Proof. exact dsl_ok. Qed.
Print Assumptions C66_sdl_partial.
(** introspection: the data of an answer without errors.  Missing: answers that are no JSON objects, see [C66_object_refuted]; and an empty
    list of errors counts as an error, see [C66_errors_refuted]. *)
Theorem C66_introspection_partial : forall installed post to_json shown query url configured, NoDup (dkeys configured) -> exists sent, headers_sent json_headers configured sent
  /\ (forall d, load_introspection_from_url installed post to_json shown query url configured = Ok d <->
        installed = true /\ exists r x, post url query sent = Ok r /\ to_json r = Ok x /\ answers_with x d)
  /\ (forall e, load_introspection_from_url installed post to_json shown query url configured = Err e ->
        (forall r x, post url query sent = Ok r -> to_json r = Ok x -> json_object x) -> ecls e = GenerationErrorC).
Proof. exact introspection_ok. Qed.
Print Assumptions C66_introspection_partial.
(** introspection from files: exactly one file *)
Theorem C66_file_partial : forall glob load g,
  (forall x, load_introspection_from_glob glob load g = Ok x <-> exists file, glob g = [file] /\ load file = Ok x)
  /\ (length (glob g) <> 1%nat -> exists msg, load_introspection_from_glob glob load g = rraise GenerationErrorC msg).
Proof. intros glob load g. split; [apply glob_ok|apply glob_many]. Qed.
Print Assumptions C66_file_partial.
(** a server that answers introspection with the given JSON if the request is authorized *)
Definition server (answer : json) (url query : string) (headers : dict string) : res response :=
  match dget "Authorization" headers, dget "Accept" headers with
  | Some "Bearer t", Some "application/json" => Ok (Response 200 "")
  | _, _ => rraise OSErrorC "401"
  end.
Definition read_as (answer : json) (r : response) : res json := Ok answer.
Definition show_json (x : json) : string := match x with JArray [] => "[]" | _ => "..." end.
Definition introspect (answer : json) (headers : dict string) : res json :=
  load_introspection_from_url true (server answer) (read_as answer) show_json "{ __schema }" "https://api" headers.
Example C66_ex : NoDup (dkeys [("Authorization", "Bearer t")])
  /\ introspect (JObject [("data", JNumber "1")]) [("Authorization", "Bearer t")] = Ok (JNumber "1")
  /\ introspect (JObject [("data", JNumber "1")]) [] = rraise GenerationErrorC "Failed to fetch schema from https://api"
  /\ is_ok (introspect (JObject [("data", JNumber "1"); ("errors", JArray [JString "no"])]) [("Authorization", "Bearer t")]) = false
  /\ load_dsl_from_url true (fun _ _ => Ok (Response 200 "type Query")) (fun c => Ok c) "https://api" [] = Ok "type Query"
  /\ load_dsl_from_url true (fun _ _ => Ok (Response 404 "<html>")) (fun c => Ok c) "https://api" [] = rraise GenerationErrorC "Failed to fetch schema from https://api"
  /\ load_introspection_from_glob (fun _ => ["a.json"]) (fun f => Ok (JString f)) "*.json" = Ok (JString "a.json").
Proof. split; [repeat constructor; intros []|]. repeat split. Qed.
(** a server that answers with a JSON array (as for batched queries) is not reported as a generation error *)
Theorem C66_object_refuted : exists answer e, introspect answer [("Authorization", "Bearer t")] = Err e /\ ecls e <> GenerationErrorC.
Proof. exists JNull. eexists. split; [reflexivity|discriminate]. Qed.
Print Assumptions C66_object_refuted.
(** an answer with data and an empty list of errors is rejected *)
Theorem C66_errors_refuted : exists data, is_ok (introspect (JObject [("errors", JArray []); ("data", data)]) [("Authorization", "Bearer t")]) = false.
Proof. now exists (JObject []). Qed.
Print Assumptions C66_errors_refuted.

(** ** C67 *)
Theorem C67_download_partial : forall writable dir cwd out ps f, NoDup (map fst ps) ->
  (forall p, In p (map fst (schema_files (download_dir dir cwd) out ps)) -> writable p = true) ->
  fst (download writable dir cwd out (good ps) f) = Ok tt
  /\ written (schema_files (download_dir dir cwd) out ps) f (snd (download writable dir cwd out (good ps) f)).
Proof. exact download_all. Qed.
Print Assumptions C67_download_partial.
(** a project whose schema cannot be loaded is reported, the ones before it are written.  Missing: the ones after it, see
    [C67_stops_refuted]. *)
Theorem C67_failure_partial : forall writable dir cwd out ps k e rest f, NoDup (map fst ps) ->
  (forall p, In p (map fst (schema_files (download_dir dir cwd) out ps)) -> writable p = true) ->
  fst (download writable dir cwd out (good ps ++ (k, Err e) :: rest) f) = rraise ExceptionC (emsg e)
  /\ written (schema_files (download_dir dir cwd) out ps) f (snd (download writable dir cwd out (good ps ++ (k, Err e) :: rest) f)).
Proof. exact download_stops. Qed.
Print Assumptions C67_failure_partial.
(** init asks before it overwrites *)
Theorem C67_init_partial : forall writable cwd config confirmed settings f, let q := cwd +s+ "/" +s+ config in writable q = true ->
  (f q <> None -> confirmed = false -> snd (init writable cwd config confirmed settings f) = f)
  /\ (f q = None \/ confirmed = true -> written [(q, settings)] f (snd (init writable cwd config confirmed settings f)))
  /\ fst (init writable cwd config confirmed settings f) = Ok tt.
Proof. exact init_ok. Qed.
Print Assumptions C67_init_partial.
Definition no_files : fs := fun _ => None.
Example C67_ex : let ps := [("a", "type A"); ("b", "type B")] in let always := fun _ : string => true in
  NoDup (map fst ps)
  /\ (let f := snd (download always None "/w" ".schema.graphql" (good ps) no_files) in f "/w/a.schema.graphql" = Some "type A" /\ f "/w/b.schema.graphql" = Some "type B" /\ f "/w/a" = None)
  /\ (let f := snd (init always "/w" "graphql.config.yaml" false "new" (fset "/w/graphql.config.yaml" "old" no_files)) in f "/w/graphql.config.yaml" = Some "old")
  /\ (let f := snd (init always "/w" "graphql.config.yaml" false "new" no_files) in f "/w/graphql.config.yaml" = Some "new").
Proof. split; [apply P_Base.nodupb_NoDup; reflexivity|]. repeat split. Qed.
(** unlike gen, download does not go on with the next project *)
Theorem C67_stops_refuted : exists ps k sdl, In (k, Ok (Ok sdl)) ps
  /\ snd (download (fun _ => true) None "/w" ".graphql" ps no_files) ("/w/" +s+ k +s+ ".graphql") = None.
Proof. exists [("a", rraise OSErrorC "offline"); ("b", Ok (Ok "type B"))], "b", "type B". split; [right; now left|reflexivity]. Qed.
Print Assumptions C67_stops_refuted.

(** ** C68 *)
(** the command processor returns what the program prints, exactly if it succeeds *)
Theorem C68_command_partial : forall execute split show_code command input output, command_run execute split show_code command input = Ok output <->
  exists args, match command with inl s => split s = Ok args | inr l => l = args end /\ succeeds execute args input output.
Proof. exact command_ok. Qed.
Print Assumptions C68_command_partial.
Theorem C68_ruff_partial : forall execute python show_code format fix_ input output, ruff_run execute python show_code format fix_ input = Ok output <->
  exists mid, optionally fix_ (succeeds execute [python; "-m"; "ruff"; "check"; "--fix"; "--quiet"; "--stdin-filename"; "generated.py"; "-"]) input mid
  /\ optionally format (succeeds execute [python; "-m"; "ruff"; "format"; "--quiet"; "--stdin-filename"; "generated.py"; "-"]) mid output.
Proof. exact ruff_ok. Qed.
Print Assumptions C68_ruff_partial.
(** adding a disclaimer leaves the lines of the code as they are (an indented or joined first line would be another program) *)
Theorem C68_lines : forall d gen, split_on newline (disclaimer_run d gen) = split_on newline d ++ split_on newline gen.
Proof. exact disclaimer_lines. Qed.
Print Assumptions C68_lines.
Example C68_lines_ex : split_on newline (disclaimer_run ("# generated" +s+ nl +s+ "    ") ("import re" +s+ nl)) = ["# generated"; "    "; "import re"; ""].
Proof. reflexivity. Qed.
(** a disclaimer added before merging is added once, however often the code is generated *)
Theorem C68_disclaimer_partial : forall d gen old n out, same_kinds (m_body old) (m_body gen) -> unique_members (m_body gen) ->
  disclaim_then_merge d gen (Some old) = Ok out -> runs (disclaim_then_merge d gen) (S n) (Some old) = Ok (Some out).
Proof. exact disclaim_merge_stable. Qed.
Print Assumptions C68_disclaimer_partial.
(** one added after merging is added once more in every run *)
Theorem C68_repeated_partial : forall d gen old out, same_kinds (m_body old) (m_body gen) -> merge_then_disclaim d gen (Some old) = Ok out ->
  (count (is_text d) (m_body old) < count (is_text d) (m_body out))%nat.
Proof. exact disclaimers_grow. Qed.
Print Assumptions C68_repeated_partial.
(** a formatter that fails if the code is empty, and a linter that is not installed *)
Definition programs (command : list string) (input : string) : res outcome :=
  if mem "format" command then Ok (if String.eqb input "" then Outcome 2 "" "empty" else Outcome 0 ("# formatted" +s+ nl +s+ input) "")
  else rraise OSErrorC "not found".
Example C68_ex : let split := fun s => Ok (split_on " "%char s) in let show := fun _ : Z => "2" in
  command_run programs split show (inl "ruff format -") "x" = Ok ("# formatted" +s+ nl +s+ "x")
  /\ command_run programs split show (inr ["ruff"; "format"; "-"]) "" = rraise RuntimeErrorC ("Command ruff format - failed (exit code 2):" +s+ nl +s+ "empty")
  /\ ruff_run programs "python" show true false "x" = Ok ("# formatted" +s+ nl +s+ "x")
  /\ is_ok (ruff_run programs "python" show true true "x") = false
  /\ ruff_run programs "python" show false false "x" = Ok "x".
Proof. repeat split. Qed.
Example C68_disclaimer_ex : same_kinds (m_body ex_old) (m_body ex_gen) /\ unique_members (m_body ex_gen)
  /\ (exists out, disclaim_then_merge "generated" ex_gen (Some ex_old) = Ok out /\ count (is_text "generated") (m_body out) = 0%nat)
  /\ (exists out, runs (disclaim_then_merge "generated" ex_gen) 3 None = Ok (Some out) /\ count (is_text "generated") (m_body out) = 1%nat)
  /\ exists out, runs (merge_then_disclaim "generated" ex_gen) 3 None = Ok (Some out) /\ count (is_text "generated") (m_body out) = 3%nat.
Proof. split; [exact same_kinds_ex|]. split; [exact unique_members_ex|]. repeat split; (eexists; split; [vm_compute; reflexivity|reflexivity]). Qed.
(** so with the disclaimer after the merge, generating again without any change changes the file *)
Theorem C68_again_refuted : exists d gen old, same_kinds (m_body old) (m_body gen) /\ unique_members (m_body gen)
  /\ runs (merge_then_disclaim d gen) 1 (Some old) <> runs (merge_then_disclaim d gen) 2 (Some old).
Proof. exists "generated", ex_gen, ex_old. split; [exact same_kinds_ex|]. split; [exact unique_members_ex|]. vm_compute. discriminate. Qed.
Print Assumptions C68_again_refuted.

(** ** C69 *)
(** watching writes what gen writes after every change.  Missing: projects that dump their schema or configuration, see
    [C69_schema_refuted]. *)
Theorem C69_gen_partial : forall writable p q, (forall f, p_out (p f) = q) -> forall k events f,
  (forall f, p_dump_schema (p f) = false) -> (forall f, p_dump_configuration (p f) = false) ->
  watch_projects writable [(k, p)] events f = Ok (fold_left (fun f c => snd (generate_projects writable [(k, p (c f))] (c f))) events f).
Proof. exact watch_gens. Qed.
Print Assumptions C69_gen_partial.
(** and at any time the output is the code for the last change for which there was code *)
Theorem C69_output_partial : forall writable p q, (forall f, p_out (p f) = q) -> writable q = true -> independent q p ->
  forall k events f g, (forall c, In c events -> foreign q c) -> watch_projects writable [(k, p)] events f = Ok g ->
  same_but q g (edited events f) /\ (never_good p events f -> g q = f q) /\ (forall code, last_good p events f code -> g q = Some code).
Proof. intros writable p q HQ HW HI k events f g HF [= <-]. exact (watch_inv writable p q HQ HW HI events f HF). Qed.
Print Assumptions C69_output_partial.
(** a project that copies a.graphql, as long as it is there *)
Definition copier (dump : bool) (f : fs) : project :=
  Project (match f "a.graphql" with Some t => Ok (t, Ok t) | None => rraise GenerationErrorC "no documents" end) (rraise ExceptionC "") "" "api" "schema.py" dump "schema.graphql" false "" true.
Definition edit (t : string) (f : fs) : fs := fset "a.graphql" t f.
Definition remove (f : fs) : fs := fun p => if String.eqb p "a.graphql" then None else f p.
Example C69_ex : (forall f, p_out (copier false f) = "api/schema.py") /\ independent "api/schema.py" (copier false)
  /\ (forall c, In c [edit "A"; edit "B"; remove] -> foreign "api/schema.py" c)
  /\ last_good (copier false) [edit "A"; edit "B"; remove] no_files "B"
  /\ exists g, watch_projects (fun _ => true) [("p", copier false)] [edit "A"; edit "B"; remove] no_files = Ok g /\ g "api/schema.py" = Some "B".
Proof.
  split; [reflexivity|]. split; [intros f g H; unfold copier; cbn; now rewrite (H "a.graphql")|]. split; [|split].
  - intros c [<-|[<-|[<-|[]]]]; (split; [reflexivity|]); intros f g H x N; unfold edit, remove, fset; destruct (String.eqb x "a.graphql"); try reflexivity; now apply H.
  - exists [edit "A"; edit "B"], [remove], (Ok "B"). split; [reflexivity|]. split; [discriminate|]. split; [reflexivity|].
    intros [|c more] rest E N; [now elim N|]. injection E as <- E. destruct more; [reflexivity|discriminate E].
  - eexists. split; [reflexivity|reflexivity].
Qed.
(** gen dumps the schema, watch does not *)
Theorem C69_schema_refuted : exists p change f g, watch_projects (fun _ => true) [("p", p)] [change] f = Ok g
  /\ g "api/schema.graphql" = None /\ snd (generate_projects (fun _ => true) [("p", p (change f))] (change f)) "api/schema.graphql" = Some "A".
Proof. exists (copier true), (edit "A"), no_files. eexists. split; [reflexivity|]. split; reflexivity. Qed.
Print Assumptions C69_schema_refuted.
