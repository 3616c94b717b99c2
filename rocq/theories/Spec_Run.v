(** Specifications for the pipeline and the command line, independent of the model's loops. *)
From Verif Require Import Base PyAst Gql Config Stylers Registry Run.

(** [ran step l a b]: the stages [l], run one after the other in this order, lead from [a] to [b] *)
Inductive ran {X St : Type} (step : X -> St -> St -> Prop) : list X -> St -> St -> Prop :=
| ran_nil : forall a, ran step [] a a
| ran_cons : forall x l a b c, step x a b -> ran step l b c -> ran step (x :: l) a c.

Definition plugin_step (p : plugin) (a b : reg * list stmt) : Prop :=
  exists l, pl_generate p (fst a) = (Ok l, fst b) /\ snd b = snd a ++ l.
Definition parser_step (p : parser) (a b : list stmt) : Prop := pa_parse p a = Ok b.
Definition processor_step (p : processor) (a b : string) : Prop := pr_run p a = Ok b.

(** a generation error that names the failing stage and carries the original message *)
Definition reports (name : string) (cause : exn) (e : exn) : Prop :=
  ecls e = GenerationErrorC /\ exists mid, emsg e = name +s+ mid +s+ emsg cause.

(** ** Output files *)
(** the files a project writes when it can be generated *)
Definition may_write (p : project) (path : string) : Prop :=
  path = p_out p
  \/ (p_dump_schema p = true /\ path = path_join (p_out_dir p) (p_schema_name p))
  \/ (p_dump_configuration p = true /\ path = path_join (p_out_dir p) (p_configuration_name p)).
(** what "the project failed" means *)
Definition dump_fails (writable : string -> bool) (p : project) (schema : res string) : Prop :=
  writable (p_out p) = false
  \/ (p_dump_schema p = true /\ (writable (path_join (p_out_dir p) (p_schema_name p)) = false \/ is_ok schema = false))
  \/ (p_dump_configuration p = true /\ writable (path_join (p_out_dir p) (p_configuration_name p)) = false).
Definition project_fails (writable : string -> bool) (p : project) : Prop :=
  match p_generate p with Err _ => True | Ok (_, schema) => dump_fails writable p schema end.

(** ** Configuration files *)
Definition ci_eq (a b : string) : Prop := str_lower a = str_lower b.
Definition recognised (n : string) : Prop :=
  exists base ending, In base ["graphql.config"; ".graphqlrc"] /\ In ending ["yaml"; "yml"; "toml"; "json"]
  /\ ci_eq n (base +s+ "." +s+ ending).

(** ** Watching *)
(** the file name ends in ".graphql" *)
Definition graphql_file (name : string) : Prop := exists stem, name = stem +s+ ".graphql".
Definition no_char (c : ascii) (s : string) : Prop := sforall (fun d => negb (Ascii.eqb c d)) s = true.

(** ** Schema sources *)
Definition http (s : string) : Prop := exists rest, s = "http" +s+ rest.
(** what a source contributes: URLs are fetched, with their headers if given, other strings
    are globs *)
Inductive contributes (load_url : string -> list (string * string) -> res string) (load_glob : string -> res string)
  : source -> list string -> Prop :=
| con_dict : forall l dsls, Forall2 (fun kv d => load_url (fst kv) (snd kv) = Ok d) l dsls ->
             contributes load_url load_glob (SrcDict l) dsls
| con_url : forall s d, http s -> load_url s [] = Ok d -> contributes load_url load_glob (SrcStr s) [d]
| con_glob : forall s d, ~ http s -> load_glob s = Ok d -> contributes load_url load_glob (SrcStr s) [d].
(** introspection only as a fallback *)
Definition sdl_or_introspection {A} (allow : bool) (sdl intro out : res A) : Prop :=
  (is_ok sdl = true -> out = sdl) /\ (is_ok sdl = false -> allow = true -> out = intro)
  /\ (is_ok sdl = false -> allow = false -> out = sdl).
Definition sdl_of {A} (build : string -> res A) (load : res string) : res A :=
  match load with Ok d => build d | Err e => Err e end.
