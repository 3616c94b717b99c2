(** What loading from a server, the commands and the processors should do. *)
From Verif Require Import Base Run Merge Spec_Run Loaders.

(** an answer of a GraphQL server without errors *)
Definition answers_with (x d : json) : Prop := exists o, x = JObject o /\ dget "errors" o = None /\ dget "data" o = Some d.
Definition json_object (x : json) : Prop := exists o, x = JObject o.
(** the headers sent are the configured ones, and the default ones that are not configured *)
Definition headers_sent (defaults : string -> option string) (configured sent : dict string) : Prop :=
  forall k, dget k sent = match dget k configured with Some v => Some v | None => defaults k end.
Definition json_headers (k : string) : option string :=
  if String.eqb k "Content-Type" then Some "application/json" else if String.eqb k "Accept" then Some "application/json" else None.
Definition no_headers (k : string) : option string := None.

(** [f'] is [f] with these files written *)
Definition written (files : list (string * string)) (f f' : fs) : Prop :=
  (forall p c, In (p, c) files -> f' p = Some c) /\ (forall p, ~ In p (map fst files) -> f' p = f p).
Definition schema_files (dir out : string) (ps : list (string * string)) : list (string * string) :=
  map (fun kv => (dir +s+ "/" +s+ fst kv +s+ out, snd kv)) ps.
(** projects whose schemas can be loaded and printed *)
Definition good (ps : list (string * string)) : list (string * res (res string)) := map (fun kv => (fst kv, Ok (Ok (snd kv)))) ps.
(** an empty --dir counts as none *)
Definition download_dir (dir : option string) (cwd : string) : string := match dir with Some EmptyString | None => cwd | Some d => d end.

(** ** Watching *)
Definition same_but (q : string) (f g : fs) : Prop := forall p, p <> q -> f p = g p.
(** somebody changes files, but not the generated one, and does not look at it *)
Definition foreign (q : string) (c : fs -> fs) : Prop :=
  (forall f, c f q = f q) /\ (forall f g, same_but q f g -> same_but q (c f) (c g)).
Definition edited (events : list (fs -> fs)) (f : fs) : fs := fold_left (fun f c => c f) events f.
(** what a project generates does not depend on its own output *)
Definition independent (q : string) (p : fs -> project) : Prop := forall f g, same_but q f g -> p_generate (p f) = p_generate (p g).
(** [code] was generated after the last change after which code could be generated *)
Definition last_good (p : fs -> project) (events : list (fs -> fs)) (f : fs) (code : string) : Prop :=
  exists pre post sdl, events = pre ++ post /\ pre <> [] /\ p_generate (p (edited pre f)) = Ok (code, sdl)
  /\ forall more rest, post = more ++ rest -> more <> [] -> is_ok (p_generate (p (edited (pre ++ more) f))) = false.
Definition never_good (p : fs -> project) (events : list (fs -> fs)) (f : fs) : Prop :=
  forall pre post, events = pre ++ post -> pre <> [] -> is_ok (p_generate (p (edited pre f))) = false.

(** ** Processors *)
(** a program succeeds: it can be started and its exit code is 0 *)
Definition succeeds (execute : list string -> string -> res outcome) (command : list string) (input output : string) : Prop :=
  exists errors, execute command input = Ok (Outcome 0 output errors).
Definition optionally (b : bool) (step : string -> string -> Prop) (input output : string) : Prop :=
  if b then step input output else output = input.
Definition is_text (t : string) (n : cst) : bool := match n with CLine [Small x] _ => String.eqb x t | _ => false end.
