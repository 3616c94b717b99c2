(** The names the plugin for servers brings into a module. *)
From Verif Require Import Base PyAst Gql Config Stylers Registry Strawberry Run Spec_Naming Spec_Syntax Spec_Syntax2.

(** a literal without values of enums *)
Fixpoint no_enum (v : vnode) : bool := match v with VEnum _ => false | VList l => forallb no_enum l | _ => true end.
(** the directives applied to something: a call with keyword arguments *)
Definition directives_named (builtin : list string) (ds : list directive) : Prop :=
  forall d, In d ds -> ~ In (dir_name d) builtin ->
    pyname (dir_name d) = true /\ NoDup (map fst (dir_args d)) /\ forall a, In a (dir_args d) -> pyname (fst a) = true /\ no_enum (snd a) = true.
Definition fields_of (t : typedef) : list (string * fielddef) := match t with TObject _ _ fs _ | TInterface _ _ fs => fs | _ => [] end.

Section Server.
Variable st : list styler.
Variable s : schema.
Variable directives : list directivedef.
Variable applied : string -> list directive.
Variable pc : sbcfg.
Record scaffold_named : Prop := ScaffoldNamed {
  sc_scalars : forall n de, In (n, TScalar de) (s_types s) -> ~ In n (sb_builtin_scalars pc) -> pyname n = true;
  sc_directives : forall d, In d directives -> ~ In (dd_name d) (sb_builtin_directives pc) ->
    pyname (dd_name d) = true /\ (forall a, In a (dd_args d) -> is_name (fst a) = true) /\ forall l, In l (dd_locations d) -> pyname l = true;
  sc_applied : forall n t, In (n, t) (s_types s) ->
    directives_named (sb_builtin_directives pc) (match t with TObject _ _ _ d | TInput _ _ d => d | _ => applied n end);
  (* the resolver of a field takes the arguments, and [self] *)
  sc_fields : forall n t k f, In (n, t) (s_types s) -> In (k, f) (fields_of t) ->
    directives_named (sb_builtin_directives pc) (fd_dirs f) /\ (forall a, In a (fd_args f) -> is_name (fst a) = true)
    /\ NoDup ("self" :: map (fun a => generate_parameter_name st (fst a)) (fd_args f));
  sc_bodies : forall n t, In (n, t) (s_types s) ->
    match t with TObject _ _ fs _ | TInterface _ _ fs => fs <> [] | TInput _ fs _ => fs <> [] | _ => True end }.
End Server.
(** all plugins that write code *)
Inductive code_plugin (st : list styler) (s : schema) (d : document) (c : gconfig) : plugin -> Prop :=
| CClient p : client_plugin st s d c p -> code_plugin st s d c p
| CServer n directives applied pc : paths (sb_inputtype_bases pc) -> scaffold_named st s directives applied pc ->
    code_plugin st s d c (Plugin n (strawberry_plugin c st s directives applied pc)).
