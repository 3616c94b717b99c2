(** The names a server scaffold looks up, and the types it refers to.  Independent of the
    generator. *)
From Verif Require Import Base PyAst Gql Config Strawberry Spec_Inputs Spec_Scope Spec_Syntax3.

(** [strawberry.field] is found through [strawberry] *)
Fixpoint before_dot (n : string) : string :=
  match n with EmptyString => "" | String a r => if Ascii.eqb a "."%char then "" else String a (before_dot r) end.
(** as [scoped], for names with dots *)
Fixpoint scoped_paths (E : string -> Prop) (l : list stmt) : Prop :=
  match l with
  | [] => True
  | x :: rest => (forall n, In n (runs x) -> E n \/ E (before_dot n)) /\ scoped_paths (fun n => E n \/ In n (bound_by x)) rest
  end.
(** the class names quoted in the annotations of a member of a class: strawberry looks them up in the module when the
    schema is built *)
Definition member_quotes (x : stmt) : list string :=
  match x with
  | SAnn _ a _ => quoted a
  | SFunc _ _ args _ ret _ => flat_map (fun p => match pa_ann p with Some a => quoted a | None => [] end) (a_args args)
                              ++ match ret with Some a => quoted a | None => [] end
  | _ => []
  end.
Definition quotes_bound (E : string -> Prop) (t : list stmt) : Prop :=
  forall name bases body decs x n, In (SClass name bases body decs) t -> In x body -> In n (member_quotes x) -> E n \/ In n (binds t).

Section Schema.
Variable s : schema.
Variable directives : list directivedef.
Variable applied : string -> list directive.
Variable pc : sbcfg.
Definition hidden (n : string) : bool :=
  (sb_skip_underscore pc && startswith "_" n) || (sb_skip_double_underscore pc && startswith "__" n).
(** the directives in use are declared and generated; none is given a value of an enum *)
Definition declared (ds : list directive) : Prop :=
  forall d, In d ds -> In (dir_name d) (sb_builtin_directives pc)
    \/ (sb_directives pc = true /\ hidden (dir_name d) = false /\ (exists dd, In dd directives /\ dd_name dd = dir_name d)
       /\ forall a, In a (dir_args d) -> no_enum (snd a) = true).
Definition directives_declared : Prop :=
  forall n t, In (n, t) (s_types s) ->
    declared (match t with TObject _ _ _ d | TInput _ _ d => d | _ => applied n end)
    /\ forall k f, In (k, f) (fields_of t) -> declared (fd_dirs f).
(** no type implements itself *)
Definition interfaces_proper : Prop :=
  forall n t, In (n, t) (s_types s) -> ~ In n (match t with TObject _ i _ _ | TInterface _ i _ => i | _ => [] end).
(** the types with a class in the scaffold *)
Definition generated (n : string) (t : typedef) : Prop :=
  match t with
  | TObject _ _ _ _ | TInterface _ _ _ => sb_types pc = true /\ hidden n = false
  | TInput _ _ _ => sb_inputs pc = true /\ (sb_skip_underscore pc && startswith "_" n) = false
  | TEnum _ _ => sb_enums pc = true /\ hidden n = false
  | _ => True
  end.
(** the types the fields of a type mention *)
Definition mentions (t : typedef) (m : string) : Prop :=
  (exists k f, In (k, f) (fields_of t) /\ (gty_name (fd_type f) = m \/ exists a, In a (fd_args f) /\ gty_name (arg_type (snd a)) = m))
  \/ exists d fs ds k f, t = TInput d fs ds /\ In (k, f) fs /\ gty_name (if_type f) = m.
Definition reaches (t : typedef) (m : string) : Prop :=
  mentions t m \/ exists u d ms, mentions t u /\ get_type s u = Some (TUnion d ms) /\ In m ms.
(** a generated type refers to generated types only *)
Definition closed : Prop :=
  forall n t m tm, In (n, t) (s_types s) -> generated n t -> reaches t m -> get_type s m = Some tm -> generated m tm.
(** an enum is generated, or no generated type refers to the enums of introspection *)
Definition introspection_apart : Prop :=
  (exists e d vs, In (e, TEnum d vs) (s_types s) /\ sb_enums pc = true /\ hidden e = false)
  \/ forall n t m, In (n, t) (s_types s) -> generated n t -> reaches t m -> ~ In m ["__TypeKind"; "__DirectiveLocation"].
End Schema.
