(** Schemas from which code can be generated.  Independent of the generator. *)
From Verif Require Import Base PyAst Gql Config Spec_Mro Spec_Mro2.

Definition is_enum (s : schema) (n : string) : bool := match get_type s n with Some (TEnum _ _) => true | _ => false end.
Definition is_scalar (s : schema) (n : string) : bool := match get_type s n with Some (TScalar _) => true | _ => false end.
Definition is_input (s : schema) (n : string) : bool := match get_type s n with Some (TInput _ _ _) => true | _ => false end.
(** input types and output types (GraphQL specification, section 3.4.2) *)
Definition input_type (s : schema) (n : string) : bool := is_scalar s n || is_enum s n || is_input s n.
Definition output_type (s : schema) (n : string) : bool := is_scalar s n || is_enum s n || is_object s n || is_iface s n || is_union s n.
Definition fields_of (t : typedef) : list (string * fielddef) := match t with TObject _ _ f _ | TInterface _ _ f => f | _ => [] end.
Definition inputs_of (t : typedef) : list (string * inputfield) := match t with TInput _ f _ => f | _ => [] end.
(** What graphql-core guarantees: type names are distinct, fields have output types, arguments and
    input fields have input types, members of unions are object types, implemented types are
    interfaces. *)
Record valid_schema (s : schema) : Prop := {
  vs_names : NoDup (map fst (s_types s));
  vs_out : forall k t f fd, In (k, t) (s_types s) -> In (f, fd) (fields_of t) -> output_type s (gty_name (fd_type fd)) = true;
  vs_args : forall k t f fd a ad, In (k, t) (s_types s) -> In (f, fd) (fields_of t) -> In (a, ad) (fd_args fd) -> input_type s (gty_name (arg_type ad)) = true;
  vs_in : forall k t f fd, In (k, t) (s_types s) -> In (f, fd) (inputs_of t) -> input_type s (gty_name (if_type fd)) = true;
  vs_unions : forall k d ms i, In (k, TUnion d ms) (s_types s) -> In i ms -> is_object s i = true;
  vs_ifaces : forall k t i, In (k, t) (s_types s) -> In i (implements t) -> is_iface s i = true }.
(** the named types a type mentions *)
Definition mentions (t : typedef) : list string :=
  flat_map (fun f => gty_name (fd_type (snd f)) :: map (fun a => gty_name (arg_type (snd a))) (fd_args (snd f))) (fields_of t)
  ++ map (fun f => gty_name (if_type (snd f))) (inputs_of t).
(** [a] is declared before [b] *)
Definition before (s : schema) (a b : string) : Prop := exists p q r ta tb, s_types s = p ++ (a, ta) :: q ++ (b, tb) :: r.
(** An interface comes after the interfaces it implements; a type that is not skipped implements no
    skipped interface. *)
Definition interfaces_in_order (s : schema) (skip : string -> bool) : Prop :=
  forall k t i, In (k, t) (s_types s) -> skip k = false -> In i (implements t) -> skip i = false /\ (is_iface s k = true -> before s i k).
(** an enum mentioned by a type that is not skipped, or by an input type, is not skipped *)
Definition enums_kept (s : schema) (skip skip_enum : string -> bool) : Prop :=
  forall k t n, In (k, t) (s_types s) -> skip k = false \/ is_input s k = true -> In n (mentions t) -> is_enum s n = true -> skip_enum n = false.
(** literals without variables and objects *)
Fixpoint flat_literal (v : vnode) : bool :=
  match v with
  | VObject _ | VVar _ => false
  | VList l => forallb flat_literal l
  | _ => true
  end.
(** the arguments of the applied directives in [ds] that are not in [builtin] *)
Definition flat_directives (builtin : list string) (ds : list directive) : Prop :=
  forall d a v, In d ds -> ~ In (dir_name d) builtin -> In (a, v) (dir_args d) -> flat_literal v = true.
(** the directives applied to a type in the SDL; [applied] gives those of the types that do not keep
    them *)
Definition dirs_of (applied : string -> list directive) (k : string) (t : typedef) : list directive :=
  match t with TObject _ _ _ d | TInput _ _ d => d | _ => applied k end.
Definition flat_schema (s : schema) (builtin : list string) (applied : string -> list directive) : Prop :=
  forall k t, In (k, t) (s_types s) ->
    flat_directives builtin (dirs_of applied k t) /\ forall f fd, In (f, fd) (fields_of t) -> flat_directives builtin (fd_dirs fd).
(** no enum class has the name of another class *)
Definition enums_apart (s : schema) (enum_name : string -> string) (others : list string) : Prop :=
  forall n, is_enum s n = true -> ~ In (enum_name n) others.
Definition names_with (s : schema) (p : typedef -> bool) : list string := map fst (filter (fun kt => p (snd kt)) (s_types s)).
Definition composite (t : typedef) : bool := match t with TObject _ _ _ _ | TInterface _ _ _ => true | _ => false end.
Definition inputlike (t : typedef) : bool := match t with TInput _ _ _ => true | _ => false end.
(** ** Input types *)
Definition oneof (ds : list directive) : bool := existsb (fun d => String.eqb (dir_name d) "oneOf") ds.
(** the names under which classes for an input type are registered: its own, and for a [@oneOf] type
    one for each field *)
Definition input_names (kt : string * typedef) : list string :=
  match snd kt with
  | TInput _ fs ds => fst kt :: (if oneof ds then map (fun f => fst kt +s+ cap_first (fst f)) fs else [])
  | _ => []
  end.
(** names are distinct; the fields of a [@oneOf] type are nullable and without default, as the
    specification demands; [@unionElementOf] is not used *)
Definition plain_inputs (s : schema) : Prop :=
  NoDup (flat_map input_names (s_types s))
  /\ (forall k d fs ds f fd, In (k, TInput d fs ds) (s_types s) -> oneof ds = true -> In (f, fd) fs -> is_nonnull (if_type fd) = false /\ if_default fd = None)
  /\ (forall k d fs ds x, In (k, TInput d fs ds) (s_types s) -> In x ds -> dir_name x <> "unionElementOf").
(** an interface that is not skipped is implemented by a type that is not skipped *)
Definition implemented (s : schema) (skip : string -> bool) : Prop :=
  forall i, is_iface s i = true -> skip i = false -> exists k t, In (k, t) (s_types s) /\ skip k = false /\ In i (implements t).
(** scalars that are mentioned are known *)
Definition scalars_known (s : schema) (known : list string) : Prop :=
  forall k t n, In (k, t) (s_types s) -> In n (mentions t) -> is_scalar s n = true -> In n known.
Definition default_scalars : list string := ["ID"; "String"; "Int"; "Boolean"; "GenericScalar"; "DateTime"; "Float"].
Definition known_scalars (c : gconfig) : list string := default_scalars ++ map fst (c_scalar_definitions c).
(** names with one or two leading underscores are skipped if so configured *)
Definition underscored (one two : bool) (k : string) : bool := (one && startswith "_" k) || (two && startswith "__" k).
(** the classes of the object plugin; [name] is the naming rule *)
Definition object_classes (s : schema) (name : string -> string) : list string :=
  map (fun kt => if is_iface s (fst kt) then name (fst kt) +s+ "Base" else name (fst kt)) (filter (fun kt => composite (snd kt)) (s_types s)).
