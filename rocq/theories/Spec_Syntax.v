(** When is a list of statements a Python module that compiles?  The checks of CPython's parser
    and symbol table on top of the shape of the syntax tree, for the part of the tree in PyAst.
    Independent of the generator.

    Left aside: the name [__debug__], which Python does not let one assign; soft keywords, which
    are names; the text of string and float constants, which [ast.unparse] quotes; the inside of
    [SText], a fixed piece of code. *)
From Verif Require Import Base PyAst Gql Config Stylers Spec_Naming Spec_Inputs Spec_Scope2.

(** an identifier that is no keyword *)
Definition pyname (n : string) : bool := is_name n && negb (mem n kwlist).
(** a path like [pydantic.BaseModel] *)
Definition py_path (p : string) : bool := forallb pyname (split_on "."%char p).

(** what a name may be in an expression: the generator also makes names like [strawberry.field] and [None], which [ast.unparse]
    writes as they are *)
Definition name_text (n : string) : bool := py_path n || mem n ["None"; "True"; "False"].

(** Where code stands: outside of functions (classes included), or in a function *)
Inductive place : Set := Outside | Inside (is_async : bool).
Definition in_function (p : place) : bool := match p with Outside => false | Inside _ => true end.
Definition in_async (p : place) : bool := match p with Inside true => true | _ => false end.

Fixpoint expr_valid (p : place) (e : expr) : bool :=
  match e with
  | EName n => name_text n
  | EConst _ => true
  | ESub v x => expr_valid p v && expr_valid p x
  | ETuple l | EList l => forallb (expr_valid p) l
  | EDict items => forallb (fun kv => expr_valid p (fst kv) && expr_valid p (snd kv)) items
  | ECall f args kws =>
      expr_valid p f && forallb (expr_valid p) args
      && forallb (fun kv => match fst kv with Some k => pyname k | None => true end && expr_valid p (snd kv)) kws
      && nodupb (flat_map (fun kv => match fst kv with Some k => [k] | None => [] end) kws)   (* keyword argument repeated *)
  | EAttr v a => expr_valid p v && pyname a
  | ECompare l _ r => expr_valid p l && expr_valid p r
  | EAwait e => in_async p && expr_valid p e
  | EYield e => in_function p && expr_valid p e
  | ELambda ps b => forallb pyname ps && nodupb ps && expr_valid (Inside false) b
  end.
Definition opt_valid (p : place) (e : option expr) : bool := match e with Some e => expr_valid p e | None => true end.
(** what can be assigned to *)
Definition target_valid (p : place) (e : expr) : bool :=
  match e with EName n => pyname n | EAttr _ _ | ESub _ _ => expr_valid p e | _ => false end.
(** parameters: distinct, and at most as many defaults as parameters *)
Definition args_valid (p : place) (a : pyargs) : bool :=
  forallb (fun x => pyname (pa_name x) && opt_valid p (pa_ann x)) (a_args a)
  && nodupb (map pa_name (a_args a)) && forallb (expr_valid p) (a_defaults a)
  && (length (a_defaults a) <=? length (a_args a))%nat.
Definition nonempty {A} (l : list A) : bool := match l with [] => false | _ => true end.

(** does the body of a function yield, or return a value?  (statements of nested functions do
    not count) *)
Fixpoint yields_in (e : expr) : bool :=
  match e with
  | EYield _ => true
  | EName _ | EConst _ | ELambda _ _ => false
  | ESub a b | ECompare a _ b => yields_in a || yields_in b
  | ETuple l | EList l => existsb yields_in l
  | EDict items => existsb (fun kv => yields_in (fst kv) || yields_in (snd kv)) items
  | ECall f args kws => yields_in f || existsb yields_in args || existsb (fun kv => yields_in (snd kv)) kws
  | EAttr v _ | EAwait v => yields_in v
  end.
Fixpoint yields (s : stmt) : bool :=
  match s with
  | SAnn _ a v => yields_in a || match v with Some v => yields_in v | None => false end
  | SAssign t v => yields_in t || yields_in v
  | SExpr e | SRaise e | SReturn (Some e) => yields_in e
  | SIf t b => yields_in t || existsb yields b
  | SFor _ _ i b => yields_in i || existsb yields b
  | _ => false
  end.
Fixpoint returns_value (s : stmt) : bool :=
  match s with
  | SReturn (Some _) => true
  | SIf _ b | SFor _ _ _ b => existsb returns_value b
  | _ => false
  end.

(** [loop]: inside of a loop *)
Fixpoint stmt_valid (p : place) (loop : bool) (s : stmt) : bool :=
  match s with
  | SAnn t a v => pyname t && expr_valid p a && opt_valid p v
  | SAssign t v => target_valid p t && expr_valid p v
  | SExpr e => expr_valid p e
  | SClass n bases body decs =>
      pyname n && forallb (expr_valid p) bases && forallb (expr_valid p) decs
      && nonempty body && forallb (stmt_valid Outside false) body
  | SFunc a n args body ret decs =>
      pyname n && args_valid p args && opt_valid p ret && forallb (expr_valid p) decs
      && nonempty body && forallb (stmt_valid (Inside a) false) body
      && negb (a && existsb yields body && existsb returns_value body)      (* return with value in async generator *)
  | SImport ns => nonempty ns && forallb pyname ns
  | SImportFrom m ns => py_path m && nonempty ns && forallb pyname ns
  | SReturn e => in_function p && opt_valid p e
  | SIf t b => expr_valid p t && nonempty b && forallb (stmt_valid p loop) b
  | SFor a ts i b =>
      (if a then in_async p else true) && nonempty ts && forallb pyname ts && expr_valid p i
      && nonempty b && forallb (stmt_valid p true) b
  | SBreak => loop
  | SRaise e => expr_valid p e
  | SPass | SText _ => true
  end.
Definition valid_module (t : list stmt) : bool := forallb (stmt_valid Outside false) t.

(** ** The names that schemas, documents and configurations contain *)
Definition opt_named (n : option string) : bool := match n with Some n => is_name n | None => true end.
(** all names of a selection *)
Fixpoint sel_named (x : selection) : bool :=
  match x with
  | SelField g => field_named g
  | SelSpread f _ => is_name f
  | SelInline c _ sub => opt_named c && forallb sel_named sub
  end
with field_named (g : fieldnode) : bool :=
  match g with
  | FieldNode a n _ _ sels =>
      opt_named a && is_name n && match sels with Some l => forallb sel_named l | None => true end
  end.
Definition field_names (t : typedef) : list string :=
  match t with
  | TObject _ _ fs _ | TInterface _ _ fs => map fst fs
  | TInput _ fs _ => map fst fs
  | _ => []
  end.
(** every name of the schema is a name of GraphQL; the values of enums are in addition no
    keywords of Python, nor are the discriminators of unions of input types *)
Record schema_named (s : schema) : Prop := SchemaNamed {
  sn_types : forall n t, In (n, t) (s_types s) -> is_name n = true;
  sn_fields : forall n t k, In (n, t) (s_types s) -> In k (field_names t) -> is_name k = true;
  sn_members : forall n d ms m, In (n, TUnion d ms) (s_types s) -> In m ms -> is_name m = true;
  sn_values : forall n d vs k v, In (n, TEnum d vs) (s_types s) -> In (k, v) vs -> pyname k = true;
  sn_discriminators : forall n d fs dirs u dn k, In (n, TInput d fs dirs) (s_types s) -> belongs dirs u dn k -> pyname dn = true }.
Record document_named (d : document) : Prop := DocumentNamed {
  dn_ops : forall o, In (DOp o) d -> opt_named (op_name o) = true /\ forallb sel_named (op_sels o) = true
             /\ forall v, In v (op_vars o) -> is_name (v_name v) = true;
  dn_frags : forall f, In (DFrag f) d -> is_name (fr_name f) = true /\ is_name (fr_on f) = true /\ forallb sel_named (fr_sels f) = true }.
(** the classes for the types a fragment on an interface or a union can stand for *)
Definition stands_for (s : schema) (on i : string) : Prop :=
  (exists d is fs ds, In (i, TObject d is fs ds) (s_types s) /\ In on is)
  \/ (exists d ms, get_type s on = Some (TUnion d ms) /\ In i ms).
Definition fragment_classes_named (s : schema) (d : document) (class_of : string -> string) : Prop :=
  forall f, In (DFrag f) d ->
    (forall i, stands_for s (fr_on f) i -> pyname (class_of (fr_name f) +s+ i) = true)
    /\ (union_type s (fr_on f) -> forall c dirs sub g dirs', In (SelInline c dirs sub) (fr_sels f) -> In (SelSpread g dirs') sub -> pyname g = true).
(** no root field of an operation has the type of a helper class of the generator *)
Definition roots_plain (s : schema) (d : document) : Prop :=
  forall o root f fd, In (DOp o) d -> root_type s (op_kind o) = Some root -> In (SelField f) (op_sels o) ->
    get_field_def s root (fn_name f) = Some fd -> ~ In (gty_name (fd_type fd)) helper_names.

(** the keyword arguments the options of the generator make *)
Definition option_keywords : list string :=
  ["frozen"; "allow_mutation"; "extra"; "validate_assignment"; "populate_by_name"; "orm_mode"; "use_enum_values"].
(** the configuration names Python objects by their paths, and adds to the configuration of a
    class no keyword that is there already *)
Record config_named (c : gconfig) : Prop := ConfigNamed {
  cn_object_bases : forall b, In b (c_object_bases c) -> py_path b = true;
  cn_interface_bases : forall l b, c_interface_bases c = Some l -> In b l -> py_path b = true;
  cn_additional_bases : forall k l b, In (k, l) (c_additional_bases c) -> In b l -> py_path b = true;
  cn_scalars : forall k p, In (k, p) (c_scalar_definitions c) -> py_path p = true;
  cn_coercible_scalars : forall k p, In (k, p) (c_coercible_scalars c) -> py_path p = true;
  cn_coercible_inputs : forall k p, In (k, p) (c_coercible_inputs c) -> py_path p = true;
  cn_overrides : forall p, In (Some p) [c_graphql_default_class c; c_deprecated_class c; c_unset_type_class c; c_unset_instance c] ->
    p <> "" -> py_path p = true;
  cn_config : forall k kws, In (k, kws) (c_additional_config c) ->
    NoDup (map fst kws ++ option_keywords) /\ forall kv, In kv kws -> pyname (fst kv) = true }.
(** a styler makes names of names *)
Definition styler_named (st : styler) : Prop :=
  forall hook n, In hook [sty_query; sty_mutation; sty_subscription; sty_enum; sty_fragment; sty_node; sty_parameter; sty_input; sty_object] ->
    is_name n = true -> is_name (hook st n) = true.
