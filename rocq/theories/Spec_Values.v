(** Which input values a server accepts, and which the input classes of a module can be serialised to.
    Independent of the generator. *)
From Verif Require Import Base PyAst Gql Config Stylers PySem Spec_Config Spec_Types Spec_Inputs Spec_Refs Spec_Scope Spec_Dispatch Spec_Names Spec_Pydantic Spec_Response.

(** ** The server (GraphQL specification, sections 3.10 and 3.13).  [sc n v]: [v] is a value of the scalar [n].  A list has to be written
    as a list: that a server takes a single value for a list is left out. *)
Inductive valid_input (s : schema) (sc : string -> data -> Prop) : gty -> data -> Prop :=
| vi_null : forall t, is_nonnull t = false -> valid_input s sc t RNull
| vi_nonnull : forall t v, valid_input s sc t v -> v <> RNull -> valid_input s sc (GNonNull t) v
| vi_list : forall t l, (forall v, In v l -> valid_input s sc t v) -> valid_input s sc (GList t) (RList l)
| vi_scalar : forall n d v, get_type s n = Some (TScalar d) -> sc n v -> valid_input s sc (GNamed n) v
| vi_enum : forall n d vs v, get_type s n = Some (TEnum d vs) -> In v (dkeys vs) -> valid_input s sc (GNamed n) (RText v)
| vi_object : forall n d fs dirs kvs, get_type s n = Some (TInput d fs dirs) -> ~ is_oneof (InputDef d fs dirs) -> NoDup (dkeys kvs) ->
    (forall k v, In (k, v) kvs -> In k (dkeys fs)) ->
    (forall k v f, In (k, v) kvs -> In (k, f) fs -> valid_input s sc (if_type f) v) ->
    (forall k f, In (k, f) fs -> ~ In k (dkeys kvs) -> is_nonnull (if_type f) = false \/ if_default f <> None) ->
    valid_input s sc (GNamed n) (RObj kvs)
| vi_oneof : forall n d fs dirs k f v, get_type s n = Some (TInput d fs dirs) -> is_oneof (InputDef d fs dirs) -> In (k, f) fs ->
    valid_input s sc (GNonNull (if_type f)) v -> valid_input s sc (GNamed n) (RObj [(k, v)]).

(** ** The client: [model_dump(by_alias=True, exclude_unset=True)] of pydantic *)
Section Client.
(** the statements of the module; [py p v]: the Python type [p], which is not of the module, has an instance that is serialised to [v] *)
Variable t : list stmt.
Variable py : string -> data -> Prop.
(** the fields of a class: the last one of each name in its body, unless the name is private, and those of its base classes *)
Inductive has_field : string -> string * expr * option expr -> Prop :=
| hf_own : forall k bases body n f, Spec_Response.class_of t k bases body -> last_field n body = Some f -> ~ private_name n -> has_field k f
| hf_inherited : forall k bases body b f, Spec_Response.class_of t k bases body -> In (EName b) bases -> last_field (fst (fst f)) body = None -> has_field b f -> has_field k f.
(** [extra="allow"]: the class takes fields it does not declare, and serialises them *)
Inductive takes_extra : string -> Prop :=
| te_own : forall k bases body, Spec_Response.class_of t k bases body -> In ("extra", CStr "allow") (config_entries body) -> takes_extra k
| te_inherited : forall k bases body b, Spec_Response.class_of t k bases body -> In (EName b) bases -> takes_extra b -> takes_extra k.
(** [k = Annotated[e, WrapSerializer(f)]]: the function that [f] names at that point, with its two parameters *)
Definition wrapped_by (k : string) (e : expr) (pv ph : string) (body : list stmt) : Prop :=
  exists f pre av ah ret mid post, serializer_of e = Some f
    /\ t = pre ++ SFunc false f (PyArgs [PyArg pv av; PyArg ph ah] []) body ret [] :: mid ++ SAssign (EName k) e :: post
    /\ ~ In f (binds mid).
(** the names the functions use for themselves *)
Definition reserved : list string := ["value"; "handler"; "tags"; "tag"; "member_class"; "member_tag"; "type"; "isinstance"; "ValueError"].
(** whenever it is called with an instance of the class [m], and the handler it is given serialises this to [r], the function returns [{tag: r}] *)
Definition tags_with (pv ph : string) (body : list stmt) (m tag : string) : Prop :=
  forall glob subclass call v h r,
    glob "type" = Some (PVClass "type") -> glob "isinstance" = Some (PVFun "isinstance") -> glob "ValueError" = Some (PVClass "ValueError") ->
    (forall n, In n (owned t) -> ~ In n reserved -> glob n = Some (PVClass n)) ->
    PySem.class_of v = m -> apply subclass call h [v] [] = POk r ->
    run_body glob subclass call body [(pv, v); (ph, h)] = POk (PVDict [(PVConst (CStr tag), r)]).
(** [dumps x v]: a value of the kind [x] may be serialised to [v] *)
Inductive dumps : jval -> data -> Prop :=
| dp_null : dumps JNull RNull
| dp_seq : forall b l vs, dumps_all l vs -> dumps (JSeq b l) (RList vs)
| dp_type : forall p v, ~ In p (owned t) -> py p v -> dumps (JLeaf p) v
| dp_enum : forall k bases body v, Spec_Response.class_of t k bases body -> In (EName "Enum") bases -> enum_member body v -> dumps (JLeaf k) (RText v)
| dp_model : forall k bases body kvs, Spec_Response.class_of t k bases body -> ~ In (EName "Enum") bases -> creatable body -> NoDup (dkeys kvs) ->
    (forall key v, In (key, v) kvs -> writes_key k key v) ->
    (forall n a v, has_field k (n, a, v) -> ~ In (wire_name n v) (dkeys kvs) -> may_omit v = true) ->
    dumps (JLeaf k) (RObj kvs)
| dp_alias : forall k e v, In (SAssign (EName k) e) t -> serializer_of e = None -> holds e v -> dumps (JLeaf k) v
| dp_wrapped : forall k e pv ph body m v tag, wrapped_by k e pv ph body -> accepts e (JLeaf m) -> dumps (JLeaf m) v ->
    tags_with pv ph body m tag -> dumps (JLeaf k) (RObj [(tag, v)])
with dumps_all : list jval -> list data -> Prop :=
| da_nil : dumps_all [] []
| da_cons : forall x v l vs, dumps x v -> dumps_all l vs -> dumps_all (x :: l) (v :: vs)
(** a field that is annotated with [e] can hold a value that is serialised to [v] *)
with holds : expr -> data -> Prop :=
| Holds : forall e x v, accepts e x -> dumps x v -> holds e v
with writes_key : string -> string -> data -> Prop :=
| WritesKey : forall k n a val v, has_field k (n, a, val) -> holds a v -> writes_key k (wire_name n val) v
| WritesExtra : forall k key v, takes_extra k -> writes_key k key v.
End Client.
Scheme dumps_mind := Minimality for dumps Sort Prop
  with dumps_all_mind := Minimality for dumps_all Sort Prop
  with holds_mind := Minimality for holds Sort Prop
  with writes_key_mind := Minimality for writes_key Sort Prop.
Combined Scheme dumps_mutind from dumps_mind, dumps_all_mind, holds_mind, writes_key_mind.

(** ** Schemas *)
(** [m] is the type of a field of an input type *)
Definition field_type (s : schema) (m : string) : Prop :=
  exists n d fs dirs k f, get_type s n = Some (TInput d fs dirs) /\ In (k, f) fs /\ gty_name (if_type f) = m.
(** a default value stands for null only *)
Definition defaults_nullable (s : schema) : Prop :=
  forall n d fs dirs k f, get_type s n = Some (TInput d fs dirs) -> In (k, f) fs -> if_default f <> None -> is_nonnull (if_type f) = false.
(** The schemas whose input types all become classes of their own: the flags say which types are skipped by their names,
    [typed n]: the scalar [n] has a Python type. *)
Record modelled_inputs (s : schema) (st : list styler) (skip_input skip_enum skip_dunder : bool) (typed : string -> Prop) : Prop := {
  mi_unions : forall n d fs dirs u dn k, get_type s n = Some (TInput d fs dirs) -> ~ belongs dirs u dn k;
  mi_attributes : forall n d fs dirs, get_type s n = Some (TInput d fs dirs) -> NoDup (map (fun kv => style_with sty_node st (fst kv)) fs);
  mi_fields : forall n d fs dirs k f, get_type s n = Some (TInput d fs dirs) -> In (k, f) fs -> model_field (style_with sty_node st k);
  mi_classes : forall n m, is_input s n -> is_input s m -> style_with sty_input st n = style_with sty_input st m -> n = m;
  mi_reserved : forall n, is_input s n -> ~ In (style_with sty_input st n) reserved;
  mi_inputs : forall n, is_input s n -> skip_input = true -> startswith "_" n = false;
  mi_enums : forall n, is_enum s n -> field_type s n -> introspection_enum n = false
    /\ (skip_enum = true -> startswith "_" n = false) /\ (skip_dunder = true -> startswith "__" n = false);
  mi_scalars : forall n, is_scalar s n -> field_type s n -> typed n }.
(** the configuration asks for classes that take undeclared fields *)
Definition extra_allowed (c : gconfig) (n : string) : Prop :=
  (options_apply c KInput (Some n) /\ oc_extra (c_options c) = Some "allow") \/ extra_setting c (Some n) "extra" (CStr "allow").
