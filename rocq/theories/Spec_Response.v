(** Which responses a server may send, and which of them the classes of a module read.
    Independent of the generator. *)
From Verif Require Import Base PyAst Gql Config Spec_Types Spec_Mro2 Spec_Docs Spec_Fields Spec_Selection Spec_Dispatch Spec_Valid Spec_ValidDoc Spec_Names Spec_Pydantic.

(** The data of a response.  A value of a scalar carries the name of the scalar: how scalars are
    serialised is not described here. *)
Inductive data : Type :=
| RNull
| RText (x : string)
| RScalar (scalar x : string)
| RList (l : list data)
| RObj (kvs : dict data).

(** ** The server (GraphQL specification, section 6.4) *)
(** @skip and @include may leave a selection out *)
Definition conditional (dirs : list directive) : Prop :=
  exists x, In x dirs /\ (dir_name x = "skip" \/ dir_name x = "include").
Definition fn_dirs (f : fieldnode) : list directive := match f with FieldNode _ _ _ ds _ => ds end.
(** Other keys may be there as well: fields that are selected twice are merged, so an object has
    to satisfy every selection that is made on it, not just one.  The name [__typename] is
    reserved: under this key an object has the name of its type. *)
Definition says (i : string) (kvs : dict data) : Prop := forall v, dget "__typename" kvs = Some v -> v = RText i.
Inductive conf_type (s : schema) (d : document) : gty -> list selection -> data -> Prop :=
| ct_null : forall t sels, is_nonnull t = false -> conf_type s d t sels RNull
| ct_nonnull : forall t sels v, conf_type s d t sels v -> v <> RNull -> conf_type s d (GNonNull t) sels v
| ct_list : forall t sels l, (forall v, In v l -> conf_type s d t sels v) -> conf_type s d (GList t) sels (RList l)
| ct_scalar : forall n sels desc x, get_type s n = Some (TScalar desc) -> conf_type s d (GNamed n) sels (RScalar n x)
| ct_enum : forall n sels desc vs v, get_type s n = Some (TEnum desc vs) -> In v (dkeys vs) -> conf_type s d (GNamed n) sels (RText v)
| ct_object : forall n sels i kvs, In i (possible s n) -> says i kvs -> (forall x, In x sels -> conf_sel s d i x kvs) -> conf_type s d (GNamed n) sels (RObj kvs)
(** an object of type [i] satisfies a selection *)
with conf_sel (s : schema) (d : document) : string -> selection -> dict data -> Prop :=
| cs_typename : forall i f kvs, fn_name f = "__typename" -> dget (response_key f) kvs = Some (RText i) -> conf_sel s d i (SelField f) kvs
| cs_field : forall i f kvs fd v, fn_name f <> "__typename" -> schema_field s i (fn_name f) fd ->
    dget (response_key f) kvs = Some v -> conf_type s d (fd_type fd) (selections f) v -> conf_sel s d i (SelField f) kvs
| cs_no_field : forall i f kvs, conditional (fn_dirs f) -> dget (response_key f) kvs = None -> conf_sel s d i (SelField f) kvs
| cs_spread : forall i g dirs fr kvs, the_fragment d g = Some fr -> (In i (possible s (fr_on fr)) -> forall x, In x (fr_sels fr) -> conf_sel s d i x kvs) ->
    conf_sel s d i (SelSpread g dirs) kvs
| cs_no_spread : forall i g dirs kvs, conditional dirs -> conf_sel s d i (SelSpread g dirs) kvs
| cs_inline : forall i cond dirs m kvs, (match cond with Some c => In i (possible s c) | None => True end -> forall x, In x m -> conf_sel s d i x kvs) ->
    conf_sel s d i (SelInline cond dirs m) kvs
| cs_no_inline : forall i cond dirs m kvs, conditional dirs -> conf_sel s d i (SelInline cond dirs m) kvs.
(** the data of an operation *)
Definition response (s : schema) (d : document) (o : operation) (v : data) : Prop :=
  exists root kvs, root_type s (op_kind o) = Some root /\ v = RObj kvs /\ says root kvs /\ forall x, In x (op_sels o) -> conf_sel s d root x kvs.

(** ** The client (pydantic) *)
(** the discriminator in the metadata of an annotation *)
Fixpoint discriminator (meta : list expr) : option string :=
  match meta with
  | [] => None
  | ECall (EName "Field") _ kws :: r =>
      match keyword "discriminator" kws with Some (EConst (CStr x)) => Some x | _ => discriminator r end
  | _ :: r => discriminator r
  end.
(** the class forbids keys without a field *)
Definition forbids (body : list stmt) : Prop :=
  (exists args kws, In (SAssign (EName "model_config") (ECall (EName "ConfigDict") args kws)) body /\ In (Some "extra", EConst (CStr "forbid")) kws)
  \/ (exists bases b decs, In (SClass "Config" bases b decs) body /\ In (SAssign (EName "extra") (EConst (CStr "forbid"))) b).
(** objects of type [i] only: [typename: Literal["i"] = Field(alias="__typename", ...)] *)
Definition tagged_with (body : list stmt) (i : string) : Prop :=
  exists v, last_field "typename" body = Some ("typename", literal_of i, v) /\ wire_name "typename" v = "__typename".
(** the classes and aliases of a module *)
Definition owned (t : list stmt) : list string :=
  flat_map (fun x => match x with SClass n _ _ _ => [n] | SAssign (EName n) _ => [n] | _ => [] end) t.
Section Client.
(** the statements of the module; [py p v]: the Python type [p], which is not of the module, takes the value [v] *)
Variable t : list stmt.
Variable py : string -> data -> Prop.
Definition class_of (k : string) (bases : list expr) (body : list stmt) : Prop := exists decs, In (SClass k bases body decs) t.
(** [x = "v"] in the body of an enum *)
Definition enum_member (body : list stmt) (v : string) : Prop := exists m, In (SAssign (EName m) (EConst (CStr v))) body.
(** [reads e v]: a field with annotation [e] takes the value [v] *)
Inductive reads : expr -> data -> Prop :=
| rd_type : forall p v, ~ In p (owned t) -> py p v -> reads (EName p) v
| rd_enum : forall k bases body v, class_of k bases body -> In (EName "Enum") bases -> enum_member body v -> reads (EName k) (RText v)
| rd_model : forall k bases body kvs, class_of k bases body -> ~ In (EName "Enum") bases -> builds k kvs -> reads (EName k) (RObj kvs)
| rd_alias : forall k e v, In (SAssign (EName k) e) t -> reads e v -> reads (EName k) v
| rd_forward : forall k v, reads (EName k) v -> reads (EConst (CStr k)) v
| rd_null : forall e, reads (optional_of e) RNull
| rd_optional : forall e v, reads e v -> reads (optional_of e) v
| rd_list : forall e l, (forall v, In v l -> reads e v) -> reads (list_of e) (RList l)
| rd_tuple : forall e l, (forall v, In v l -> reads e v) -> reads (tuple_of e) (RList l)
| rd_union : forall es e v, In e es -> reads e v -> reads (union_of es) v
| rd_literal : forall x, reads (literal_of x) (RText x)
| rd_annotated : forall e meta v, discriminator meta = None -> reads e v -> reads (annotated_of (e :: meta)) v
(** of a discriminated union the class that is tagged with the type name of the object *)
| rd_tagged : forall ks meta k i bases body kvs, discriminator meta = Some "typename" -> In (EName k) ks -> class_of k bases body -> tagged_with body i ->
    dget "__typename" kvs = Some (RText i) -> builds k kvs -> reads (annotated_of (union_of ks :: meta)) (RObj kvs)
(** [builds k kvs]: the class [k] takes the object, if every field of the class and of the classes it inherits
    is one for pydantic and
    takes the value under its name on the wire or, if there is none, may be left out.  (A field that is overridden counts as well,
    which is more than pydantic asks for.)  Classes from other modules add no fields; keys without a field are
    ignored unless they are forbidden. *)
with builds : string -> dict data -> Prop :=
| Builds : forall k kvs,
    (forall bases body n a v, class_of k bases body -> In (n, a, v) (class_fields body) -> model_field n /\
       (forall x, dget (wire_name n v) kvs = Some x -> reads a x) /\ (dget (wire_name n v) kvs = None -> may_omit v = true)) ->
    (forall bases body, class_of k bases body -> ~ forbids body) ->
    (forall bases body b, class_of k bases body -> In (EName b) bases -> builds b kvs) ->
    builds k kvs.
End Client.

(** ** Schemas: the fields of an object are at least as narrow as those of the interfaces it implements (GraphQL
    specification, section 3.6) *)
Inductive narrows (s : schema) : gty -> gty -> Prop :=
| nw_same : forall t, narrows s t t
| nw_named : forall n m, is_composite s n = true -> incl (possible s n) (possible s m) -> narrows s (GNamed n) (GNamed m)
| nw_list : forall a b, narrows s a b -> narrows s (GList a) (GList b)
| nw_nonnull : forall a b, narrows s a b -> narrows s (GNonNull a) (GNonNull b)
| nw_drop : forall a b, narrows s a b -> narrows s (GNonNull a) b.
Definition covariant (s : schema) : Prop :=
  forall n i f fd fdi, is_iface s n = true -> In i (possible s n) -> schema_field s n f fd -> schema_field s i f fdi -> narrows s (fd_type fdi) (fd_type fd).
(** the values of enums are named like their values in Python *)
Definition enum_values_named (s : schema) : Prop :=
  forall n desc vs k v, get_type s n = Some (TEnum desc vs) -> In (k, v) vs -> ev_value v = k.

(** ** Documents whose responses are read *)
Section Readable.
Variable s : schema.
Variable d : document.
(** the styled names of response keys and fragments *)
Variable attr cls : string -> string.
Definition on_object (g i : string) : Prop := exists fr, the_fragment d g = Some fr /\ fr_on fr = i /\ is_object s i = true.
Definition on_interface (g i : string) : Prop := exists fr, the_fragment d g = Some fr /\ is_iface s (fr_on fr) = true /\ In i (possible s (fr_on fr)).
Definition on_union (g i : string) : Prop := exists fr, the_fragment d g = Some fr /\ is_union s (fr_on fr) = true /\ In i (possible s (fr_on fr)).
(** the members of a union a selection tells apart *)
Definition told_apart (sels : list selection) (i : string) : Prop :=
  (exists dirs m, In (SelInline (Some i) dirs m) sels) \/ (exists g dirs, In (SelSpread g dirs) sels /\ (on_object g i \/ on_union g i)).
(** [readable_sels n sels]: selections on type [n]; [readable_field fd f]: a selection of the field *)
Inductive readable_sels : string -> list selection -> Prop :=
| Readable : forall n sels,
    (forall f fd, In (SelField f) sels -> fn_name f <> "__typename" -> schema_field s n (fn_name f) fd -> readable_field fd f) ->
    (* what is selected through a fragment is there *)
    (forall g dirs, In (SelSpread g dirs) sels -> ~ conditional dirs) ->
    (forall i dirs m, In (SelInline (Some i) dirs m) sels -> ~ conditional dirs /\ readable_sels i m) ->
    (* a class for objects has no base class for a union *)
    (is_object s n = true -> forall g dirs, In (SelSpread g dirs) sels -> on_object g n \/ on_interface g n) ->
    (* the field that tells objects behind an interface apart is not shadowed *)
    (is_iface s n = true -> forall i dirs m f, In (SelInline (Some i) dirs m) sels -> In (SelField f) m -> fn_name f <> "__typename" -> attr (response_key f) <> "typename") ->
    readable_sels n sels
with readable_field : fielddef -> fieldnode -> Prop :=
| ReadableField : forall fd f,
    (is_nonnull (fd_type fd) = true -> ~ conditional (fn_dirs f)) ->
    (* pydantic takes the attribute for a field *)
    model_field (attr (response_key f)) ->
    (* objects behind an interface say which type they have *)
    (is_iface s (gty_name (fd_type fd)) = true ->
       exists g, In (SelField g) (selections f) /\ fn_name g = "__typename" /\ fn_alias g = None /\ ~ conditional (fn_dirs g)) ->
    (* all members of a union are told apart; if the union may be null, there are two alternatives *)
    (is_union s (gty_name (fd_type fd)) = true ->
       (forall i, In i (possible s (gty_name (fd_type fd))) -> told_apart (selections f) i)
       /\ (inner_nonnull (fd_type fd) = false -> List.length (alternatives f) <> 1)
       /\ (forall i dirs m g dirs', In (SelInline (Some i) dirs m) (selections f) -> In (SelSpread g dirs') m -> on_object g i)) ->
    readable_sels (gty_name (fd_type fd)) (selections f) ->
    readable_field fd f.
Record readable_document : Prop := {
  rdd_operation : forall o root, In o (operations_of d) -> root_type s (op_kind o) = Some root -> readable_sels root (op_sels o);
  (* the type name of the whole result is not asked for: its field would be a private attribute *)
  rdd_root : forall o f, In o (operations_of d) -> In (SelField f) (op_sels o) -> fn_name f <> "__typename";
  rdd_fragment : forall fr, In fr (fragments_of d) -> readable_sels (fr_on fr) (fr_sels fr);
  (* inline fragments of a fragment on a union: *)
  rdd_union : forall fr i dirs m g dirs', In fr (fragments_of d) -> is_union s (fr_on fr) = true -> In (SelInline (Some i) dirs m) (fr_sels fr) ->
    In (SelSpread g dirs') m -> on_object g i /\ cls g = g }.
End Readable.

(** ** Configuration: the base classes of classes for results; [others]: those of the plugins *)
Definition configured_base (c : gconfig) (others : list string) (b : string) : Prop :=
  In b (c_object_bases c) \/ (exists l, c_interface_bases c = Some l /\ In b l) \/ (exists n l, dget n (c_additional_bases c) = Some l /\ In b l) \/ In b others.
