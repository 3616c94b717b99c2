(** What the documents need from the schema.  Independent of the referencer. *)
From Verif Require Import Base Gql.

(** [needs s roots n]: the type [n] is reachable from the root types through input fields *)
Inductive needs (s : schema) (roots : string -> Prop) : string -> Prop :=
| needs_root : forall n, roots n -> needs s roots n
| needs_field : forall n d f dirs kv,
    needs s roots n -> get_type s n = Some (TInput d f dirs) -> In kv f ->
    needs s roots (gty_name (if_type (snd kv))).

(** the types of the variables of the operations of a document *)
Definition variable_type (d : document) (n : string) : Prop :=
  exists o v, In (DOp o) d /\ In v (op_vars o) /\ n = gty_name (v_type v).

(** type references of a schema and of the variables resolve to input types *)
Definition input_side (s : schema) (n : string) : Prop :=
  exists t, get_type s n = Some t /\
    match t with TScalar _ | TEnum _ _ | TInput _ _ _ => True | _ => False end.
Definition inputs_closed (s : schema) : Prop :=
  forall n d f dirs kv, get_type s n = Some (TInput d f dirs) -> In kv f ->
    input_side s (gty_name (if_type (snd kv))).

(** [selects s parent sels e]: the selections, made on type [parent], contain at some depth a
    field whose (named) type is [e].  Fragment spreads are not followed: the fragments of the
    document are considered on their own. *)
Definition composite (s : schema) (n : string) : Prop :=
  exists t, get_type s n = Some t /\
    match t with TObject _ _ _ _ | TInterface _ _ _ | TUnion _ _ => True | _ => False end.
Inductive selects (s : schema) : string -> list selection -> string -> Prop :=
| sl_here : forall parent sels f d, In (SelField f) sels -> fn_name f <> "__typename" ->
    get_field_def s parent (fn_name f) = Some d -> selects s parent sels (gty_name (fd_type d))
| sl_below : forall parent sels f d sub e, In (SelField f) sels -> fn_name f <> "__typename" ->
    get_field_def s parent (fn_name f) = Some d -> fn_sels f = Some sub ->
    composite s (gty_name (fd_type d)) -> selects s (gty_name (fd_type d)) sub e -> selects s parent sels e
| sl_inline : forall parent sels c dirs sub e, In (SelInline (Some c) dirs sub) sels ->
    selects s c sub e -> selects s parent sels e.
Definition document_selects (s : schema) (d : document) (e : string) : Prop :=
  (exists o root, In (DOp o) d /\ root_type s (op_kind o) = Some root /\ selects s root (op_sels o) e)
  \/ (exists f, In (DFrag f) d /\ selects s (fr_on f) (fr_sels f) e).

(** no inline fragment directly inside an inline fragment, at any depth *)
Definition is_inline (x : selection) : Prop := match x with SelInline _ _ _ => True | _ => False end.
Inductive flat (sels : list selection) : Prop :=
| flat_intro :
    (forall f sub, In (SelField f) sels -> fn_sels f = Some sub -> flat sub) ->
    (forall c dirs sub, In (SelInline c dirs sub) sels ->
       flat sub /\ forall x, In x sub -> ~ is_inline x) ->
    flat sels.
Definition flat_document (d : document) : Prop :=
  (forall o, In (DOp o) d -> flat (op_sels o) /\ forall x, In x (op_sels o) -> ~ is_inline x)
  /\ (forall f, In (DFrag f) d -> flat (fr_sels f)).

(** names are unique, as validation guarantees *)
Definition unique_names (d : document) : Prop :=
  NoDup (map fr_name (fragments_of d)) /\ NoDup (map op_name (operations_of d)).

(** [n] is an input type / an enum of the schema *)
Definition is_input (s : schema) (n : string) : Prop := exists d f di, get_type s n = Some (TInput d f di).
Definition is_enum (s : schema) (n : string) : Prop := exists d vs, get_type s n = Some (TEnum d vs).
Definition is_scalar (s : schema) (n : string) : Prop := exists d, get_type s n = Some (TScalar d).

(** [refd]: the input types that count as referenced, [None] when nothing is skipped.
    [skip]: unreferenced types are skipped and documents are configured *)
Definition referenced_inputs (skip : bool) (s : schema) (documents : res document)
           (refd : option (list string)) : Prop :=
  if skip then exists d l, documents = Ok d /\ refd = Some l
                 /\ (unique_names d -> forall n, In n l <-> needs s (variable_type d) n /\ is_input s n)
  else refd = None.
