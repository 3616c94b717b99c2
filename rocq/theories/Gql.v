(** GraphQL schemas and executable documents as turms sees them through graphql-core 3.2.
    No proofs in this file. *)
From Verif Require Import Base.

(** Type expressions: used both for schema types (GraphQLList / GraphQLNonNull around a
    named type) and for document type nodes (ListTypeNode / NonNullTypeNode / NamedTypeNode). *)
Inductive gty : Set :=
| GNamed (n : string)
| GList (t : gty)
| GNonNull (t : gty).

(** graphql-core cannot construct NonNull(NonNull t) *)
Fixpoint gty_wf (t : gty) : bool :=
  match t with
  | GNamed _ => true
  | GList t => gty_wf t
  | GNonNull (GNonNull _) => false
  | GNonNull t => gty_wf t
  end.
Fixpoint gty_name (t : gty) : string :=
  match t with GNamed n => n | GList t => gty_name t | GNonNull t => gty_name t end.
Definition is_nonnull (t : gty) : bool := match t with GNonNull _ => true | _ => false end.

(** graphql ValueNode.  Note that in graphql-core the [value] of a BooleanValueNode is a
    Python bool, that of Int/Float/String/Enum nodes is a str. *)
Inductive vnode : Set :=
| VInt (s : string) | VFloat (s : string) | VString (s : string) (block : bool)
| VBool (b : bool) | VNull | VEnum (s : string)
| VList (l : list vnode) | VObject (l : list (string * vnode)) | VVar (s : string).

(** Python values (coerced schema defaults) *)
Inductive pyval : Set :=
| PNone | PBool (b : bool) | PInt (z : Z) | PFloat (s : string) | PStr (s : string)
| PList (l : list pyval) | PDict (l : list (string * pyval)).

Record directive : Set := Directive { dir_name : string; dir_args : list (string * vnode) }.

(** ** Schema *)
Record argdef : Set := ArgDef { arg_type : gty; arg_default : option pyval; arg_desc : option string }.
Record fielddef : Set := FieldDef {
  fd_type : gty; fd_args : list (string * argdef);
  fd_desc : option string; fd_depr : option string; fd_dirs : list directive }.
Record inputfield : Set := InputField {
  if_type : gty; if_default : option pyval;   (* [None] = Undefined *)
  if_desc : option string; if_depr : option string }.
Record enumval : Set := EnumVal {
  ev_value : string; ev_desc : option string; ev_depr : option string }.

Inductive typedef : Set :=
| TScalar (desc : option string)
| TEnum (desc : option string) (values : list (string * enumval))
| TObject (desc : option string) (ifaces : list string) (fields : list (string * fielddef))
          (dirs : list directive)
| TInterface (desc : option string) (ifaces : list string) (fields : list (string * fielddef))
| TUnion (desc : option string) (members : list string)
| TInput (desc : option string) (fields : list (string * inputfield)) (dirs : list directive).

(** the parts of an input type *)
Record inputdef : Set := InputDef {
  id_desc : option string; id_fields : list (string * inputfield); id_dirs : list directive }.

Record schema : Type := Schema {
  s_types : dict typedef;                 (* GraphQLSchema.type_map, in order *)
  s_query : option string; s_mutation : option string; s_subscription : option string }.

Definition get_type (s : schema) (n : string) : option typedef := dget n (s_types s).
Definition is_input_def (t : typedef) : bool := match t with TInput _ _ _ => true | _ => false end.
Definition is_enum_def (t : typedef) : bool := match t with TEnum _ _ => true | _ => false end.
Definition type_desc (t : typedef) : option string :=
  match t with
  | TScalar d | TEnum d _ | TObject d _ _ _ | TInterface d _ _ | TUnion d _ | TInput d _ _ => d
  end.

(** [schema.get_implementations(iface).objects]: the object types implementing the
    interface, in type_map order *)
Definition implementations (s : schema) (iface : string) : list string :=
  flat_map (fun kv => match snd kv with
                      | TObject _ is _ _ => if mem iface is then [fst kv] else []
                      | _ => []
                      end) (s_types s).

(** fields of an object or interface type *)
Definition type_fields (t : typedef) : option (list (string * fielddef)) :=
  match t with TObject _ _ f _ => Some f | TInterface _ _ f => Some f | _ => None end.

(** ** Executable documents *)
Inductive selection : Set :=
| SelField (f : fieldnode)
| SelSpread (name : string) (dirs : list directive)
| SelInline (cond : option string) (dirs : list directive) (sels : list selection)
with fieldnode : Set :=
| FieldNode (alias : option string) (name : string) (args : list (string * vnode))
            (dirs : list directive) (sels : option (list selection)).

Definition fn_name (f : fieldnode) : string := let '(FieldNode _ n _ _ _) := f in n.
Definition fn_alias (f : fieldnode) : option string := let '(FieldNode a _ _ _ _) := f in a.
Definition fn_args (f : fieldnode) : list (string * vnode) := let '(FieldNode _ _ a _ _) := f in a.
Definition fn_sels (f : fieldnode) : option (list selection) := let '(FieldNode _ _ _ _ s) := f in s.

Inductive optype : Set := OpQuery | OpMutation | OpSubscription.
Record vardef : Set := VarDef {
  v_name : string; v_type : gty; v_default : option vnode; v_dirs : list directive }.
Record operation : Set := Operation {
  op_kind : optype; op_name : option string; op_vars : list vardef;
  op_dirs : list directive; op_sels : list selection }.
Record fragment : Set := Fragment {
  fr_name : string; fr_on : string; fr_dirs : list directive; fr_sels : list selection }.
Inductive definition : Set := DOp (o : operation) | DFrag (f : fragment).
Definition document := list definition.

Definition fragments_of (d : document) : list fragment :=
  flat_map (fun x => match x with DFrag f => [f] | _ => [] end) d.
Definition operations_of (d : document) : list operation :=
  flat_map (fun x => match x with DOp o => [o] | _ => [] end) d.

(** [schema.get_root_type] *)
Definition root_type (s : schema) (k : optype) : option string :=
  match k with OpQuery => s_query s | OpMutation => s_mutation s | OpSubscription => s_subscription s end.

(** utils.py:92-96 target_from_node *)
Definition target_from_node (f : fieldnode) : string :=
  match fn_alias f with Some a => a | None => fn_name f end.

Definition is_typename_field (s : selection) : bool :=
  match s with SelField f => String.eqb (fn_name f) "__typename" | _ => false end.

(** utils.py:99-109 non_typename_fields *)
Definition non_typename (l : list selection) : list selection :=
  filter (fun s => negb (is_typename_field s)) l.
Definition non_typename_fields (f : fieldnode) : list selection :=
  match fn_sels f with None => [] | Some l => non_typename l end.

(** graphql-core [get_field_def(schema, parent_type, field_node)] (graphql/utilities/type_info.py)
    on a named parent type.  The meta fields __schema and __type on the query root are not
    modelled (they resolve to [None] here unless declared). *)
Definition get_field_def (s : schema) (parent : string) (f : string) : option fielddef :=
  if String.eqb f "__typename" then Some (FieldDef (GNonNull (GNamed "String")) [] None None [])
  else match get_type s parent with
       | Some t => match type_fields t with Some fs => dget f fs | None => None end
       | None => None
       end.
