(** Specifications for generated enums and input models, independent of the generator. *)
From Verif Require Import Base PyAst Gql Config Stylers Registry PySem Spec_Types.

(** The enums of the introspection system keep their names: turms ships classes for them. *)
Definition introspection_enum (n : string) : bool :=
  String.eqb n "__TypeKind" || String.eqb n "__DirectiveLocation".
Definition enum_type_class (st : list styler) (n : string) : string :=
  if introspection_enum n then n else style_with sty_enum st n.

(** The Python class that stands for a named input-side type: the configured Python type of a
    scalar, the generated class of an enum or input type.  [scalars] maps scalar names to
    dotted Python names. *)
Definition input_leaf (s : schema) (scalars : dict string) (st : list styler) (n cls : string) : Prop :=
  match get_type s n with
  | Some (TScalar _) => exists p, dget n scalars = Some p /\ cls = last_comp p
  | Some (TEnum _ _) => cls = enum_type_class st n
  | Some (TInput _ _ _) => cls = style_with sty_input st n
  | _ => False
  end.

(** no enum of the schema has the name of a helper turms emits for its own use *)
Definition no_helper_enum (s : schema) : Prop :=
  forall n d vs, get_type s n = Some (TEnum d vs) -> ~ In n ["UNSET"; "GraphQLDefault"; "Deprecated"].

(** lists become tuples when freezing is enabled for inputs and converts lists *)
Definition input_tuples (c : gconfig) (b : bool) : Prop :=
  b = true <-> fz_enabled (c_freeze c) = true /\ In KInput (fz_types (c_freeze c))
               /\ fz_convert_list_to_tuple (c_freeze c) = true.

(** A generated field [n: ann = value] represents the GraphQL input field [k : v]. *)
Record input_field_ok (tup : bool) (leaf : string -> string -> Prop) (st : list styler)
       (k : string) (v : inputfield) (fld : string * expr * option expr) : Prop := {
  ifo_name : fst (fst fld) = style_with sty_node st k;
  ifo_wire : wire_name (fst (fst fld)) (snd fld) = k;
  ifo_type : forall x, accepts (snd (fst fld)) x <->
               (inhab tup leaf (if_type v) x \/ (x = JNull /\ if_default v <> None));
  ifo_omit : may_omit (snd fld) = true <->
               (if_default v <> None \/ inhab tup leaf (if_type v) JNull) }.

(** enum members: assignments of a string to a name *)
Definition enum_members (body : list stmt) : list (string * string) :=
  flat_map (fun st => match st with SAssign (EName n) (EConst (CStr v)) => [(n, v)] | _ => [] end) body.

(** ** unionElementOf *)
(** text of a literal directive argument; of repeated arguments the last one counts *)
Definition arg_text (v : vnode) : option string :=
  match v with
  | VInt x | VFloat x | VString x _ | VEnum x => Some x
  | VBool true => Some "True" | VBool false => Some "False"
  | _ => None
  end.
Definition dir_arg (d : directive) (n : string) : option string :=
  match dget n (rev (dir_args d)) with Some v => arg_text v | None => None end.
(** [belongs dirs u dn k]: a directive declares membership of union [u] with discriminator
    field [dn] and value [k] *)
Definition belongs (dirs : list directive) (u dn k : string) : Prop :=
  exists d, In d dirs /\ dir_name d = "unionElementOf"
    /\ dir_arg d "union" = Some u /\ dir_arg d "discriminator" = Some dn /\ dir_arg d "key" = Some k.
(** the union is going to be generated: unreferenced types may be skipped *)
Definition wanted (referenced : option (list string)) (u : string) : Prop :=
  forall l, referenced = Some l -> In u l.

(** [stmt] is the class generated for input type [key] with the given discriminator literals *)
Definition literal_field (d : string * string) (fld : string * expr * option expr) : Prop :=
  fld = (fst d, ESub (EName "Literal") (EConst (CStr (snd d))),
         Some (ECall (EName "Field") [] [(Some "default", EConst (CStr (snd d)))])).
Definition represents_input (tup : bool) (leaf : string -> string -> Prop) (st : list styler)
           (key : string) (discr : list (string * string)) (fields : list (string * inputfield))
           (stm : stmt) : Prop :=
  exists bases body decs dflds flds,
    stm = SClass (style_with sty_input st key) bases body decs
    /\ class_fields body = dflds ++ flds
    /\ Forall2 literal_field discr dflds
    /\ Forall2 (fun kv fld => input_field_ok tup leaf st (fst kv) (snd kv) fld)
               (filter (fun kv => negb (mem (style_with sty_node st (fst kv)) (map fst discr))) fields) flds.

(** ** what every input type of a schema becomes *)
(** the input types of a schema in schema order *)
Definition schema_inputs (s : schema) : list (string * inputdef) :=
  flat_map (fun kv => match snd kv with
                      | TInput d f dirs => [(fst kv, InputDef d f dirs)]
                      | _ => []
                      end) (s_types s).
Definition declares (refd : option (list string)) (t : inputdef) (u dn k : string) : Prop :=
  belongs (id_dirs t) u dn k /\ wanted refd u.
Definition union_member (refd : option (list string)) (t : inputdef) : Prop :=
  exists u dn k, declares refd t u dn k.
Definition union_target (refd : option (list string)) (s : schema) (u : string) : Prop :=
  exists key t dn k, In (key, t) (schema_inputs s) /\ declares refd t u dn k.
Definition is_oneof (t : inputdef) : Prop := exists d, In d (id_dirs t) /\ dir_name d = "oneOf".
Definition input_skipped (skip_underscore : bool) (refd : option (list string)) (key : string) : Prop :=
  ~ wanted refd key \/ (skip_underscore = true /\ startswith "_" key = true).

(** ** oneOf *)
(** the function of [Annotated[..., WrapSerializer(function)]] *)
Fixpoint wrap_serializer (meta : list expr) : option string :=
  match meta with
  | [] => None
  | ECall (EName "WrapSerializer") [EName f] [] :: _ => Some f
  | _ :: r => wrap_serializer r
  end.
Definition serializer_of (e : expr) : option string :=
  match e with
  | ESub (EName "Annotated") (ETuple (_ :: meta)) => wrap_serializer meta
  | _ => None
  end.
(** the class that carries exactly one field of a oneOf input *)
Definition wrapper_ok (tup : bool) (leaf : string -> string -> Prop) (st : list styler) (key : string)
           (kv : string * inputfield) (stm : stmt) : Prop :=
  exists bases body decs fld,
    stm = SClass (style_with sty_input st (key +s+ cap_first (fst kv))) bases body decs
    /\ class_fields body = [fld]
    /\ fst (fst fld) = style_with sty_node st (fst kv)
    /\ wire_name (fst (fst fld)) (snd fld) = fst kv
    /\ may_omit (snd fld) = false
    /\ forall x, accepts (snd (fst fld)) x <-> inhab tup leaf (GNonNull (if_type (snd kv))) x.

(** What the serializer of a direct union must do.  [members]: Python class and GraphQL field.
    The six names are the locals of the function. *)
Definition serializer_ok (body : list stmt) (members : list (string * string)) : Prop :=
  forall glob subclass call v h res,
    glob "type" = Some (PVClass "type") -> glob "isinstance" = Some (PVFun "isinstance") ->
    glob "ValueError" = Some (PVClass "ValueError") ->
    (forall c t, In (c, t) members -> glob c = Some (PVClass c)
       /\ ~ In c ["value"; "handler"; "tags"; "tag"; "member_class"; "member_tag"]) ->
    NoDup (map fst members) ->
    apply subclass call h [v] [] = POk res ->
    let run := run_body glob subclass call body [("value", v); ("handler", h)] in
    (forall t, In (class_of v, t) members -> run = POk (PVDict [(PVConst (CStr t), res)]))
    /\ ((exists c t, In (c, t) members /\ subclass (class_of v) c = true) ->
          exists c t, In (c, t) members /\ (c = class_of v \/ subclass (class_of v) c = true)
                      /\ run = POk (PVDict [(PVConst (CStr t), res)]))
    /\ ((forall c t, In (c, t) members -> c <> class_of v /\ subclass (class_of v) c = false) ->
          exists e, run = PExn e).

(** ** the module part generated for input types.
    [refd]: the referenced input types when unreferenced ones are skipped; [v2]: pydantic v2. *)
Section Module.
Variables (tup : bool) (leaf : string -> string -> Prop) (st : list styler) (s : schema)
          (skip_underscore v2 : bool) (refd : option (list string)).
Notation cls n := (style_with sty_input st n).

(** members of unions come first, with the literals they declare *)
Definition member_part (kt : string * inputdef) (out : list stmt) : Prop :=
  (union_member refd (snd kt) ->
     exists discr stm, out = [stm]
       /\ NoDup (map fst discr)
       /\ (forall dn k, In (dn, k) discr <-> exists u, declares refd (snd kt) u dn k)
       /\ represents_input tup leaf st (fst kt) discr (id_fields (snd kt)) stm)
  /\ (~ union_member refd (snd kt) -> out = []).

(** all fields are plain input types, pairwise different, none oneOf, none skipped *)
Definition direct_oneof (t : inputdef) : Prop :=
  v2 = true /\ id_fields t <> []
  /\ (forall kv, In kv (id_fields t) -> exists n d f dirs,
        if_type (snd kv) = GNamed n /\ get_type s n = Some (TInput d f dirs)
        /\ ~ is_oneof (InputDef d f dirs) /\ ~ input_skipped skip_underscore refd n)
  /\ NoDup (map (fun kv => gty_name (if_type (snd kv))) (id_fields t)).
Definition oneof_valid (t : inputdef) : Prop :=
  forall kv, In kv (id_fields t) -> is_nonnull (if_type (snd kv)) = false /\ if_default (snd kv) = None.

(** [out] defines [cls key] as an alias of a union of wrapper classes *)
Definition oneof_wrapped (key : string) (t : inputdef) (out : list stmt) : Prop :=
  exists classes e, out = classes ++ [SAssign (EName (cls key)) e]
    /\ serializer_of e = None
    /\ Forall2 (wrapper_ok tup leaf st key) (id_fields t) classes
    /\ (forall x, accepts e x <-> exists kv, In kv (id_fields t) /\ x = JLeaf (cls (key +s+ cap_first (fst kv)))).
(** [out] defines [cls key] as the union of the member classes with a wrapping serializer *)
Definition oneof_direct (key : string) (t : inputdef) (out : list stmt) : Prop :=
  exists f body e,
    out = [SFunc false f (PyArgs [PyArg "value" None; PyArg "handler" None] []) body None [];
           SAssign (EName (cls key))
             (ESub (EName "Annotated") (ETuple [e; ECall (EName "WrapSerializer") [EName f] []]))]
    /\ (forall x, accepts e x <-> exists kv, In kv (id_fields t) /\ x = JLeaf (cls (gty_name (if_type (snd kv)))))
    /\ serializer_ok body (map (fun kv => (cls (gty_name (if_type (snd kv))), fst kv)) (id_fields t)).
(** [out] defines [cls key] as the discriminated union of the types that declare membership *)
Definition union_alias (key : string) (out : list stmt) : Prop :=
  exists members dn,
    out = [SAssign (EName (cls key))
             (ESub (EName "Annotated")
                (ETuple [ESub (EName "Union") (ETuple (map EName members));
                         ECall (EName "Field") [] [(Some "discriminator", EConst (CStr dn))]]))]
    /\ NoDup members /\ members <> []
    /\ (forall n, In n members <-> exists key' t' k,
          In (key', t') (schema_inputs s) /\ declares refd t' key dn k /\ n = cls key')
    /\ (forall key' t' dn' k, In (key', t') (schema_inputs s) -> declares refd t' key dn' k -> dn' = dn).

Definition main_part (kt : string * inputdef) (out : list stmt) : Prop :=
  let '(key, t) := kt in
  (union_member refd t \/ input_skipped skip_underscore refd key -> out = [])
  /\ (~ union_member refd t -> ~ input_skipped skip_underscore refd key ->
        (is_oneof t -> oneof_valid t /\ (direct_oneof t -> out = []) /\ (~ direct_oneof t -> oneof_wrapped key t out))
        /\ (~ is_oneof t -> union_target refd s key -> union_alias key out)
        /\ (~ is_oneof t -> ~ union_target refd s key ->
              exists stm, out = [stm] /\ represents_input tup leaf st key [] (id_fields t) stm)).
Definition direct_part (kt : string * inputdef) (out : list stmt) : Prop :=
  let '(key, t) := kt in
  let cond := ~ union_member refd t /\ ~ input_skipped skip_underscore refd key /\ is_oneof t /\ direct_oneof t in
  (cond -> oneof_direct key t out) /\ (~ cond -> out = []).
Definition inputs_module (body : list stmt) : Prop :=
  exists pre main direct,
    body = concat pre ++ concat main ++ concat direct
    /\ Forall2 member_part (schema_inputs s) pre
    /\ Forall2 main_part (schema_inputs s) main
    /\ Forall2 direct_part (schema_inputs s) direct.
End Module.

(** ** enums *)
(** the enum types of a schema in schema order: name, description, values *)
Definition schema_enums (s : schema) : list (string * (option string * list (string * enumval))) :=
  flat_map (fun kv => match snd kv with TEnum d vs => [(fst kv, (d, vs))] | _ => [] end) (s_types s).
(** [refd]: the referenced enums when unreferenced ones are skipped *)
Definition enum_left_out (skip_underscore skip_dunder : bool) (refd : option (list string)) (key : string) : Prop :=
  ~ wanted refd key
  \/ (skip_underscore = true /\ exists rest, key = "_" +s+ rest)
  \/ (skip_dunder = true /\ exists rest, key = "__" +s+ rest).
Definition enum_part (st : list styler) (skip_underscore skip_dunder : bool) (refd : option (list string))
           (e : string * (option string * list (string * enumval))) (out : list stmt) : Prop :=
  (enum_left_out skip_underscore skip_dunder refd (fst e) -> out = [])
  /\ (~ enum_left_out skip_underscore skip_dunder refd (fst e) ->
      exists body, out = [SClass (style_with sty_enum st (fst e)) [EName "str"; EName "Enum"] body []]
        /\ enum_members body = map (fun kv => (fst kv, ev_value (snd kv))) (snd (snd e))).
(** Python's enum module on a class body with the given assignments: a keyword is a
    SyntaxError, "mro" and _sunder_ names are a ValueError, names with two leading underscores
    are no members.  [None]: the class cannot be created. *)
Definition first2 (s : string) : option ascii :=
  match s with String _ (String c _) => Some c | _ => None end.
Definition is_sunder (s : string) : bool :=
  (2 <? String.length s)%nat && startswith "_" s && endswith "_" s
  && match first2 s with Some c => negb (is_under c) | None => false end
  && match first2 (srev s) with Some c => negb (is_under c) | None => false end.
Fixpoint py_enum (l : list (string * string)) : option (list (string * string)) :=
  match l with
  | [] => Some []
  | (n, v) :: r =>
      if iskeyword n || String.eqb n "mro" || is_sunder n then None
      else match py_enum r with
           | Some r' => Some (if startswith "__" n then r' else (n, v) :: r')
           | None => None
           end
  end.
