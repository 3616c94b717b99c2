(** turms/plugins/strawberry.py.  No proofs in this file.
    Names such as [strawberry.field] are emitted by the code as one [ast.Name] with a dot in it; they
    are modelled the same way. *)
From Verif Require Import Base PyAst Gql Config Stylers Registry Utils Recurse Objects.

(** GraphQLDirective: name, locations, arguments *)
Record directivedef : Set := DirectiveDef {
  dd_name : string; dd_locations : list string; dd_args : list (string * argdef) }.

(** strawberry.py:366-389 StrawberryPluginConfig.  The functions for directives and enums are the
    defaults.  [types_bases] is never read. *)
Record sbcfg : Set := SbCfg {
  sb_directives : bool; sb_scalars : bool; sb_enums : bool; sb_types : bool; sb_inputs : bool;
  sb_builtin_directives : list string; sb_builtin_scalars : list string; sb_inputtype_bases : list string;
  sb_skip_underscore : bool; sb_skip_double_underscore : bool }.
Definition default_strawberry_config : sbcfg :=
  SbCfg true true true true true ["include"; "skip"; "deprecated"; "specifiedBy"; "oneOf"]
        ["String"; "Boolean"; "DateTime"; "Int"; "Float"; "ID"] [] false true.

(** strawberry.py:115-146 convert_valuenode_to_ast.  Numbers come out as string constants, since the
    value of an Int or Float node is a str.  An enum node is wrapped in a constant as it is; what
    [ast.unparse] renders is its repr, "EnumValueNode at 3:7", shown here without the position.  An
    object literal gets plain strings as keys, on which [ast.unparse] fails with an AttributeError;
    the model fails here. *)
Fixpoint convert_valuenode_to_ast (v : vnode) : res expr :=
  match v with
  | VNull => Ok enone
  | VString s _ => Ok (estr s)
  | VInt s => Ok (estr s)
  | VFloat s => Ok (estr s)
  | VBool b => Ok (EConst (CBool b))
  | VEnum _ => Ok (EName "EnumValueNode at 0:0")
  | VList l => let? es := (fix go l := match l with
                                       | [] => Ok []
                                       | x :: r => let? e := convert_valuenode_to_ast x in let? es := go r in Ok (e :: es)
                                       end) l in Ok (EList es)
  | VObject _ => rraise AttributeErrorC "'str' object has no attribute '_fields'"
  | VVar _ => rraise NotImplementedErrorC "Unknown default value"
  end.

Section Strawberry.
Variable c : gconfig.
Variable stylers : list styler.
Variable s : schema.
(** GraphQLSchema.directives *)
Variable directives : list directivedef.
(** the directives applied to a type in the SDL, for the kinds of types where [typedef] has none *)
Variable applied : string -> list directive.
Variable pc : sbcfg.

Definition kw (n : string) (e : expr) : option string * expr := (Some n, e).
(** strawberry.py: [ast.Call] if there are keywords, else the name *)
Definition decorate (name : string) (kws : list (option string * expr)) : expr :=
  match kws with [] => EName name | _ => ECall (EName name) [] kws end.
Definition type_directives (key : string) (t : typedef) : list directive :=
  match t with TObject _ _ _ d | TInput _ _ d => d | _ => applied key end.
(** strawberry.py:297-301, 862-866 *)
Definition skipped (key : string) : bool :=
  (sb_skip_underscore pc && startswith "_" key) || (sb_skip_double_underscore pc && startswith "__" key).
Definition class_docs (d : option string) : list stmt := if truthy d then [docstring (opt_str d)] else [].
Definition opt_keyword (n : string) (v : option string) : list (option string * expr) :=
  if truthy v then [kw n (estr (opt_str v))] else [].

(** strawberry.py:688-723 generate_directive_keywords *)
Definition generate_directive_keywords (ds : list directive) : M (list (option string * expr)) :=
  match filter (fun d => negb (mem (dir_name d) (sb_builtin_directives pc))) ds with
  | [] => ret []
  | l => let* calls := mmap (fun d => let* kws := mmap (fun a => let* e := lift (convert_valuenode_to_ast (snd a)) in
                                                                 ret (kw (fst a) e)) (dir_args d) in
                                      ret (ECall (EName (dir_name d)) [] kws)) l in
         ret [kw "directives" (EList calls)]
  end.

(** ** Directives *)
(** strawberry.py:59-112 build_directive_type_annotation.  For an enum the code calls
    [registry.reference_enum(value.name)] without the required argument [parent]. *)
Fixpoint build_directive_type_annotation (t : gty) (optional : bool) : M expr :=
  match t with
  | GNamed n =>
      match get_type s n with
      | Some (TScalar _) =>
          (if optional then register_import "typing.Optional" else ret tt) ;;
          let* e := reference_scalar n in ret (if optional then optional_of e else e)
      | Some (TEnum _ _) =>
          (if optional then register_import "typing.Optional" else ret tt) ;;
          raise TypeErrorC "missing 1 required positional argument: 'parent'"
      | _ => raise NotImplementedErrorC "cannot be used as arguments"
      end
  | GNonNull t' => build_directive_type_annotation t' false
  | GList t' =>
      register_import "typing.List" ;;
      (if optional then register_import "typing.Optional" else ret tt) ;;
      let* e := build_directive_type_annotation t' true in
      ret (if optional then optional_of (list_of e) else list_of e)
  end.
(** strawberry.py:200-243: the default of a directive argument; null counts as no default *)
Definition directive_default (d : option pyval) : option expr :=
  match d with
  | None | Some PNone => None
  | Some v =>
      let e := convert_default_value_to_ast v in
      Some (ECall (EName "strawberry.field") []
              [match v with PList _ | PDict _ => kw "default_factory" (ELambda [] e) | _ => kw "default" e end])
  end.
(** strawberry.py:195-254 *)
Definition directive_arg (kv : string * argdef) : M (list stmt) :=
  let* a := build_directive_type_annotation (arg_type (snd kv)) true in
  ret [SAnn (generate_node_name stylers (fst kv)) a (directive_default (arg_default (snd kv)))].
(** strawberry.py:172-280: one directive *)
Definition directive_class (d : directivedef) : M (list stmt) :=
  if skipped (dd_name d) then ret []
  else
    let* fields := mconcat directive_arg (dd_args d) in
    let* cfg := generate_pydantic_config (KT KDirective) c (Some (dd_name d)) in
    ret [SClass (dd_name d) [] ((match fields with [] => [SPass] | _ => fields end) ++ cfg)
           [ECall (EName "strawberry.schema_directive") []
              [kw "locations" (EList (map (EAttr (EName "Location")) (dd_locations d)))]]].
(** strawberry.py:155-282 default_generate_directives *)
Definition generate_directives : M (list stmt) :=
  match filter (fun d => negb (mem (dd_name d) (sb_builtin_directives pc))) directives with
  | [] => ret []
  | l => register_import "strawberry.schema_directive.Location" ;; mconcat directive_class l
  end.

(** ** Enums *)
(** strawberry.py:313-337 *)
Definition sb_enum_member (kv : string * enumval) : list stmt :=
  let v := snd kv in
  let comment := if truthy (ev_depr v)
                 then Some ("DEPRECATED: " +s+ match ev_desc v with Some x => x | None => "None" end)
                 else ev_desc v in
  SAssign (EName (fst kv)) (estr (ev_value v))
  :: (if truthy comment then [docstring (opt_str comment)] else []).
(** strawberry.py:285-363 default_generate_enums *)
Definition generate_enum_class (key : string) (d : option string) (vs : list (string * enumval)) : M (list stmt) :=
  let* kws := generate_directive_keywords (applied key) in
  if skipped key then ret []
  else
    let* classname := generate_enum stylers key in
    let body := class_docs d ++ flat_map sb_enum_member vs in
    register_import "enum.Enum" ;;
    ret [SClass classname [EName "Enum"] (match body with [] => [SPass] | _ => body end) [decorate "strawberry.enum" kws]].
Definition generate_enums : M (list stmt) :=
  mconcat (fun kt => match snd kt with TEnum d vs => generate_enum_class (fst kt) d vs | _ => ret [] end) (s_types s).

(** ** Annotations *)
(** strawberry.py:393-534 generate_object_field_annotation; union members are object types *)
Fixpoint field_annotation (t : gty) (parent : string) (optional : bool) : M expr :=
  match t with
  | GNamed n => named_object_annotation c stylers s n parent optional
  | GNonNull t' => field_annotation t' parent false
  | GList t' =>
      register_import "typing.List" ;;
      (if optional then register_import "typing.Optional" else ret tt) ;;
      let* e := field_annotation t' parent true in
      ret (if optional then optional_of (list_of e) else list_of e)
  end.
(** strawberry.py:537-685 recurse_argument_annotation.  The branch for unions is left out: a union
    is no input type. *)
Fixpoint argument_annotation (t : gty) (parent : string) (optional : bool) : M expr :=
  match t with
  | GNamed n =>
      (if optional then register_import "typing.Optional" else ret tt) ;;
      let* e := match get_type s n with
                | Some (TScalar _) => reference_scalar n
                | Some (TInput _ _ _) => reference_inputtype stylers n parent true
                | Some (TEnum _ _) => reference_enum stylers n parent (negb (c_force_plugin_order c))
                | _ => raise NotImplementedErrorC "Unknown input type"
                end in
      ret (if optional then optional_of e else e)
  | GNonNull t' => argument_annotation t' parent false
  | GList t' =>
      register_import "typing.List" ;;
      (if optional then register_import "typing.Optional" else ret tt) ;;
      let* e := argument_annotation t' parent true in
      ret (if optional then optional_of (list_of e) else list_of e)
  end.

(** ** Inputs *)
(** strawberry.py:768-813: one field; its default is not used *)
Definition input_field (name : string) (kv : string * inputfield) : M (list stmt) :=
  let kws := opt_keyword "description" (if_desc (snd kv)) ++ opt_keyword "deprecation_reason" (if_depr (snd kv)) in
  let* a := argument_annotation (if_type (snd kv)) name true in
  ret [SAnn (generate_node_name stylers (fst kv)) a
         (match kws with [] => None | _ => Some (ECall (EName "strawberry.field") [] kws) end)].
(** strawberry.py:740-831: one input type; the bases of the plugin are not imported *)
Definition input_class (key : string) (t : inputdef) : M (list stmt) :=
  if sb_skip_underscore pc && startswith "_" key then ret []
  else
    let* kws := generate_directive_keywords (id_dirs t) in
    let kws := kws ++ (if is_oneof_input_type (TInput (id_desc t) (id_fields t) (id_dirs t))
                       then [kw "one_of" (EConst (CBool true))] else []) in
    let* add := get_additional_bases_for_type c key in
    let* name := generate_inputtype stylers key in
    let* fields := mconcat (input_field name) (id_fields t) in
    let* cfg := generate_pydantic_config (KT KInput) c (Some key) in
    ret [SClass name (add ++ map (fun b => EName (last_comp b)) (sb_inputtype_bases pc))
           (class_docs (id_desc t) ++ fields ++ cfg) [decorate "strawberry.input" kws]].
(** strawberry.py:726-833 generate_inputs *)
Definition generate_inputs : M (list stmt) :=
  mconcat (fun kt => match snd kt with TInput d f ds => input_class (fst kt) (InputDef d f ds) | _ => ret [] end) (s_types s).

(** ** Types *)
Definition is_undefined (a : argdef) : bool := match arg_default a with None => true | Some _ => false end.
(** strawberry.py:937-945: a stable sort, arguments without default first *)
Definition sorted_args (args : list (string * argdef)) : list (string * argdef) :=
  filter (fun a => is_undefined (snd a)) args ++ filter (fun a => negb (is_undefined (snd a))) args.
(** strawberry.py:947-960 *)
Definition resolver_arg (classname : string) (kv : string * argdef) : M pyarg :=
  let* a := argument_annotation (arg_type (snd kv)) classname (is_undefined (snd kv)) in
  ret (PyArg (generate_parameter_name stylers (fst kv)) (Some a)).
(** strawberry.py:962-963.  The code wraps the Python value of the default in one constant, which
    [ast.unparse] renders by [repr]; the model has the expression of that text. *)
Definition resolver_defaults (args : list (string * argdef)) : list expr :=
  flat_map (fun a => match arg_default (snd a) with Some v => [convert_default_value_to_ast v] | None => [] end) args.
Definition root_names : list string := ["Mutation"; "Subscription"; "Query"].
(** strawberry.py:965-1052: the function for a field with arguments or of a root type *)
Definition resolver (key value_key : string) (f : fielddef) (params : list pyarg) (returns : expr)
           (kws : list (option string * expr)) : stmt :=
  let sub := String.eqb key "Subscription" in
  let deco := if String.eqb key "Mutation" then "strawberry.mutation"
              else if sub then "strawberry.subscription" else "strawberry.field" in
  SFunc sub (generate_node_name stylers value_key)
    (PyArgs (PyArg "self" None :: params) (resolver_defaults (sorted_args (fd_args f))))
    (class_docs (fd_desc f) ++ [SReturn (Some enone)])
    (Some (if sub then ESub (EName "AsyncGenerator") (ETuple [returns; EName "None"]) else returns))
    [ECall (EName deco) [] kws].
(** strawberry.py:914-1054: one field *)
Definition type_field (key classname : string) (kv : string * fielddef) : M (list stmt) :=
  let '(value_key, f) := kv in
  let* params := mmap (resolver_arg classname) (sorted_args (fd_args f)) in
  let* returns := field_annotation (fd_type f) classname true in
  let* dks := generate_directive_keywords (fd_dirs f) in
  let kws := opt_keyword "description" (fd_desc f) ++ opt_keyword "deprecation_reason" (fd_depr f) ++ dks in
  if (match params with [] => true | _ => false end) && negb (mem key root_names) then
    ret [SAnn (generate_node_name stylers value_key) returns
           (match kws with [] => None | _ => Some (ECall (EName "strawberry.field") [] kws) end)]
  else
    (if String.eqb key "Subscription" then register_import "typing.AsyncGenerator" else ret tt) ;;
    ret [resolver key value_key f params returns kws].
(** strawberry.py:872-1068: one type.  The maps [interface_map] and [interface_base_map] are filled
    but not used. *)
Definition type_class (kt : string * typedef) : M (list stmt) :=
  let '(key, t) := kt in
  let* add := get_additional_bases_for_type c key in
  if skipped key then ret []
  else
    let* kws := generate_directive_keywords (type_directives key t) in
    let* classname := if is_interface_def t then generate_interface stylers key false else generate_objecttype stylers key in
    let* ib := interface_bases s (type_interfaces t) in
    let* fields := mconcat (type_field key classname) (type_fields t) in
    let* cfg := generate_pydantic_config (KT KObject) c (Some key) in
    ret [SClass classname (add ++ ib) (class_docs (type_desc t) ++ fields ++ cfg)
           [decorate (if is_interface_def t then "strawberry.interface" else "strawberry.type") kws]].
(** strawberry.py:836-1070 generate_types *)
Definition generate_types : M (list stmt) :=
  register_import "strawberry" ;; mconcat type_class (sorted_objects s).

(** ** Scalars *)
Definition scalar_types : list (string * option string) :=
  flat_map (fun kt => match snd kt with
                      | TScalar d => if mem (fst kt) (sb_builtin_scalars pc) then [] else [(fst kt, d)]
                      | _ => []
                      end) (s_types s).
Definition identity_lambda : expr := ELambda ["value"] (EName "value").
(** strawberry.py:1090-1152: one scalar *)
Definition scalar_assign (kd : string * option string) : M (list stmt) :=
  let '(key, d) := kd in
  let* dks := generate_directive_keywords (applied key) in
  register_scalar key key ;;
  ret [SAssign (EName key)
         (ECall (EName "strawberry.scalar") [ECall (EName "NewType") [estr key; EName "str"] []]
            (dks ++ opt_keyword "description" d ++ [kw "serialize" identity_lambda; kw "parse_value" identity_lambda]))].
(** strawberry.py:1073-1154 generate_scalars *)
Definition generate_scalars : M (list stmt) :=
  (match scalar_types with [] => ret tt | _ => register_import "typing.NewType" end) ;;
  mconcat scalar_assign scalar_types.

(** strawberry.py:1171-1211 generate_ast.  Scalars are generated when [generate_directives] is on
    (line 1190). *)
Definition strawberry_plugin : M (list stmt) :=
  register_import "strawberry" ;;
  let* d := if sb_directives pc then generate_directives else ret [] in
  let* sc := if sb_directives pc then generate_scalars else ret [] in
  let* e := if sb_enums pc then generate_enums else ret [] in
  let* i := if sb_inputs pc then generate_inputs else ret [] in
  let* t := if sb_types pc then generate_types else ret [] in
  ret (d ++ sc ++ e ++ i ++ t).
End Strawberry.
