(** turms/utils.py: shared generator helpers.  No proofs in this file. *)
From Verif Require Import Base PyAst Gql Config Stylers Registry.

(** The [graphQLType] argument of generate_pydantic_config.  Callers pass a member of
    turms' GraphQLTypes enum, except operations.py:452 which passes graphql-core's
    OperationType; members of different Enum classes are never equal. *)
Inductive cfgkind : Set := KT (k : gqltypes) | KOp (o : optype).
Definition kind_in (k : cfgkind) (l : list gqltypes) : bool :=
  match k with KT g => existsb (gqltypes_eqb g) l | KOp _ => false end.

(** [typename in xs] for an optional type name; [None] (Python None) is in no list of str *)
Definition opt_in (n : option string) (l : list string) : bool :=
  match n with Some s => mem s l | None => false end.
(** [xs and typename in xs] *)
Definition listed (x : option (list string)) (n : option string) : bool :=
  match x with None | Some [] => false | Some l => opt_in n l end.
(** [xs and typename not in xs] *)
Definition unlisted (x : option (list string)) (n : option string) : bool :=
  match x with None | Some [] => false | Some l => negb (opt_in n l) end.

(** utils.py:145-174 generate_typename_field *)
Definition exclude_kw (c : gconfig) : list (string * expr) :=
  if c_exclude_typenames c then [("exclude", EConst (CBool true))] else [].
Definition generate_typename_field (c : gconfig) (typename : string) : M stmt :=
  register_import "pydantic.Field" ;;
  register_import "typing.Optional" ;;
  register_import "typing.Literal" ;;
  ret (SAnn "typename" (literal_of typename)
            (Some (field_call ([("alias", estr "__typename"); ("default", estr typename)]
                               ++ exclude_kw c)))).

(** utils.py:177-199 generate_generic_typename_field *)
Definition generate_generic_typename_field (c : gconfig) : M stmt :=
  register_import "pydantic.Field" ;;
  register_import "typing.Optional" ;;
  register_import "typing.Literal" ;;
  ret (SAnn "typename" (EName "str")
            (Some (field_call ([("alias", estr "__typename")] ++ exclude_kw c)))).

(** utils.py:222-285 and 331-415: the (name, value) pairs both config generators collect;
    they differ only in the name used for allow_population_by_field_name *)
Definition opt_kw {A} (n : string) (f : A -> const) (o : option A) : list (string * const) :=
  match o with Some a => [(n, f a)] | None => [] end.
Definition freeze_kws (k : cfgkind) (c : gconfig) (typename : option string) : list (string * const) :=
  let f := c_freeze c in
  if fz_enabled f then
    if kind_in k (fz_types f) then
      if listed (fz_exclude f) typename then []
      else if unlisted (fz_include f) typename then []
      else [("frozen", CBool true)]
    else []
  else [].
Definition options_kws (byname : string) (k : cfgkind) (c : gconfig) (typename : option string)
  : list (string * const) :=
  let o := c_options c in
  if oc_enabled o then
    if kind_in k (oc_types o) then
      if listed (oc_exclude o) typename then []
      else if unlisted (oc_include o) typename then []
      else opt_kw "allow_mutation" CBool (oc_allow_mutation o)
        ++ opt_kw "extra" CStr (oc_extra o)
        ++ opt_kw "validate_assignment" CBool (oc_validate_assignment o)
        ++ opt_kw byname CBool (oc_allow_population_by_field_name o)
        ++ opt_kw "orm_mode" CBool (oc_orm_mode o)
        ++ opt_kw "use_enum_values" CBool (oc_use_enum_values o)
    else []
  else [].
Definition additional_kws (c : gconfig) (typename : option string) : list (string * const) :=
  if truthy typename then
    match dget (opt_str typename) (c_additional_config c) with Some d => d | None => [] end
  else [].

(** utils.py:202-310 generate_config_dict *)
Definition generate_config_dict (k : cfgkind) (c : gconfig) (typename : option string) : M (list stmt) :=
  let kws := freeze_kws k c typename ++ options_kws "populate_by_name" k c typename
             ++ additional_kws c typename in
  match kws with
  | [] => ret []
  | _ => register_import "pydantic.ConfigDict" ;;
         ret [SAssign (EName "model_config")
                (ECall (EName "ConfigDict") [] (map (fun kv => (Some (fst kv), EConst (snd kv))) kws))]
  end.

(** utils.py:313-437 generate_config_class_pydantic *)
Definition generate_config_class_pydantic (k : cfgkind) (c : gconfig) (typename : option string) : list stmt :=
  let kws := freeze_kws k c typename
             ++ options_kws "allow_population_by_field_name" k c typename
             ++ additional_kws c typename in
  match kws with
  | [] => []
  | _ => [SClass "Config" []
            (docstring "A config class"
             :: map (fun kv => SAssign (EName (fst kv)) (EConst (snd kv))) kws) []]
  end.

(** utils.py:440-449 generate_pydantic_config *)
Definition generate_pydantic_config (k : cfgkind) (c : gconfig) (typename : option string) : M (list stmt) :=
  if String.eqb (c_pydantic_version c) "v2" then generate_config_dict k c typename
  else ret (generate_config_class_pydantic k c typename).

(** [ast.Name(id=base.split(".")[-1])] after [register_import(base)] for each base *)
Definition import_bases (bases : list string) : M (list expr) :=
  miter register_import bases ;; ret (map (fun b => EName (last_comp b)) bases).

(** utils.py:590-601 get_additional_bases_for_type *)
Definition get_additional_bases_for_type (c : gconfig) (typename : string) : M (list expr) :=
  match dget typename (c_additional_bases c) with
  | Some bases => import_bases bases
  | None => ret []
  end.

(** utils.py:604-615 is_oneof_input_type (graphql-core 3.2: only the SDL directive) *)
Definition is_oneof_input_type (t : typedef) : bool :=
  match t with
  | TInput _ _ dirs => existsb (fun d => String.eqb (dir_name d) "oneOf") dirs
  | _ => false
  end.

(** utils.py:618-634 get_interface_bases *)
Definition get_interface_bases (c : gconfig) : M (list expr) :=
  match c_interface_bases c with
  | Some (b :: bs) => import_bases (b :: bs)
  | _ => import_bases (c_object_bases c)
  end.

(** utils.py:637-645 interface_is_extended_by_other_interfaces; [others] are names of interfaces *)
Definition interface_is_extended (s : schema) (iface : string) (others : list string) : bool :=
  existsb (fun o => match get_type s o with
                    | Some (TInterface _ is _) => mem iface is
                    | _ => false
                    end) others.

(** ** Annotations *)
Definition opt_wrap (optional : bool) (e : expr) : M expr :=
  if optional then register_import "typing.Optional" ;; ret (optional_of e) else ret e.

Section Annot.
Variable stylers : list styler.

(** utils.py:686-704 and 884-898: scalar, else input type, else enum *)
Definition reference_any_input (n parent : string) : M expr :=
  try_except (reference_scalar n) (is_cls NoScalarFoundC) (fun _ =>
  try_except (reference_inputtype stylers n parent false) (is_cls NoInputTypeFoundC) (fun _ =>
  try_except (reference_enum stylers n parent false) (is_cls NoEnumFoundC) (fun _ =>
  raise NotImplementedErrorC n))).

(** utils.py:648-719 recurse_type_annotation *)
Fixpoint recurse_type_annotation (overwrite : option expr) (t : gty) (optional : bool) : M expr :=
  match t with
  | GNonNull t' => recurse_type_annotation overwrite t' false
  | GList t' =>
      if optional then
        register_import "typing.List" ;; register_import "typing.Optional" ;;
        let* e := recurse_type_annotation overwrite t' true in
        ret (optional_of (list_of e))
      else
        register_import "typing.List" ;;
        let* e := recurse_type_annotation overwrite t' true in
        ret (list_of e)
  | GNamed n =>
      let* x := match overwrite with Some e => ret e | None => reference_any_input n "" end in
      opt_wrap optional x
  end.

(** utils.py:853-907 recurse_type_label *)
Definition label_of (e : expr) : M string :=
  match e with
  | EName n => ret n
  | EConst (CStr s) => ret s
  | _ => raise AttributeErrorC "value"
  end.
Fixpoint recurse_type_label (overwrite : option string) (t : gty) (optional : bool) : M string :=
  match t with
  | GNonNull t' => recurse_type_label overwrite t' false
  | GList t' =>
      let* s := recurse_type_label overwrite t' true in
      ret (if optional then "Optional[List[" +s+ s +s+ "]]" else "List[" +s+ s +s+ "]")
  | GNamed n =>
      let* x := match overwrite with Some o => ret (EName o) | None => reference_any_input n "" end in
      let* label := label_of x in
      ret (if optional then "Optional[" +s+ label +s+ "]" else label)
  end.

(** [x.id]: only ast.Name has it *)
Definition name_id (e : expr) : M string :=
  match e with EName n => ret n | _ => raise AttributeErrorC "id" end.

(** utils.py:722-793 recurse_outputtype_annotation.  In the NonNull branch the code unwraps
    twice ([type = type.of_type] and then [type.of_type]); on a non-null named type the
    second access is an AttributeError, on a non-null list it drops the list.  [None] stands
    for the wrapper-free object that results when a named type is unwrapped. *)
Fixpoint recurse_outputtype_annotation (s : schema) (overwrite : option string) (t : gty)
         (optional : bool) {struct t} : M expr :=
  match t with
  | GNonNull (GList t') => recurse_outputtype_annotation s overwrite t' false
  | GNonNull (GNonNull t') => recurse_outputtype_annotation s overwrite t' false
  | GNonNull (GNamed _) => raise AttributeErrorC "of_type"
  | GList t' =>
      (if optional then register_import "typing.List" ;; register_import "typing.Optional"
       else register_import "typing.List") ;;
      let* e := recurse_outputtype_annotation s overwrite t' true in
      ret (if optional then optional_of (list_of e) else list_of e)
  | GNamed n =>
      match get_type s n with
      | Some (TEnum _ _) =>
          (if optional then register_import "typing.Optional" else ret tt) ;;
          let* e := reference_enum stylers n "" false in
          ret (if optional then optional_of e else e)
      | Some (TScalar _) =>
          (if optional then register_import "typing.Optional" else ret tt) ;;
          let* e := reference_scalar n in
          ret (if optional then optional_of e else e)
      | Some (TObject _ _ _ _) | Some (TInterface _ _ _) | Some (TUnion _ _) =>
          match overwrite with
          | Some (String _ _ as o) => opt_wrap optional (EName o)
          | _ => raise AssertionErrorC "Needs to be set"
          end
      | _ => raise NotImplementedErrorC n
      end
  end.

(** utils.py:796-850 recurse_outputtype_label *)
Fixpoint recurse_outputtype_label (s : schema) (overwrite : option string) (t : gty)
         (optional : bool) : M string :=
  match t with
  | GNonNull t' => recurse_outputtype_label s overwrite t' false
  | GList t' =>
      let* x := recurse_outputtype_label s overwrite t' true in
      ret (if optional then "Optional[List[" +s+ x +s+ "]]" else "List[" +s+ x +s+ "]")
  | GNamed n =>
      let wrap x := if optional then "Optional[" +s+ x +s+ "]" else x in
      match get_type s n with
      | Some (TEnum _ _) =>
          let* e := reference_enum stylers n "" false in let* x := name_id e in ret (wrap x)
      | Some (TScalar _) =>
          let* e := reference_scalar n in let* x := name_id e in ret (wrap x)
      | Some (TObject _ _ _ _) | Some (TInterface _ _ _) | Some (TUnion _ _) =>
          match overwrite with
          | Some (String _ _ as o) => ret (wrap o)
          | _ => raise AssertionErrorC "Needs to be set"
          end
      | _ => raise NotImplementedErrorC "oisnosin"
      end
  end.
End Annot.

(** ** Values *)
(** Python [int(s)] on a GraphQL IntValue literal *)
Fixpoint digits_to_Z (s : string) (acc : Z) : Z :=
  match s with
  | EmptyString => acc
  | String c r => digits_to_Z r (acc * 10 + Z.of_nat (code c - 48))%Z
  end.
Definition int_of_literal (s : string) : Z :=
  match s with
  | String "-"%char r => (- digits_to_Z r 0)%Z
  | _ => digits_to_Z s 0
  end.

(** utils.py:910-934 parse_value_node.  A float is identified with the text of its literal.
    For a boolean node the code compares a Python bool with the string "true", which is
    always False. *)
Definition parse_value_node (v : vnode) : res pyval :=
  match v with
  | VInt s => Ok (PInt (int_of_literal s))
  | VFloat s => Ok (PFloat s)
  | VString s _ => Ok (PStr s)
  | VBool _ => Ok (PBool false)
  | VNull => Ok PNone
  | _ => rraise NotImplementedErrorC "Cannot parse"
  end.

(** Python [str(int)] *)
Definition Z_to_string (z : Z) : string :=
  match z with
  | Z0 => "0"
  | Zpos p => nat_to_string (Pos.to_nat p)
  | Zneg p => "-" +s+ nat_to_string (Pos.to_nat p)
  end.

(** Python [repr(str)] for ASCII strings: single quotes unless the string contains a single
    and no double quote; backslash, the quote, newline, return, tab and unprintable characters
    are escaped. *)
Definition has_char (c : ascii) (s : string) : bool := negb (sforall (fun d => negb (Ascii.eqb c d)) s).
Definition hex_digit (n : nat) : ascii := ascii_of_nat (if (n <? 10)%nat then 48 + n else 87 + n).
Definition squote : ascii := ascii_of_nat 39.
Definition dquote : ascii := ascii_of_nat 34.
Definition bslash : ascii := ascii_of_nat 92.
Definition repr_char (q c : ascii) : string :=
  if Ascii.eqb c bslash || Ascii.eqb c q then String bslash (String c "")
  else if (code c =? 10)%nat then String bslash "n"
  else if (code c =? 13)%nat then String bslash "r"
  else if (code c =? 9)%nat then String bslash "t"
  else if (code c <? 32)%nat || (code c =? 127)%nat
  then String bslash (String "x"%char (String (hex_digit (code c / 16)) (String (hex_digit (code c mod 16)) "")))
  else String c "".
Fixpoint repr_chars (q : ascii) (s : string) : string :=
  match s with EmptyString => "" | String c r => repr_char q c +s+ repr_chars q r end.
Definition repr_str (s : string) : string :=
  let q := if has_char squote s && negb (has_char dquote s) then dquote else squote in
  String q (repr_chars q s +s+ String q "").

(** Python [repr(v)] and [str(v)]; a float is identified with its text *)
Fixpoint repr_of_pyval (v : pyval) : string :=
  match v with
  | PNone => "None"
  | PBool true => "True" | PBool false => "False"
  | PInt z => Z_to_string z
  | PFloat s => s
  | PStr s => repr_str s
  | PList l => "[" +s+ join ", " (map repr_of_pyval l) +s+ "]"
  | PDict l => "{" +s+ join ", " (map (fun kv => repr_str (fst kv) +s+ ": " +s+ repr_of_pyval (snd kv)) l) +s+ "}"
  end.
Definition str_of_pyval (v : pyval) : string :=
  match v with PStr s => s | _ => repr_of_pyval v end.

(** utils.py:937-963 convert_default_value_to_ast ([Undefined] is handled by the callers'
    option type) *)
Fixpoint convert_default_value_to_ast (v : pyval) : expr :=
  match v with
  | PNone => enone
  | PBool b => EConst (CBool b)
  | PInt z => EConst (CInt z)
  | PFloat s => EConst (CFloat s)
  | PStr s => estr s
  | PList l => EList (map convert_default_value_to_ast l)
  | PDict l => EDict (map (fun kv => (estr (fst kv), convert_default_value_to_ast (snd kv))) l)
  end.

(** utils.py:966-986 compose_field_documentation *)
Definition compose_field_documentation (description deprecation default : option string)
           (include_metadata : bool) : option string :=
  if negb include_metadata then
    if truthy description then description else None
  else
    let parts := (if truthy description then [opt_str description] else [])
              ++ (if truthy deprecation then ["DEPRECATED: " +s+ opt_str deprecation] else [])
              ++ match default with Some d => ["Default: " +s+ d] | None => [] end in
    match parts with [] => None | _ => Some (join nl parts) end.

(** utils.py:989-1028 annotate_field_metadata *)
Definition annotate_field_metadata (c : gconfig) (annotation : expr) (default : option expr)
           (deprecation : option string) : M expr :=
  let* m1 := match default with
             | Some d => let* f := reference_graphql_default c in ret [ECall f [d] []]
             | None => ret []
             end in
  let* m2 := match deprecation with
             | Some r => let* f := reference_deprecated c in ret [ECall f [estr r] []]
             | None => ret []
             end in
  match m1 ++ m2 with
  | [] => ret annotation
  | ms => register_import "typing.Annotated" ;; ret (annotated_of (annotation :: ms))
  end.
