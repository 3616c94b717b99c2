(** turms/plugins/inputs.py.  No proofs in this file. *)
From Verif Require Import Base PyAst Gql Config Stylers Registry Utils Referencer Enums.

(** inputs.py:37-45 InputsPluginConfig *)
Record inputs_config : Set := InputsConfig {
  ic_bases : list string; ic_skip_underscore : bool; ic_skip_unreferenced : bool }.
Definition default_inputs_config : inputs_config := InputsConfig ["pydantic.BaseModel"] true true.

Definition tuple_for_inputs (c : gconfig) : bool :=
  fz_enabled (c_freeze c) && existsb (gqltypes_eqb KInput) (fz_types (c_freeze c))
  && fz_convert_list_to_tuple (c_freeze c).

(** inputs.py:205-208 Discriminator *)
Record discriminator : Set := Discriminator { di_name : string; di_value : string }.

(** inputs.py:380-381 _pascal *)
Definition pascal (s : string) : string := cap_first s.

Section Inputs.
Variable c : gconfig.
Variable stylers : list styler.
Variable pc : inputs_config.
Variable s : schema.

(** inputs.py:48-141 generate_input_annotation *)
Fixpoint generate_input_annotation (t : gty) (parent : string) (is_optional : bool) : M expr :=
  match t with
  | GNamed n =>
      let reference :=
        match get_type s n with
        | Some (TScalar _) => reference_scalar n
        | Some (TInput _ _ _) => reference_inputtype stylers n parent true
        | Some (TEnum _ _) => reference_enum stylers n parent (negb (c_force_plugin_order c))
        | _ => raise NotImplementedErrorC "Unknown input type"
        end in
      match get_type s n with
      | Some (TScalar _) | Some (TInput _ _ _) | Some (TEnum _ _) =>
          if is_optional
          then register_import "typing.Optional" ;; let* e := reference in ret (optional_of e)
          else reference
      | _ => raise NotImplementedErrorC "Unknown input type"
      end
  | GNonNull t' => generate_input_annotation t' parent false
  | GList t' =>
      (if tuple_for_inputs c then register_import "typing.Tuple" else register_import "typing.List") ;;
      let list_builder := if tuple_for_inputs c then tuple_of else list_of in
      if is_optional then
        register_import "typing.Optional" ;;
        let* e := generate_input_annotation t' parent true in ret (optional_of (list_builder e))
      else
        let* e := generate_input_annotation t' parent true in ret (list_builder e)
  end.

(** inputs.py:144-166 generate_input_field_annotation *)
Definition generate_input_field_annotation (t : gty) (parent : string) (omittable : bool) : M expr :=
  let* e := generate_input_annotation t parent true in
  if omittable && is_nonnull t
  then register_import "typing.Optional" ;; ret (optional_of e)
  else ret e.

(** inputs.py:169-202 generate_input_field_value *)
Definition generate_input_field_value (field_name value_key : string) (omittable : bool)
           (description : option string) : M (option expr) :=
  let has_alias := negb (String.eqb field_name value_key) in
  if negb has_alias && negb (truthy description)
  then ret (if omittable then Some enone else None)
  else
    let keywords := (if has_alias then [("alias", estr value_key)] else [])
                 ++ (if omittable then [("default", enone)] else [])
                 ++ (if truthy description then [("description", estr (opt_str description))] else []) in
    register_import "pydantic.Field" ;; ret (Some (field_call keywords)).

(** inputs.py:252-306 (and the same code at 717-774): one field.  [name] is the class. *)
Definition default_string (d : option pyval) : option string :=
  match d with Some PNone | None => None | Some v => Some (str_of_pyval v) end.
Definition input_omittable (v : inputfield) : bool :=
  match if_default v with Some _ => true | None => negb (is_nonnull (if_type v)) end.
Definition generate_input_field (name value_key : string) (v : inputfield) : M (list stmt) :=
  let field_name := generate_node_name stylers value_key in
  let ds := default_string (if_default v) in
  let omittable := input_omittable v in
  let* a0 := generate_input_field_annotation (if_type v) name omittable in
  let* a := annotate_field_metadata c a0 (option_map estr ds) (if_depr v) in
  let documentation := compose_field_documentation (if_desc v) (if_depr v) ds
                                                   (c_document_field_metadata c) in
  let* value := generate_input_field_value field_name value_key omittable (if_desc v) in
  let assign := SAnn field_name a value in
  ret (if c_document_field_metadata c
          && (truthy (if_depr v) || match ds with Some _ => true | None => false end)
       then [assign; docstring (opt_str documentation)]
       else [assign]).

(** [ast.Name(id=base.split(".")[-1])] for the configured bases *)
Definition input_bases : list expr := map (fun b => EName (last_comp b)) (ic_bases pc).

(** inputs.py:228-247: the Literal field of a discriminator *)
Definition discriminator_field (d : discriminator) : M stmt :=
  register_import "typing.Literal" ;; register_import "pydantic.Field" ;;
  ret (SAnn (di_name d) (literal_of (di_value d))
            (Some (field_call [("default", estr (di_value d))]))).

(** inputs.py:211-339 generate_input_type; with [discriminators = []] also the class built
    at 708-797 *)
(* the set literal of inputs.py:318-329 is rendered as a list *)
Definition post_init (ds : list discriminator) : stmt :=
  SFunc false "model_post_init" (PyArgs [PyArg "self" None; PyArg "context" None] [])
    [SExpr (ECall (EAttr (EAttr (EName "self") "__pydantic_fields_set__") "update")
                  [EList (map (fun d => estr (di_name d)) ds)] [])] None [].
Definition input_class (name key : string) (desc : option string) (fields : list (string * inputfield))
           (additional_bases : list expr) (ds : list discriminator) : M stmt :=
  let* dfs := mmap discriminator_field ds in
  let* fs := mconcat (fun kv =>
                        if mem (generate_node_name stylers (fst kv)) (map di_name ds) then ret []
                        else generate_input_field name (fst kv) (snd kv)) fields in
  let post := match ds with
              | [] => []
              | _ => if String.eqb (c_pydantic_version c) "v2" then [post_init ds] else []
              end in
  let* config := generate_pydantic_config (KT KInput) c (Some key) in
  ret (SClass name (additional_bases ++ input_bases) (class_doc desc :: dfs ++ fs ++ post ++ config) []).
Definition generate_input_type (name key : string) (desc : option string)
           (fields : list (string * inputfield)) (ds : list discriminator) : M stmt :=
  let* additional_bases := get_additional_bases_for_type c key in
  input_class name key desc fields additional_bases ds.

(** inputs.py:342-356 validate_oneof_input_type *)
Definition validate_oneof_input_type (fields : list (string * inputfield)) : M unit :=
  miter (fun kv =>
           if is_nonnull (if_type (snd kv)) then raise GenerationErrorC "non-nullable field"
           else match if_default (snd kv) with
                | Some _ => raise GenerationErrorC "default value"
                | None => ret tt
                end) fields.

(** inputs.py:359-377 get_oneof_member_map *)
Definition get_oneof_member_map (fields : list (string * inputfield)) : option (list (string * string)) :=
  let members := fold_right (fun kv acc =>
      match if_type (snd kv), acc with
      | GNamed n, Some l =>
          match get_type s n with
          | Some (TInput d f dirs) => if is_oneof_input_type (TInput d f dirs) then None
                                      else Some ((fst kv, n) :: l)
          | _ => None
          end
      | _, _ => None
      end) (Some []) fields in
  match members with
  | Some (x :: l) => if nodupb (map snd (x :: l)) then Some (x :: l) else None
  | _ => None
  end.

(** inputs.py:389-405 generate_union_alias.  (With no member the code emits [Union[()]].) *)
Definition generate_union_alias (alias : string) (members : list string) : M stmt :=
  match members with
  | [m] => ret (SAssign (EName alias) (EName m))
  | _ => register_import "typing.Union" ;;
         ret (SAssign (EName alias) (union_of (map EName members)))
  end.

(** inputs.py:408-475 generate_oneof_wrapper_input *)
Definition oneof_wrapper_class (key : string) (additional_bases : list expr) (kv : string * inputfield)
  : M (string * stmt) :=
  let '(value_key, v) := kv in
  let* classname := try_except (generate_inputtype stylers (key +s+ pascal value_key))
                               (is_cls AssertionErrorC)
                               (fun _ => raise GenerationErrorC "Cannot generate wrapper class") in
  let field_name := generate_node_name stylers value_key in
  let* a0 := generate_input_annotation (if_type v) classname false in
  let* a := annotate_field_metadata c a0 None (if_depr v) in
  let doc := if truthy (if_desc v) then opt_str (if_desc v)
             else "'" +s+ value_key +s+ "' variant of the @oneOf input '" +s+ key +s+ "'" in
  let* value := generate_input_field_value field_name value_key false (if_desc v) in
  let* config := generate_pydantic_config (KT KInput) c (Some key) in
  ret (classname,
       SClass classname (additional_bases ++ input_bases)
              (docstring doc :: SAnn field_name a value :: config) []).
Definition generate_oneof_wrapper_input (key : string) (fields : list (string * inputfield)) : M (list stmt) :=
  let* additional_bases := get_additional_bases_for_type c key in
  let* l := mmap (oneof_wrapper_class key additional_bases) fields in
  let* alias := generate_inputtype stylers key in
  let* a := generate_union_alias alias (map fst l) in
  ret (map snd l ++ [a]).

(** inputs.py:478-529 generate_oneof_direct_union: the parsed template *)
Definition serializer_body (key : string) (tags : list (string * string)) : list stmt :=
  [docstring ("Wire serializer for the @oneOf input '" +s+ key +s+ "': wraps the serialized member under its field tag.");
   SAssign (EName "tags") (EDict (map (fun ct => (EName (fst ct), estr (snd ct))) tags));
   SAssign (EName "tag") (ECall (EAttr (EName "tags") "get")
                                [ECall (EName "type") [EName "value"] []] []);
   SIf (ECompare (EName "tag") OpIs enone)
     [SFor false ["member_class"; "member_tag"] (ECall (EAttr (EName "tags") "items") [] [])
        [SIf (ECall (EName "isinstance") [EName "value"; EName "member_class"] [])
           [SAssign (EName "tag") (EName "member_tag"); SBreak]]];
   SIf (ECompare (EName "tag") OpIs enone)
     [SRaise (ECall (EName "ValueError")
                [estr ("is not a member of the @oneOf input '" +s+ key +s+ "'")] [])];
   SReturn (Some (EDict [(EName "tag", ECall (EName "handler") [EName "value"] [])]))].
Definition generate_oneof_direct_union (key : string) (members : list (string * string)) : M (list stmt) :=
  let* alias := generate_inputtype stylers key in
  let serializer := "_serialize_" +s+ camel_to_snake alias in
  let* classes := mmap (fun kv => let* cls := get_inputtype_class (snd kv) in ret (cls, fst kv)) members in
  (if (1 <? length classes)%nat then register_import "typing.Union" else ret tt) ;;
  register_import "typing.Annotated" ;;
  register_import "pydantic.WrapSerializer" ;;
  let union := dedup (map fst classes) in
  let union_expr := if (1 <? length classes)%nat
                    then match union with
                         | [u] => ESub (EName "Union") (EName u)
                         | _ => union_of (map EName union)
                         end
                    else match union with u :: _ => EName u | [] => enone end in
  ret [SFunc false serializer (PyArgs [PyArg "value" None; PyArg "handler" None] [])
             (serializer_body key classes) None [];
       SAssign (EName alias)
         (annotated_of [union_expr; ECall (EName "WrapSerializer") [EName serializer] []])].

(** ** The pre-pass over unionElementOf: inputs.py:556-640 *)
Record prepass : Type := Prepass {
  pp_unions : dict (list string);     (* union_input_types *)
  pp_discr : dict string;             (* union_type_discriminators *)
  pp_types : list string }.           (* union_member_types *)
(** [arg.value.value] (Booleans, which are Python bools there, are rendered as text) *)
Definition arg_value (v : vnode) : res string :=
  match v with
  | VInt x | VFloat x | VString x _ | VEnum x => Ok x
  | VBool true => Ok "True" | VBool false => Ok "False"
  | _ => rraise AttributeErrorC "value"
  end.
Record membership : Set := Membership { mb_union : string; mb_discr : string; mb_key : string }.
(** inputs.py:570-603: one directive *)
Definition read_membership (rf : option refs) (d : directive) (acc : list membership * dict string)
  : res (list membership * dict string) :=
  let '(ms, discr) := acc in
  if negb (String.eqb (dir_name d) "unionElementOf") then Ok acc
  else
    let? args := rmap (fun kv => let? v := arg_value (snd kv) in Ok (fst kv, v)) (dir_args d) in
    let args := dict_of args in
    match dget "union" args, dget "discriminator" args, dget "key" args with
    | Some u, Some dn, Some k =>
        if match rf with Some r => negb (mem u (rf_inputs r)) | None => false end then Ok acc
        else
          match dget u discr with
          | Some dn' => if String.eqb dn' dn then Ok (ms ++ [Membership u dn k], discr)
                        else rraise GenerationErrorC "Discriminator mismatch for union"
          | None => Ok (ms ++ [Membership u dn k], dset u dn discr)
          end
    | _, _, _ => rraise GenerationErrorC "unionElementOf needs 'union', 'discriminator' and 'key' arguments."
    end.
(** inputs.py:608-620 *)
Definition collect_discriminators (ms : list membership) : res (dict string) :=
  rfold (fun m d => match dget (mb_discr m) d with
                    | Some v => if String.eqb v (mb_key m) then Ok (dset (mb_discr m) (mb_key m) d)
                                else rraise GenerationErrorC "conflicting keys"
                    | None => Ok (dset (mb_discr m) (mb_key m) d)
                    end) ms [].
Definition add_member (name : string) (unions : dict (list string)) (m : membership) : dict (list string) :=
  let l := match dget (mb_union m) unions with Some l => l | None => [] end in
  dset (mb_union m) (if mem name l then l else l ++ [name]) unions.

Definition input_types : list (string * inputdef) :=
  flat_map (fun kv => match snd kv with
                      | TInput d f dirs => [(fst kv, InputDef d f dirs)]
                      | _ => []
                      end) (s_types s).

Definition prepass_type (rf : option refs) (acc : prepass * list stmt) (kv : string * inputdef)
  : M (prepass * list stmt) :=
  let '(p, tree) := acc in
  let '(key, t) := kv in
  let* x := lift (rfold (read_membership rf) (id_dirs t) ([], pp_discr p)) in
  let '(ms, discr) := x in
  match ms with
  | [] => ret (Prepass (pp_unions p) discr (pp_types p), tree)
  | _ =>
      let* ds := lift (collect_discriminators ms) in
      let* name := generate_inputtype stylers key in
      let* cls := generate_input_type name key (id_desc t) (id_fields t)
                    (map (fun kv => Discriminator (fst kv) (snd kv)) ds) in
      ret (Prepass (fold_left (add_member name) ms (pp_unions p)) discr (sadd key (pp_types p)),
           tree ++ [cls])
  end.

(** inputs.py:648-797: one type of the main loop; the second component collects the deferred
    direct unions *)
Definition main_type (rf : option refs) (p : prepass)
           (acc : list stmt * list (string * list (string * string))) (kv : string * inputdef)
  : M (list stmt * list (string * list (string * string))) :=
  let '(tree, deferred) := acc in
  let '(key, t) := kv in
  let unreferenced n := match rf with Some r => negb (mem n (rf_inputs r)) | None => false end in
  if mem key (pp_types p) then ret acc
  else if unreferenced key then ret acc
  else if ic_skip_underscore pc && startswith "_" key then ret acc
  else if is_oneof_input_type (TInput (id_desc t) (id_fields t) (id_dirs t)) then
    validate_oneof_input_type (id_fields t) ;;
    let members := if String.eqb (c_pydantic_version c) "v2"
                   then get_oneof_member_map (id_fields t) else None in
    match members with
    | Some ms =>
        if existsb (fun m => unreferenced (snd m) || (ic_skip_underscore pc && startswith "_" (snd m))) ms
        then let* l := generate_oneof_wrapper_input key (id_fields t) in ret (tree ++ l, deferred)
        else ret (tree, deferred ++ [(key, ms)])
    | None => let* l := generate_oneof_wrapper_input key (id_fields t) in ret (tree ++ l, deferred)
    end
  else
    match dget key (pp_unions p) with
    | Some members =>
        register_import "typing.Union" ;; register_import "typing.Annotated" ;;
        register_import "pydantic.Field" ;;
        let* alias := generate_inputtype stylers key in
        ret (tree ++ [SAssign (EName alias)
               (annotated_of [union_of (map EName members);
                              field_call [("discriminator",
                                           estr (match dget key (pp_discr p) with Some d => d | None => "" end))]])],
             deferred)
    | None =>
        let* additional_bases := get_additional_bases_for_type c key in
        let* name := generate_inputtype stylers key in
        let* cls := input_class name key (id_desc t) (id_fields t) additional_bases [] in
        ret (tree ++ [cls], deferred)
    end.

(** inputs.py:532-802 generate_inputs *)
Definition generate_inputs (documents : res document) : M (list stmt) :=
  let* rf := plugin_refs c (ic_skip_unreferenced pc) s documents in
  miter register_import (ic_bases pc) ;;
  let* x := mfold (prepass_type rf) input_types (Prepass [] [] [], []) in
  let* y := mfold (main_type rf (fst x)) input_types (snd x, []) in
  let* l := mconcat (fun km => generate_oneof_direct_union (fst km) (snd km)) (snd y) in
  ret (fst y ++ l).

(** inputs.py:815-824 InputsPlugin.generate_ast *)
Definition inputs_plugin (documents : res document) : M (list stmt) :=
  miter register_import (ic_bases pc) ;; generate_inputs documents.
End Inputs.
