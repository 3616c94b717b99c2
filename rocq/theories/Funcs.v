(** turms/plugins/funcs.py and turms/plugins/input_funcs.py.  No proofs in this file.

    Not modelled: the log and the warnings; the text of an operation's comment
    (utils.py:112-150 inspect_operation_for_documentation) is the parameter [doc_of];
    defaults of extra keyword arguments are constants. *)
From Verif Require Import Base PyAst Gql Config Stylers Registry Utils.

(** funcs.py:58-76 *)
Record farg := FArg { fa_key : string; fa_type : string; fa_desc : string }.
Record fkwarg := FKwarg { fk_key : string; fk_type : string; fk_desc : string; fk_default : const }.
Record fdef := FDef {
  d_kind : optype; d_async : bool; d_args : list farg; d_kwargs : list fkwarg; d_use : string }.
(** funcs.py:79-97 FuncsPluginConfig; input_funcs.py:34-48 uses the two coercible maps *)
Record fcfg := FCfg {
  f_prepend_sync : string; f_prepend_async : string; f_collapse_lonely : bool;
  f_global_args : list farg; f_global_kwargs : list fkwarg; f_definitions : list fdef;
  f_extract_documentation : bool; f_expand_input_types : list string;
  f_coercible_scalars : dict string; f_coercible_inputs : dict string }.

Definition optype_eqb (a b : optype) : bool :=
  match a, b with
  | OpQuery, OpQuery | OpMutation, OpMutation | OpSubscription, OpSubscription => true
  | _, _ => false
  end.

Definition load (n : string) : expr := EName n.

Section Funcs.
Variable c : gconfig.
Variable stylers : list styler.
Variable s : schema.
Variable pc : fcfg.

Notation node_name := (generate_node_name stylers).
Notation param_name := (generate_parameter_name stylers).

(** funcs.py:105-124 generate_async_func_name, generate_sync_func_name *)
Definition func_name (is_async : bool) (o : operation) : M string :=
  let* n := from_opt (op_name o) ExceptionC "Operation name is None" in
  ret ((if is_async then f_prepend_async pc else f_prepend_sync pc) +s+ camel_to_snake n).

(** funcs.py:127-159 *)
Definition extra_args (d : fdef) : list farg := f_global_args pc ++ d_args d.
Definition extra_kwargs (d : fdef) : list fkwarg := f_global_kwargs pc ++ d_kwargs d.
Definition pass_args (d : fdef) : list expr := map (fun a => EName (fa_key a)) (extra_args d).
Definition pass_kwargs (d : fdef) : list (option string * expr) :=
  map (fun k => (Some (fk_key k), EName (fk_key k))) (extra_kwargs d).

(** funcs.py:162-183 get_definitions_for_onode *)
Definition definitions_for (o : operation) : list fdef :=
  filter (fun d => optype_eqb (d_kind d) (op_kind o)) (f_definitions pc).

(** funcs.py:320-339 coercible_input_union *)
Definition coercible_input_union (ref : expr) (coercible : string) : M expr :=
  register_import coercible ;; register_import "typing.Union" ;;
  ret (union_of [ref; EName (last_comp coercible)]).

(** funcs.py:186-275 generate_input_annotation *)
Fixpoint generate_input_annotation (t : gty) (is_optional : bool) : M expr :=
  match t with
  | GNonNull t' => generate_input_annotation t' false
  | GList t' =>
      register_import "typing.Iterable" ;;
      (if is_optional then register_import "typing.Optional" else ret tt) ;;
      let* e := generate_input_annotation t' true in
      ret (if is_optional then optional_of (ESub (EName "Iterable") e) else ESub (EName "Iterable") e)
  | GNamed n =>
      match get_type s n with
      | Some (TScalar _) =>
          let* e := match dget n (f_coercible_scalars pc) with
                    | Some t => register_import t ;; ret (EName (last_comp t))
                    | None => reference_scalar n
                    end in
          opt_wrap is_optional e
      | Some (TInput _ _ _) =>
          let* ref := reference_inputtype stylers n "SHOULD_NOT_BE_USED" true in
          let* e := match dget n (f_coercible_inputs pc) with
                    | Some t => coercible_input_union ref t
                    | None => ret ref
                    end in
          opt_wrap is_optional e
      | Some (TEnum _ _) =>
          (if is_optional then register_import "typing.Optional" else ret tt) ;;
          let* e := reference_enum stylers n "SHOULD_NOT_BE_USED" false in
          ret (if is_optional then optional_of e else e)
      | _ => raise NotImplementedErrorC "Unknown input type"
      end
  end.

(** funcs.py:278-303 generate_input_description *)
Fixpoint generate_input_description (t : gty) : M string :=
  match t with
  | GNonNull t' => let* d := generate_input_description t' in ret (d +s+ " (required)")
  | GList t' => let* d := generate_input_description t' in ret (d +s+ " (list)")
  | GNamed n =>
      match get_type s n with
      | Some (TScalar d) | Some (TInput d _ _) => ret (opt_str d)
      | Some (TEnum _ _) => ret n
      | _ => raise NotImplementedErrorC "Unknown input type"
      end
  end.
(** funcs.py:306-317 generate_input_type_descriptions *)
Definition generate_input_type_descriptions (fields : list (string * inputfield)) : M string :=
  let* ls := mmap (fun kf =>
      let* d := if truthy (if_desc (snd kf)) then ret (opt_str (if_desc (snd kf)))
                else generate_input_description (if_type (snd kf)) in
      ret ("    " +s+ param_name (fst kf) +s+ ": " +s+ d +s+ nl)) fields in
  ret (join "" ls).

(** funcs.py:342-371 generate_variable_annotation *)
Definition generate_variable_annotation (t : gty) : M expr :=
  let name := gty_name t in
  if truthy (dget name (f_coercible_scalars pc)) then
    let sc := opt_str (dget name (f_coercible_scalars pc)) in
    register_import sc ;; recurse_type_annotation stylers (Some (EName (last_comp sc))) t true
  else if truthy (dget name (f_coercible_inputs pc)) then
    let* ref := reference_inputtype stylers name "SHOULD_NOT_BE_USED" true in
    let* u := coercible_input_union ref (opt_str (dget name (f_coercible_inputs pc))) in
    recurse_type_annotation stylers (Some u) t true
  else recurse_type_annotation stylers None t true.

(** funcs.py:374-387 unset_union_annotation *)
Definition unset_union_annotation (e : expr) : M expr :=
  register_import "typing.Union" ;;
  let* u := reference_unset_type c in ret (union_of [e; u]).
(** funcs.py:390-401 dict_str_any_annotation *)
Definition dict_str_any_annotation : M expr :=
  register_import "typing.Dict" ;; register_import "typing.Any" ;;
  ret (ESub (EName "Dict") (ETuple [EName "str"; EName "Any"])).

(** Parameters: positional ones, optional ones and the defaults of the latter *)
Record params := Params { p_pos : list pyarg; p_kw : list pyarg; p_def : list expr }.
Definition papp (a b : params) : params :=
  Params (p_pos a ++ p_pos b) (p_kw a ++ p_kw b) (p_def a ++ p_def b).
Definition pnil : params := Params [] [] [].

(** funcs.py:402-443 generate_input_type_params *)
Definition generate_input_type_params (fields : list (string * inputfield)) : M params :=
  mfold (fun acc kf =>
    let t := if_type (snd kf) in
    if is_nonnull t then
      let* a := generate_input_annotation t true in
      ret (papp acc (Params [PyArg (node_name (fst kf)) (Some a)] [] []))
    else
      let* a := generate_input_annotation t true in
      let* u := unset_union_annotation a in
      let* d := reference_unset c in
      ret (papp acc (Params [] [PyArg (node_name (fst kf)) (Some u)] [d])))
    fields pnil.

(** [isinstance(v.type, NonNullTypeNode) and not v.default_value] *)
Definition var_required (v : vardef) : bool :=
  is_nonnull (v_type v) && match v_default v with None => true | Some _ => false end.

(** [client_schema.type_map[v.type.type.name.value]]: the attribute [type] exists on wrappers
    only, the attribute [name] on named nodes only *)
Definition expanded_type (v : vardef) : M typedef :=
  match v_type v with
  | GNonNull (GNamed n) | GList (GNamed n) => from_opt (get_type s n) KeyErrorC n
  | _ => raise AttributeErrorC "type"
  end.
(** [.fields] of a type: enums and scalars have none.  Output types have fields of another
    kind; a variable never has one of those (rule variables_are_input_types). *)
Definition fields_of (t : typedef) : M (list (string * inputfield)) :=
  match t with TInput _ fields _ => ret fields | _ => raise AttributeErrorC "fields" end.

(** funcs.py:446-560 generate_parameters *)
Definition generate_parameters (d : fdef) (o : operation) : M pyargs :=
  let* extra := mmap (fun a => register_import (fa_type a) ;;
                       ret (PyArg (fa_key a) (Some (EName (last_comp (fa_type a)))))) (extra_args d) in
  let arg_vars := filter var_required (op_vars o) in
  let kwarg_vars := filter (fun v => negb (var_required v)) (op_vars o) in
  let* expanded := mfold (fun acc v =>
      if mem (v_name v) (f_expand_input_types pc) then
        let* t := expanded_type v in
        let* fields := fields_of t in
        let* p := generate_input_type_params fields in
        ret (papp acc p)
      else ret acc) arg_vars pnil in
  let* plain := mmap (fun v =>
      let* a := generate_variable_annotation (v_type v) in
      ret (PyArg (param_name (v_name v)) (Some a)))
      (filter (fun v => negb (mem (v_name v) (f_expand_input_types pc))) arg_vars) in
  let* opts := mmap (fun v =>
      let* a := generate_variable_annotation (v_type v) in
      let* u := unset_union_annotation a in
      let* d := reference_unset c in
      ret (PyArg (param_name (v_name v)) (Some u), d)) kwarg_vars in
  let* kws := mmap (fun k => register_import (fk_type k) ;;
      let a := EName (last_comp (fk_type k)) in
      ret (PyArg (fk_key k) (Some (match fk_default k with CNone => optional_of a | _ => a end)),
           EConst (fk_default k))) (extra_kwargs d) in
  ret (PyArgs (extra ++ p_pos expanded ++ plain ++ p_kw expanded ++ map fst opts ++ map fst kws)
              (p_def expanded ++ map snd opts ++ map snd kws)).

(** funcs.py:563-578 _guarded_variable_assign; [assign_item d k p] is [d["k"] = p] *)
Definition assign_item (d key param : string) : stmt := SAssign (ESub (EName d) (estr key)) (EName param).
Definition guarded_assign (d key param : string) : M stmt :=
  let* u := reference_unset c in
  ret (SIf (ECompare (EName param) OpIsNot u) [assign_item d key param]).
(** [d: Dict[str, Any] = {}] *)
Definition new_dict (d : string) : M stmt :=
  let* a := dict_str_any_annotation in ret (SAnn d a (Some (EDict []))).
Definition assign_or_guard (required : bool) (d key param : string) : M stmt :=
  if required then ret (assign_item d key param) else guarded_assign d key param.

(** funcs.py:581-670 generate_variable_assignments *)
Definition variable_assignment (v : vardef) : M (list stmt) :=
  if mem (v_name v) (f_expand_input_types pc) then
    let* t := expanded_type v in
    let* fields := fields_of t in
    let inner := "_" +s+ param_name (v_name v) in
    let* h := new_dict inner in
    let* body := mmap (fun kf => assign_or_guard (is_nonnull (if_type (snd kf))) inner (fst kf) (node_name (fst kf))) fields in
    ret (h :: body ++ [assign_item "variables" (v_name v) inner])
  else
    let* st := assign_or_guard (var_required v) "variables" (v_name v) (param_name (v_name v)) in
    ret [st].
Definition generate_variable_assignments (o : operation) : M (list stmt) :=
  let* h := new_dict "variables" in
  let* body := mconcat variable_assignment (op_vars o) in
  ret (h :: body).

(** funcs.py:677-704 get_operation_class_name *)
Definition get_operation_class_name (o : operation) : M string :=
  let* n := from_opt (op_name o) ExceptionC "Operation name is None" in
  ret (match op_kind o with
       | OpQuery => style_query_class stylers n
       | OpMutation => style_mutation_class stylers n
       | OpSubscription => style_subscription_class stylers n
       end).

(** the first selection as a field: a spread has no [selection_set], an inline fragment no
    [name] *)
Definition first_field (o : operation) : M fieldnode :=
  match op_sels o with
  | [] => raise IndexErrorC ""
  | SelField f :: _ => ret f
  | _ => raise AttributeErrorC "selection_set"
  end.
Definition root_of (o : operation) : M string :=
  from_opt (root_type s (op_kind o)) GraphQLErrorC "Schema is not configured to execute this operation.".
Definition field_type (root : string) (f : fieldnode) : M gty :=
  from_opt (option_map fd_type (get_field_def s root (fn_name f))) AttributeErrorC "type".

(** funcs.py:752-766, 812-826: the class a fragment spread collapses to *)
Definition fragment_class_for (spread : string) (t : gty) : M string :=
  let* impl := get_interface_fragment_implementation_or_none spread (gty_name t) in
  match impl with
  | Some i => ret i
  | None => let* e := reference_fragment stylers spread "" false in name_id e
  end.

(** funcs.py:707-776 get_return_type_annotation *)
Definition get_return_type_annotation (o : operation) (collapse : bool) : M expr :=
  let* o_name := get_operation_class_name o in
  let* root := root_of o in
  if collapse then
    let* single := get_operation_single_or_none (opt_str (op_name o)) in
    match single with
    | Some e => ret e
    | None =>
        let* f := first_field o in
        let* t := field_type root f in
        let plain := recurse_outputtype_annotation stylers s
                       (Some (o_name +s+ py_capitalize (target_from_node f))) t true in
        match non_typename_fields f with
        | [] => recurse_outputtype_annotation stylers s None t true
        | [SelSpread n _] =>
            let* cls := fragment_class_for n t in
            recurse_outputtype_annotation stylers s (Some cls) t true
        | _ => plain
        end
    end
  else ret (EName o_name).

(** funcs.py:779-832 get_return_type_string *)
Definition get_return_type_string (o : operation) (collapse : bool) : M string :=
  let* o_name := get_operation_class_name o in
  let* root := root_of o in
  if collapse then
    let* f := first_field o in
    let* t := field_type root f in
    match non_typename_fields f with
    | [] => recurse_outputtype_label stylers s None t true
    | [SelSpread n _] =>
        let* cls := fragment_class_for n t in
        recurse_outputtype_label stylers s (Some cls) t true
    | _ => recurse_outputtype_label stylers s (Some (o_name +s+ py_capitalize (fn_name f))) t true
    end
  else ret o_name.

(** funcs.py:835-870 estimate_variable_name.  [root = None]: below the first level the code
    passes a field where a type is expected, so that no field is ever found. *)
Definition describe_arg (root : option string) (fname : string) (m : dict string) (arg : string * vnode) : res (dict string) :=
  match snd arg with
  | VVar v =>
      match match root with Some t => get_field_def s t fname | None => None end with
      | None => rraise AttributeErrorC "args"
      | Some fd =>
          match dget v (fd_args fd) with
          | Some a =>
              if truthy (arg_desc a) then
                Ok (dset v (match dget v m with
                            | Some old => old +s+ " AND " +s+ opt_str (arg_desc a)
                            | None => opt_str (arg_desc a)
                            end) m)
              else Ok m
          | None => Ok m
          end
      end
  | _ => Ok m
  end.
Fixpoint rfoldl {A S} (f : S -> A -> res S) (l : list A) (acc : S) : res S :=
  match l with [] => Ok acc | x :: r => let? acc' := f acc x in rfoldl f r acc' end.
Fixpoint estimate_field (root : option string) (f : fieldnode) (m : dict string) {struct f} : res (dict string) :=
  match f with
  | FieldNode _ n args _ sels =>
      let? m1 := rfoldl (describe_arg root n) args m in
      match sels with
      | None => Ok m1
      | Some l =>
          (fix subs (l : list selection) (m : dict string) : res (dict string) :=
             match l with
             | [] => Ok m
             | SelField (FieldNode _ n' _ _ sels') :: r =>
                 let? m' := if String.eqb n' "__typename" then Ok m
                            else match sels' with
                                 | None => Ok m
                                 | Some l' =>
                                     (fix fields (l : list selection) (m : dict string) : res (dict string) :=
                                        match l with
                                        | [] => Ok m
                                        | SelField g :: r' => let? m' := estimate_field None g m in fields r' m'
                                        | _ :: r' => fields r' m
                                        end) l' m
                                 end in
                 subs r m'
             | _ :: r => subs r m
             end) l m1
      end
  end.
Definition estimate_variable_name (o : operation) (root : string) : res (dict string) :=
  rfoldl (fun m sel => match sel with SelField f => estimate_field (Some root) f m | _ => Ok m end) (op_sels o) [].

(** [str(v.default_value.value)]: lists, objects and null have no [value]; a variable cannot
    be a default *)
Definition default_text (v : vnode) : M string :=
  match v with
  | VInt x | VFloat x | VString x _ | VEnum x => ret x
  | VBool b => ret (if b then "True" else "False")
  | VVar _ | VNull | VList _ | VObject _ => raise AttributeErrorC "value"
  end.

(** funcs.py:873-959 generate_query_doc *)
Variable doc_of : operation -> option string.
Definition generate_query_doc (d : fdef) (o : operation) (collapse : bool) : M stmt :=
  let* root := root_of o in
  let* _ := get_operation_class_name o in
  let* return_type := get_return_type_string o collapse in
  let header := opt_str (op_name o) +s+ " " +s+ nl in
  let doc := if f_extract_documentation pc then doc_of o else None in
  let* dmap := lift (estimate_variable_name o root) in
  let* description :=
    if truthy doc then ret (header +s+ opt_str doc)
    else
      let* descs := mfold (fun acc sel =>
          match sel with
          | SelField f =>
              let* fd := from_opt (get_field_def s root (fn_name f)) AttributeErrorC "description" in
              ret (if truthy (fd_desc fd) then dset (target_from_node f) (opt_str (fd_desc fd)) acc else acc)
          | _ => ret acc
          end) (op_sels o) [] in
      let lines := if collapse && (length descs =? 1)%nat then map snd descs
                   else map (fun kv => fst kv +s+ ": " +s+ snd kv) descs in
      ret (join nl (header :: lines)) in
  let extra := map (fun a => "    " +s+ fa_key a +s+ " (" +s+ fa_type a +s+ "): " +s+ fa_desc a +s+ nl) (extra_args d) in
  let* args := mmap (fun v =>
      if mem (v_name v) (f_expand_input_types pc) then
        let* t := expanded_type v in
        let* fields := fields_of t in
        generate_input_type_descriptions fields
      else if var_required v then
        let* l := recurse_type_label stylers None (v_type v) true in
        ret ("    " +s+ param_name (v_name v) +s+ " (" +s+ l +s+ "): "
             +s+ match dget (v_name v) dmap with Some x => x | None => "No description" end +s+ nl)
      else ret "") (op_vars o) in
  let* opts := mmap (fun v =>
      let* l := recurse_type_label stylers None (v_type v) true in
      let* dflt := match v_default v with
                   | None => ret ""
                   | Some x => let* t := default_text x in ret ("Defaults to " +s+ t)
                   end in
      ret ("    " +s+ param_name (v_name v) +s+ " (" +s+ l +s+ ", optional): "
           +s+ match dget (v_name v) dmap with Some x => x | None => "No description" end
           +s+ ". " +s+ dflt +s+ nl)) (filter (fun v => negb (var_required v)) (op_vars o)) in
  let kws := map (fun k => "    " +s+ fk_key k +s+ " (" +s+ fk_type k +s+ ", optional): " +s+ fk_desc k +s+ nl) (extra_kwargs d) in
  ret (docstring (description +s+ nl +s+ nl +s+ "Args:" +s+ nl +s+ join "" extra +s+ join "" args
                  +s+ join "" opts +s+ join "" kws +s+ nl +s+ "Returns:" +s+ nl
                  +s+ "    " +s+ return_type +s+ nl)).

(** funcs.py:962-1222 the call of the proxy function and what is made of its result *)
Definition proxy_call (d : fdef) (o : operation) : M expr :=
  register_import (d_use d) ;;
  let* doc := get_operation_class_name o in
  ret (ECall (EName (last_comp (d_use d))) (pass_args d ++ [EName doc; EName "variables"]) (pass_kwargs d)).
Definition collapsed_attr (o : operation) (collapse : bool) (e : expr) : M expr :=
  if collapse then
    let* f := first_field o in ret (EAttr e (node_name (target_from_node f)))
  else ret e.
Definition call_stmt (d : fdef) (o : operation) (collapse : bool) : M stmt :=
  let* call := proxy_call d o in
  match d_kind d with
  | OpSubscription =>
      let* e := collapsed_attr o collapse (EName "event") in
      ret (SFor (d_async d) ["event"] call [SExpr (EYield e)])
  | _ =>
      let* e := collapsed_attr o collapse (if d_async d then EAwait call else call) in
      ret (SReturn (Some e))
  end.

(** funcs.py:1225-1227 is_collapsable *)
Definition is_collapsable (o : operation) : bool := (length (op_sels o) =? 1)%nat.

(** funcs.py:1230-1347 generate_operation_func *)
Definition generate_operation_func (o : operation) (d : fdef) : M stmt :=
  let collapse := f_collapse_lonely pc && is_collapsable o in
  let* return_type := get_return_type_annotation o collapse in
  let* doc := generate_query_doc d o collapse in
  let* assignments := generate_variable_assignments o in
  let iterator := if d_async d then "AsyncIterator" else "Iterator" in
  (match op_kind o with OpSubscription => register_import ("typing." +s+ iterator) | _ => ret tt end) ;;
  let* name := func_name (d_async d) o in
  let* args := generate_parameters d o in
  let* call := call_stmt d o collapse in
  ret (SFunc (d_async d) name args (doc :: assignments ++ [call])
             (Some (match d_kind d with OpSubscription => ESub (EName iterator) return_type | _ => return_type end)) []).

(** funcs.py:1415-1430: one function per operation and matching definition *)
Definition generate_functions (ops : list operation) : M (list stmt) :=
  mconcat (fun o => mmap (generate_operation_func o) (definitions_for o)) ops.
End Funcs.

(** funcs.py:1384-1430 FuncsPlugin.generate_ast: global coercions, overridden by the plugin's *)
Definition merged_config (c : gconfig) (pc : fcfg) : fcfg :=
  FCfg (f_prepend_sync pc) (f_prepend_async pc) (f_collapse_lonely pc) (f_global_args pc) (f_global_kwargs pc)
       (f_definitions pc) (f_extract_documentation pc) (f_expand_input_types pc)
       (dmerge (c_coercible_scalars c) (f_coercible_scalars pc)) (dmerge (c_coercible_inputs c) (f_coercible_inputs pc)).
Definition funcs_plugin (c : gconfig) (stylers : list styler) (s : schema) (pc : fcfg)
           (doc_of : operation -> option string) (d : document) : M (list stmt) :=
  generate_functions c stylers s (merged_config c pc) doc_of (operations_of d).

(** ** input_funcs.py *)
(** input_funcs.py:34-48 InputFuncsPluginConfig *)
Record ifcfg := IfCfg {
  i_coercible_scalars : dict string; i_coercible_inputs : dict string;
  i_skip_underscore : bool; i_skip_unreferenced : bool; i_prepend : string; i_extract_documentation : bool }.
Section InputFuncs.
Variable c : gconfig.
Variable stylers : list styler.
Variable s : schema.
Variable pc : ifcfg.
(** the part of the configuration the shared helpers look at *)
Definition as_fcfg : fcfg := FCfg "" "a" true [] [] [] true [] (i_coercible_scalars pc) (i_coercible_inputs pc).

(** input_funcs.py:51-138 generate_input_func *)
Definition generate_input_func (typename : string) (fields : list (string * inputfield)) : M stmt :=
  let* class_name := get_inputtype_class typename in
  let fname := i_prepend pc +s+ generate_parameter_name stylers typename in
  let func := if String.eqb fname class_name then fname +s+ "_" else fname in
  let* p := generate_input_type_params c stylers s as_fcfg fields in
  let* doc := if i_extract_documentation pc then
                let* t := generate_input_type_descriptions stylers s fields in
                ret [docstring ("Creates a " +s+ class_name +s+ nl +s+ nl +s+ "Arguments:" +s+ nl +s+ t)]
              else ret [] in
  let* h := new_dict "data" in
  let* body := mmap (fun kf => assign_or_guard c (is_nonnull (if_type (snd kf))) "data" (fst kf)
                                               (generate_node_name stylers (fst kf))) fields in
  ret (SFunc false func (PyArgs (p_pos p ++ p_kw p) (p_def p))
             (doc ++ h :: body ++ [SReturn (Some (ECall (EName class_name) [] [(None, EName "data")]))])
             (Some (EName class_name)) []).

(** input_funcs.py:151-188 generate_input_funcs; [referenced] is the set of referenced inputs
    when unreferenced ones are skipped *)
Definition generate_input_funcs (referenced : option (list string)) : M (list stmt) :=
  mconcat (fun kt =>
    match snd kt with
    | TInput _ fields _ =>
        let skip := match referenced with Some refs => negb (mem (fst kt) refs) | None => false end in
        if skip || (i_skip_underscore pc && startswith "_" (fst kt)) then ret []
        else
          let* m := gets r_inputs in
          if dmem (fst kt) m then let* f := generate_input_func (fst kt) fields in ret [f] else ret []
    | _ => ret []
    end) (s_types s).
End InputFuncs.
