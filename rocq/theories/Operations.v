(** turms/plugins/operations.py.  No proofs in this file.
    [print_operation] is graphql-core's [print_ast]; [add_typename_str] see Inline.v;
    [doc_of] is utils.py:112-150 inspect_operation_for_documentation. *)
From Verif Require Import Base PyAst Gql Config Stylers Registry Utils Recurse Inline.

(** operations.py:40-50 OperationsPluginConfig, and GeneratorConfig.domain (config.py:211).
    [arguments_allow_population_by_field_name] is a bool that the code compares with [None]
    only, so its value does not matter. *)
Record ocfg : Set := OCfg {
  o_query_bases : list string; o_arguments_bases : list string; o_mutation_bases : list string;
  o_subscription_bases : list string; o_create_arguments : bool; o_extract_documentation : bool;
  o_domain : option string }.

Section Operations.
Variable c : gconfig.
Variable stylers : list styler.
Variable s : schema.
Variable pc : ocfg.
Variable print_operation : operation -> string.
Variable add_typename_str : string -> res string.
Variable doc_of : operation -> option string.

(** operations.py:53-96,165-208 get_query_bases, get_mutation_bases, get_arguments_bases,
    get_subscription_bases *)
Definition bases_or_default (bases : list string) : M (list expr) :=
  import_bases (match bases with [] => c_object_bases c | _ => bases end).

(** operations.py:99-162 generate_arguments_config.  The code compares pydantic_version with
    "1" although its values are "v1" and "v2", so the class style is never chosen. *)
Definition generate_arguments_config : M (list stmt) :=
  register_import "pydantic.ConfigDict" ;;
  ret [SAssign (EName "model_config")
         (ECall (EName "ConfigDict") []
            [(Some "populate_by_name",
              match oc_allow_population_by_field_name (c_options c) with Some b => EConst (CBool b) | None => enone end)])].

(** operations.py:301-398: one variable of the Arguments class *)
Definition argument_field (v : vardef) : M stmt :=
  let optional := negb (is_nonnull (v_type v)) || match v_default v with Some _ => true | None => false end in
  let* a := recurse_type_annotation stylers None (v_type v) true in
  let* a := if optional && is_nonnull (v_type v) then register_import "typing.Optional" ;; ret (optional_of a) else ret a in
  let* d := match v_default v with Some d => let* x := lift (parse_value_node d) in ret (Some x) | None => ret None end in
  let* a := annotate_field_metadata c a
              (match d with Some PNone | None => None | Some x => Some (estr (str_of_pyval x)) end) None in
  let name := generate_parameter_name stylers (v_name v) in
  let kws := (if String.eqb (v_name v) name then [] else [("alias", estr (v_name v))])
             ++ (if optional then [("default", enone)] else []) in
  (if String.eqb (v_name v) name then ret tt else register_import "pydantic.Field") ;;
  ret (SAnn name a (match kws with [] => None | _ => Some (field_call kws) end)).

(** operations.py:298-419 *)
Definition arguments_class (o : operation) (name : string) : M (list stmt) :=
  if o_create_arguments pc then
    let* fields := mmap argument_field (op_vars o) in
    let* cfg := generate_arguments_config in
    let* bases := bases_or_default (o_arguments_bases pc) in
    ret [SClass "Arguments" bases (docstring ("Arguments for " +s+ name +s+ " ") :: fields ++ cfg) []]
  else ret [].

(** operations.py:224-240 *)
Definition operation_class (o : operation) (name : string) : M (string * list expr) :=
  match op_kind o with
  | OpMutation => let* n := generate_mutation stylers name in let* b := bases_or_default (o_mutation_bases pc) in ret (n, b)
  | OpSubscription => let* n := generate_subscription stylers name in let* b := bases_or_default (o_subscription_bases pc) in ret (n, b)
  | OpQuery => let* n := generate_query stylers name in let* b := bases_or_default (o_query_bases pc) in ret (n, b)
  end.

(** operations.py:262-289: classes, and the statements of each root field *)
Definition root_item (root cls_name : string) (acc : list stmt * list (list stmt)) (sel : selection)
  : M (list stmt * list (list stmt)) :=
  match sel with
  | SelField g =>
      let* fd := from_opt (get_field_def s root (fn_name g)) AssertionErrorC "Couldn't find field definition" in
      let* r := type_field_node c stylers s g cls_name fd in
      ret (fst acc ++ fst r, snd acc ++ [snd r])
  | _ => raise ValueErrorC "Unsupported selection set node type"
  end.
(** operations.py:211-462 generate_operation *)
Definition generate_operation (o : operation) : M (list stmt) :=
  let* name := from_opt (op_name o) ValueErrorC "Operation name is required. Please provide a name for the operation." in
  let* cb := operation_class o name in
  let* root := from_opt (root_type s (op_kind o)) GraphQLErrorC "Schema is not configured to execute this operation." in
  let doc := if o_extract_documentation pc then doc_of o else None in
  let* r := mfold (root_item root (fst cb)) (op_sels o) ([], []) in
  (match snd r with
   | [SAnn _ a _ :: _] => register_operation_single name a
   | _ => ret tt
   end) ;;
  let* document := replace_iteratively add_typename_str (print_operation o) in
  let* args := arguments_class o name in
  let meta := SClass "Meta" []
     ([docstring ("Meta class for " +s+ name +s+ " "); SAssign (EName "document") (estr document)]
      ++ (if truthy (o_domain pc) then [SAssign (EName "domain") (estr (opt_str (o_domain pc)))] else [])) [] in
  let* cfg := generate_pydantic_config (KOp (op_kind o)) c None in
  ret (fst r ++ [SClass (fst cb) (snd cb)
                  ([docstring (if truthy doc then opt_str doc else "No documentation found for this operation.")]
                   ++ List.concat (snd r) ++ args ++ [meta] ++ cfg) []]).
(** operations.py:466-507 OperationsPlugin.generate_ast, after the documents were parsed *)
Definition operations_plugin (d : document) : M (list stmt) :=
  mconcat generate_operation (operations_of d).
End Operations.
