(** The plugins that write client code, with the names their configurations contain. *)
From Verif Require Import Base PyAst Gql Config Stylers Registry Enums Inputs Objects Fragments Operations Funcs InputFuncs Run
  Spec_Naming Spec_Funcs Spec_Scope2 Spec_Syntax.

Section Plugins.
Variable st : list styler.
Variable s : schema.
Variable d : document.

(** the functions of operations have names of Python, and distinct parameters *)
Record funcs_named (pc : fcfg) : Prop := FuncsNamed {
  fn_args : forall def a, In def (f_definitions pc) -> In a (f_global_args pc ++ d_args def) -> pyname (fa_key a) = true /\ py_path (fa_type a) = true;
  fn_kwargs : forall def k, In def (f_definitions pc) -> In k (f_global_kwargs pc ++ d_kwargs def) -> pyname (fk_key k) = true /\ py_path (fk_type k) = true;
  fn_uses : forall def, In def (f_definitions pc) -> py_path (d_use def) = true;
  fn_coercible : forall k p, In (k, p) (f_coercible_scalars pc ++ f_coercible_inputs pc) -> py_path p = true;
  fn_names : forall o n def, In (DOp o) d -> op_name o = Some n -> In def (f_definitions pc) -> d_kind def = op_kind o ->
    pyname ((if d_async def then f_prepend_async pc else f_prepend_sync pc) +s+ camel_to_snake n) = true;
  fn_expanded : forall o, In (DOp o) d -> no_optional_expansion (f_expand_input_types pc) (op_vars o);
  fn_distinct : forall o def, In (DOp o) d -> In def (f_definitions pc) -> d_kind def = op_kind o ->
    NoDup (parameter_sources s (generate_parameter_name st) (generate_node_name st) (f_expand_input_types pc)
             (map fa_key (f_global_args pc ++ d_args def)) (map fk_key (f_global_kwargs pc ++ d_kwargs def)) (op_vars o)) }.
(** and so have the functions of input types *)
Record input_funcs_named (pc : ifcfg) : Prop := InputFuncsNamed {
  in_coercible : forall k p, In (k, p) (i_coercible_scalars pc ++ i_coercible_inputs pc) -> py_path p = true;
  in_names : forall n de fs dirs, In (n, TInput de fs dirs) (s_types s) -> pyname (i_prepend pc +s+ generate_parameter_name st n) = true;
  in_distinct : forall n de fs dirs, In (n, TInput de fs dirs) (s_types s) -> NoDup (map (fun f => generate_node_name st (fst f)) fs) }.
(** types with classes have fields; an interface gets an alias of its own name *)
Record objects_named : Prop := ObjectsNamed {
  ob_interfaces : forall n de is fs, In (n, TInterface de is fs) (s_types s) -> pyname n = true;
  ob_implemented : forall n de is fs dirs i, In (n, TObject de is fs dirs) (s_types s) -> In i is -> pyname i = true;
  ob_extended : forall n de is fs i, In (n, TInterface de is fs) (s_types s) -> In i is -> pyname i = true;
  ob_fields : forall n t, In (n, t) (s_types s) ->
    match t with TObject _ _ fs _ | TInterface _ _ fs => fs <> [] | _ => True end }.
Definition paths (l : list string) : Prop := forall b, In b l -> py_path b = true.

Inductive client_plugin (c : gconfig) : plugin -> Prop :=
| CEnums n pc docs : client_plugin c (Plugin n (enums_plugin c st pc s docs))
| CInputs n pc docs : paths (ic_bases pc) -> client_plugin c (Plugin n (inputs_plugin c st pc s docs))
| CObjects n pc : paths (ob_bases pc) -> objects_named -> client_plugin c (Plugin n (generate_types c st s pc))
| CFragments n pc pf add : paths (fr_bases pc ++ fr_object_bases pc) -> fragment_classes_named s d (style_fragment_class st) ->
    client_plugin c (Plugin n (fragments_plugin c st s pc pf add d))
| COperations n pc po add doc_of :
    paths (o_query_bases pc ++ o_arguments_bases pc ++ o_mutation_bases pc ++ o_subscription_bases pc) -> variables_plain d ->
    client_plugin c (Plugin n (operations_plugin c st s pc po add doc_of d))
| CFuncs n pc doc_of : funcs_named pc -> variables_plain d -> roots_plain s d ->
    client_plugin c (Plugin n (funcs_plugin c st s pc doc_of d))
| CInputFuncs n pc docs : input_funcs_named pc -> client_plugin c (Plugin n (input_funcs_plugin c st pc s docs)).
End Plugins.
