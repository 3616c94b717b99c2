(** C83: docstrings list the parameters and describe them. *)
From Coq Require Import Permutation.
From Verif Require Import Base PyAst Gql Config Stylers Registry Utils Documents Referencer Enums Inputs Funcs InputFuncs Run
  Spec_Names Spec_Funcs Spec_Docstring P_Base P_Docstring Ex_Inputs Ex_Funcs.

(** The docstring of a generated function names the operation and lists every parameter once; the
    entry of a variable has the descriptions of the arguments it is given to, that of an expanded
    field the description of the field.
    Full statement: for all stylers (false, [C83_names_refuted]), without [no_optional_expansion]
    (false, [C83_expanded_refuted]) and without [same_names] (false, [C83_refuted]). *)
Theorem C83_functions_partial : forall c st s pc doc_of o d r a n args body rt decs r', Forall shipped st -> no_optional_expansion (f_expand_input_types pc) (op_vars o) ->
  generate_operation_func c st s pc doc_of o d r = (Ok (SFunc a n args body rt decs), r') ->
  exists name root text rest entries returns, op_name o = Some name /\ root_type s (op_kind o) = Some root
  /\ body = docstring text :: rest /\ docs (name +s+ " " +s+ nl) "Args:" entries (nl +s+ "Returns:" +s+ nl +s+ "    " +s+ returns +s+ nl) text
  /\ Permutation (map fst entries) (map pa_name (a_args args))
  /\ (forall v, In v (op_vars o) -> ~ In (v_name v) (f_expand_input_types pc) -> same_names o -> exists e, In e entries /\ describes st (variable_text s root o) v e)
  /\ (forall v, In v (op_vars o) -> In (v_name v) (f_expand_input_types pc) ->
        forall k y, In (k, y) (input_fields s (v_type v)) -> exists e, In e entries /\ describes_field st k y e).
Proof. exact function_docs. Qed.
Print Assumptions C83_functions_partial.
(** The docstring of a factory names the class and lists every parameter once, in the order of the
    fields, with the descriptions of the fields.  [_partial]: see [C83_names_refuted]. *)
Theorem C83_factories_partial : forall c st s pc key fields r a n args body rt decs r', Forall shipped st -> i_extract_documentation pc = true ->
  generate_input_func c st s pc key fields r = (Ok (SFunc a n args body rt decs), r') ->
  exists cls text rest entries, dget key (r_inputs r) = Some cls /\ body = docstring text :: rest
  /\ docs ("Creates a " +s+ cls) "Arguments:" entries "" text
  /\ Permutation (map fst entries) (map pa_name (a_args args))
  /\ Forall2 (fun kf e => describes_field st (fst kf) (snd kf) e) fields entries.
Proof. exact factory_docs. Qed.
Print Assumptions C83_factories_partial.

(** ** Examples *)
Definition doc_text (f : res stmt) : string := match f_body f with SExpr (EConst (CStr t)) :: _ => t | _ => "" end.
(** query GetUser($filter: Filter!, $first: Int), where the argument [filter] is described *)
Example C83_ex : no_optional_expansion (f_expand_input_types (fx_cfg [])) (op_vars fx_op) /\ same_names fx_op
  /\ map pa_name (a_args (f_args (fx_func (fx_cfg []) fx_op (fx_def OpQuery false "funcs.execute")))) = ["client"; "filter"; "first"; "timeout"]
  /\ doc_text (fx_func (fx_cfg []) fx_op (fx_def OpQuery false "funcs.execute")) =
     "GetUser " +s+ nl +s+ nl +s+ "One user" +s+ nl +s+ nl +s+ "Args:" +s+ nl
     +s+ "    client (rath.Rath): the client" +s+ nl +s+ "    filter (Filter): Which user" +s+ nl
     +s+ "    first (Optional[int], optional): No description. " +s+ nl +s+ "    timeout (int, optional): in seconds" +s+ nl
     +s+ nl +s+ "Returns:" +s+ nl +s+ "    Optional[GetUserUser]" +s+ nl.
Proof.
  split; [intros v _ []|]. split; [|split; vm_compute; reflexivity].
  intros f a v H. vm_compute in H. decompose [or] H; try contradiction; congruence.
Qed.
Definition doc_fields : list (string * inputfield) := [("fullName", InputField (GNonNull (GNamed "String")) None (Some "As in the passport") None); ("age", inp (GNamed "Int"))].
Definition doc_factory (st : list styler) : res stmt :=
  fst (generate_input_func default_config st fx_schema (IfCfg [] [] true true "" true) "Filter" doc_fields fx_reg).
Example C83_factory_ex : map pa_name (a_args (f_args (doc_factory [default_styler]))) = ["full_name"; "age"]
  /\ doc_text (doc_factory [default_styler]) = "Creates a Filter" +s+ nl +s+ nl +s+ "Arguments:" +s+ nl +s+ "    full_name: As in the passport" +s+ nl +s+ "    age: " +s+ nl.
Proof. split; vm_compute; reflexivity. Qed.

(** ** Refutations *)
(** query Users($first: Int) { users(last: $first) }: the variable is given to [last] and described as [first] *)
Definition swap_schema : schema :=
  Schema [("Query", TObject None [] [("users", FieldDef (GNamed "Int") [("first", ArgDef (GNamed "Int") None (Some "from the start")); ("last", ArgDef (GNamed "Int") None (Some "from the end"))] None None [])] []);
          ("Int", TScalar None)] (Some "Query") None None.
Definition swap_op : operation :=
  Operation OpQuery (Some "Users") [VarDef "first" (GNamed "Int") None []] [] [SelField (FieldNode None "users" [("last", VVar "first")] [] None)].
Theorem C83_refuted : exists s o f before after,
  fst (generate_operation_func default_config [default_styler] s (fx_cfg []) no_doc o (fx_def OpQuery false "funcs.execute") (init_reg default_config)) = Ok f
  /\ variable_text s "Query" o "first" = "from the end"
  /\ doc_text (Ok f) = before +s+ "    first (Optional[int], optional): from the start. " +s+ after.
Proof.
  exists swap_schema, swap_op. eexists. exists ("Users " +s+ nl +s+ nl +s+ nl +s+ "Args:" +s+ nl +s+ "    client (rath.Rath): the client" +s+ nl).
  eexists. split; [vm_compute; reflexivity|]. split; vm_compute; reflexivity.
Qed.
(** a styler that adds [p_] to parameters: the docstring of a factory names parameters that it does not have *)
Definition p_styler : styler := Styler ident ident ident ident ident ident (fun n => "p_" +s+ n) ident ident.
Theorem C83_names_refuted : exists st, 
  map pa_name (a_args (f_args (doc_factory st))) = ["fullName"; "age"]
  /\ doc_text (doc_factory st) = "Creates a Filter" +s+ nl +s+ nl +s+ "Arguments:" +s+ nl +s+ "    p_fullName: As in the passport" +s+ nl +s+ "    p_age: " +s+ nl.
Proof. exists [p_styler]. split; vm_compute; reflexivity. Qed.
(** an expanded variable that may be omitted is listed as a parameter and as its fields *)
Theorem C83_expanded_refuted : exists o pc f before after, op_vars o = [VarDef "filters" (GList (GNamed "Filter")) None []] /\ f_expand_input_types pc = ["filters"]
  /\ fx_func pc o (fx_def OpQuery false "funcs.execute") = Ok f
  /\ map pa_name (a_args (f_args (Ok f))) = ["client"; "filters"; "timeout"]
  /\ doc_text (Ok f) = before +s+ "    full_name: " +s+ after.
Proof.
  exists (Operation OpQuery (Some "GetUser") [VarDef "filters" (GList (GNamed "Filter")) None []] [] [SelField fx_field]), (fx_cfg ["filters"]).
  eexists. exists ("GetUser " +s+ nl +s+ nl +s+ "One user" +s+ nl +s+ nl +s+ "Args:" +s+ nl +s+ "    client (rath.Rath): the client" +s+ nl). eexists. split; [reflexivity|]. split; [reflexivity|].
  split; [vm_compute; reflexivity|]. split; vm_compute; reflexivity.
Qed.
