(** C54: functions are generated for operations; C16: what they return. *)
From Verif Require Import Base PyAst Gql Config Stylers Registry Utils Documents Recurse Referencer Enums Inputs Inline Print Fragments Operations Funcs Run Spec_Mro Spec_Mro2 Spec_Docs Spec_Inline Spec_Types Spec_Valid Spec_ValidDoc Spec_ValidFuncs Spec_Funcs Spec_Return
  P_Base P_Print P_InlineProps P_Total4 P_Total8 P_Total10 P_Return Ex_Select Prop_Inline Prop_Total Prop_TotalDoc.

(** C54: for every valid operation the functions of the configured definitions are generated, in the order of operations
    and definitions, each with the prefix of its kind and the name of the operation.  Proved with the conditions of C59 and the
    following.  Missing: the cases of the refutations below and of [supported_functions]. *)
Theorem C54_functions_partial : forall c st s ec ic fc oc pc doc_of doc_of' d ps add iter skip_forwards, (forall l x, In x (iter l) -> In x l) ->
  valid_schema s -> is_scalar s "String" = true -> plain_inputs s -> scalars_known s (known_scalars c) ->
  valid_document s d -> supported_document s d ps add ->
  (* an enum an input type mentions gets a class, before that of the input type *)
  (c_force_plugin_order c = true -> enums_kept s (fun _ => true) (underscored (ec_skip_underscore ec) (ec_skip_double_underscore ec))
    /\ enums_apart s (style_enum_class st) (map (style_inputtype_class st) (flat_map input_names (s_types s)))
    /\ (ec_skip_unreferenced ec = true -> ic_skip_unreferenced ic = true)) ->
  (* the operations that get functions *)
  forall G, G = (fun o => In o (operations_of d) /\ exists def, In def (f_definitions pc) /\ d_kind def = op_kind o) ->
  (* the types of variables are known, not left out, and have a name *)
  (forall o v n, In o (operations_of d) -> o_create_arguments oc = true \/ G o -> In v (op_vars o) -> n = gty_name (v_type v) ->
    (is_scalar s n = true -> In n (known_scalars c))
    /\ (is_input s n = true -> (ic_skip_underscore ic && startswith "_" n) = false /\ style_inputtype_class st n <> "")
    /\ (is_enum s n = true -> underscored (ec_skip_underscore ec) (ec_skip_double_underscore ec) n = false /\ style_enum_class st n <> "")) ->
  supported_functions s d G (f_collapse_lonely pc) (f_expand_input_types pc) ->
  (* so have the other enums a function mentions; they are not called like a built-in *)
  (forall o e, G o -> function_enum s (f_collapse_lonely pc) (f_expand_input_types pc) o e ->
    underscored (ec_skip_underscore ec) (ec_skip_double_underscore ec) e = false /\ ~ In e built_in_keys
    /\ style_enum_class st e <> "" /\ style_enum_class st e <> "SHOULD_NOT_BE_USED") ->
  (* the classes of results and fragments have a name *)
  (forall o n, G o -> op_name o = Some n -> Spec_Funcs.operation_class st (op_kind o) n <> "") ->
  (forall f, In f (fragments_of d) -> style_fragment_class st (fr_name f) <> "") ->
  exists pre fs post, generate_ast c iter [Plugin "EnumsPlugin" (enums_plugin c st ec s (Ok d)); Plugin "InputsPlugin" (inputs_plugin c st ic s (Ok d));
    Plugin "FragmentsPlugin" (fragments_plugin c st s fc (print_fragment ps) add d); Plugin "OperationsPlugin" (operations_plugin c st s oc (print_operation ps) add doc_of d);
    Plugin "FuncsPlugin" (funcs_plugin c st s pc doc_of' d)] skip_forwards = Ok (pre ++ fs ++ post)
  /\ map function_head fs = flat_map (fun o => map (fun def => option_map (fun n => (d_async def, (if d_async def then f_prepend_async pc else f_prepend_sync pc) +s+ camel_to_snake n)) (op_name o))
       (filter (fun def => optype_eqb (d_kind def) (op_kind o)) (f_definitions pc))) (operations_of d).
Proof. exact functions_ast_total. Qed.
Print Assumptions C54_functions_partial.

(** C16: a generated function returns the result class of its operation, or, if collapsed, the only attribute of that
    class, annotated like the attribute.  Missing: that the docstring says the same (refuted in Prop_Funcs). *)
Theorem C16_returns_partial : forall c st s oc pc po add doc_of doc_of' d r cs r1 fs r2, NoDup (map op_name (operations_of d)) ->
  operations_plugin c st s oc po add doc_of d r = (Ok cs, r1) -> funcs_plugin c st s pc doc_of' d r1 = (Ok fs, r2) ->
  exists F, fs = flat_map (fun o => map (F o) (filter (fun def => optype_eqb (d_kind def) (op_kind o)) (f_definitions pc))) (operations_of d)
  /\ forall o def, In o (operations_of d) -> In def (f_definitions pc) -> d_kind def = op_kind o ->
     exists n, op_name o = Some n /\ returns_result cs (Spec_Funcs.operation_class st (op_kind o) n) (op_kind o) (f_collapse_lonely pc && (length (op_sels o) =? 1)%nat) (F o def).
Proof. exact functions_return. Qed.
Print Assumptions C16_returns_partial.

(** ** Example: collapsed results of object and enum type, an expanded variable, a mutation *)
Definition vf : schema := Schema
  (("Mutation", TObject None [] [("put", FieldDef (GNamed "User") [("by", ArgDef (GNonNull (GNamed "Filter")) None None)] None None []); ("count", out (GNamed "Int"))] []) :: s_types vx) (Some "Query") (Some "Mutation") None.
Definition vf_defs : list fdef := [FDef OpQuery false [] [] "rath.query"; FDef OpQuery true [] [] "rath.aquery"; FDef OpMutation false [] [] "rath.put"].
Definition vf_pc (collapse : bool) (expand : list string) : fcfg := FCfg "" "a" collapse [] [] vf_defs true expand [] [].
Definition func_run (c : gconfig) (s : schema) (pc : fcfg) (d : document) : res (list stmt) :=
  generate_ast c (fun l => l) [Plugin "EnumsPlugin" (enums_plugin c sst default_enums_config s (Ok d)); Plugin "InputsPlugin" (inputs_plugin c sst default_inputs_config s (Ok d));
    Plugin "FragmentsPlugin" (fragments_plugin c sst s (FrCfg [] [] None true true) (print_fragment no_strings) (add_for d) d);
    Plugin "OperationsPlugin" (operations_plugin c sst s sx_pc (print_operation no_strings) (add_for d) (fun _ => None) d);
    Plugin "FuncsPlugin" (funcs_plugin c sst s pc (fun _ => None) d)] false.
Definition put : fieldnode := FieldNode None "put" [("by", VVar "by")] [] (Some [plain "id"]).
Definition vf_doc : document :=
  [DFrag (Fragment "Person" "User" [] [plain "id"; SelField (sub "friends" [plain "id"])]);
   DOp (Operation OpQuery (Some "GetMe") [VarDef "limit" (GNamed "Int") (Some (VInt "3")) []] [] [SelField (sub "me" [spread "Person"])]);
   DOp (Operation OpQuery (Some "Colors") [] [] [plain "color"]);
   DOp (Operation OpMutation (Some "Put") [VarDef "by" (GNonNull (GNamed "Filter")) None []; VarDef "color" (GNamed "Color") None []] [] [SelField put; plain "count"])].
Lemma vf_supported : supported_document vf vf_doc no_strings (add_for vf_doc).
Proof.
  split.
  - intros o Ho. by_elem Ho; subst o; eexists; reflexivity.
  - intros o x root Ho R Hx. by_elem Ho; subst o; injection R as <-; by_elem Hx; subst x; (split; [eexists; reflexivity|reflexivity]).
  - intros o v x Ho Hv. by_elem Ho; subst o; by_elem Hv; subst v; cbn; intros [= <-]; reflexivity.
  - intros f Hf. by_elem Hf; subst f; reflexivity.
  - intros f n Hf Hs. apply (spreads_list no_strings) in Hs. by_elem Hf; subst f; by_elem Hs.
  - intros f Hf. by_elem Hf; subst f; (split; [readable|reflexivity]).
  - intros o Ho. by_elem Ho; subst o; readable.
Qed.
Definition vf_G (o : operation) : Prop := In o (operations_of vf_doc) /\ exists def, In def (f_definitions (vf_pc true ["by"])) /\ d_kind def = op_kind o.
Example C54_ex : valid_schema vf /\ is_scalar vf "String" = true /\ plain_inputs vf /\ scalars_known vf (known_scalars with_documents)
  /\ valid_document vf vf_doc /\ supported_document vf vf_doc no_strings (add_for vf_doc)
  /\ enums_kept vf (fun _ => true) (underscored true true)
  /\ enums_apart vf (style_enum_class sst) (map (style_inputtype_class sst) (flat_map input_names (s_types vf)))
  /\ (forall o v n, In o (operations_of vf_doc) -> In v (op_vars o) -> n = gty_name (v_type v) ->
    (is_scalar vf n = true -> In n (known_scalars with_documents)) /\ (is_input vf n = true -> startswith "_" n = false /\ style_inputtype_class sst n <> "")
    /\ (is_enum vf n = true -> underscored true true n = false /\ style_enum_class sst n <> ""))
  /\ supported_functions vf vf_doc vf_G true ["by"]
  /\ (forall o e, vf_G o -> function_enum vf true ["by"] o e -> underscored true true e = false /\ ~ In e built_in_keys /\ style_enum_class sst e <> "" /\ style_enum_class sst e <> "SHOULD_NOT_BE_USED")
  /\ (forall o n, vf_G o -> op_name o = Some n -> Spec_Funcs.operation_class sst (op_kind o) n <> "")
  /\ (forall f, In f (fragments_of vf_doc) -> style_fragment_class sst (fr_name f) <> "")
  /\ exists l, func_run with_documents vf (vf_pc true ["by"]) vf_doc = Ok l
     /\ flat_map (fun x => match function_head x with Some h => [h] | None => [] end) l = [(false, "get_me"); (true, "aget_me"); (false, "colors"); (true, "acolors"); (false, "put")].
Proof.
  split; [now apply valid_b_ok|]. split; [reflexivity|]. split; [|split; [|split; [|split; [exact vf_supported|split; [|split; [|split; [|split; [|split; [|split; [|split]]]]]]]]]].
  - split; [apply nodupb_NoDup; reflexivity|]. split.
    + intros k d fs ds f fd H O Hf. cbn in H. repeat (destruct H as [H|H]; [try discriminate H|]); [|contradiction]. injection H as <- <- <- <-. discriminate O.
    + intros k d fs ds x H Hx. cbn in H. repeat (destruct H as [H|H]; [try discriminate H|]); [|contradiction]. injection H as <- <- <- <-. destruct Hx.
  - intros k t n H Hn E. by_type H; by_elem Hn; subst n; try discriminate E; vm_compute; tauto.
  - apply (valid_doc_ok _ _ (rank_in ["Person"])). reflexivity.
  - intros k t n H _ Hn E. by_type H; by_elem Hn; subst n; try discriminate E; reflexivity.
  - intros n E H. unfold is_enum in E. destruct (get_type vf n) as [t|] eqn:G; [|discriminate]. apply dget_Some_In in G. by_type G; try discriminate E. vm_compute in H. intuition discriminate.
  - intros o v n Ho Hv ->. by_elem Ho; subst o; by_elem Hv; subst v; vm_compute; repeat split; try discriminate; tauto.
  - split.
    + intros o f (Ho & _) Hf. by_elem Ho; subst o; by_elem Hf; injection Hf as <-; reflexivity.
    + intros o v x (Ho & _) Hv. by_elem Ho; subst o; by_elem Hv; subst v; cbn; intros [= <-]; reflexivity.
    + intros o v (Ho & _) Hv Hx. by_elem Ho; subst o; by_elem Hv; subst v; by_elem Hx; try discriminate Hx. exists "Filter". split; [now left|reflexivity].
    + intros o f root t (Ho & _) _ Hs R Ft. by_elem Ho; subst o; try discriminate Hs; injection Hs as <-; injection R as <-; injection Ft as <-; [|reflexivity].
      intros g Hg. injection Hg as <-. discriminate.
  - intros o e (Ho & _) (E & H). unfold is_enum in E. destruct (get_type vf e) as [t|] eqn:G; [|discriminate]. apply dget_Some_In in G. by_type G; try discriminate E. vm_compute. intuition discriminate.
  - intros o n (Ho & _) Hn. by_elem Ho; subst o; injection Hn as <-; discriminate.
  - intros f Hf. by_elem Hf; subst f; discriminate.
  - eexists. split; [vm_compute; reflexivity|]. reflexivity.
Qed.
(** the collapsed functions and the results they are annotated with *)
Example C16_returns_ex : exists l, func_run with_documents vf (vf_pc true ["by"]) vf_doc = Ok l
  /\ flat_map (fun x => match x with SFunc _ n _ _ (Some t) _ => [(n, unparse t)] | _ => [] end) l
     = [("get_me", "Person"); ("aget_me", "Person"); ("colors", "Optional[List[Color]]"); ("acolors", "Optional[List[Color]]"); ("put", "Put")].
Proof. eexists. split; [vm_compute; reflexivity|]. vm_compute. reflexivity. Qed.

(** ** Refutations: valid documents for which classes are generated, but not the functions *)
Definition tree (s : string) (l : list selection) : fieldnode := FieldNode None s [("n", VVar "n")] [] (Some l).
Definition vt : schema := Schema
  [("Query", TObject None [] [("tree", out (GNamed "Tree")); ("kind", out (GNamed "UNSET"))] []);
   ("Tree", TObject None [] [("below", FieldDef (GNamed "Tree") [("n", ArgDef (GNamed "Int") None None)] None None []); ("size", out (GNamed "Int"))] []);
   ("UNSET", TEnum None [("A", EnumVal "A" None None)]); ("String", TScalar None); ("Int", TScalar None)] (Some "Query") None None.
Definition refutes_functions (s : schema) (d : document) : Prop :=
  valid_schema s /\ valid_document s d /\ (exists l, doc_run with_documents s d = Ok l) /\ fails (func_run with_documents s (vf_pc true []) d).
Ltac refute_f r := split; [now apply valid_b_ok|split; [now apply (valid_doc_ok _ _ (rank_in r))|split; eexists; vm_compute; reflexivity]].
(** null as default value *)
Theorem C54_null_default_refuted : refutes_functions vf [DOp (sx_op [VarDef "x" (GNamed "Int") (Some VNull) []] [plain "count"])].
Proof. refute_f (@nil string). Qed.
Print Assumptions C54_null_default_refuted.
(** a variable as argument of a field three levels down; two levels down is fine *)
Theorem C54_depth_refuted :
  refutes_functions vt [DOp (sx_op [VarDef "n" (GNamed "Int") None []] [SelField (sub "tree" [SelField (sub "below" [SelField (tree "below" [plain "size"])])])])]
  /\ exists l, func_run with_documents vt (vf_pc true []) [DOp (sx_op [VarDef "n" (GNamed "Int") None []] [SelField (sub "tree" [SelField (tree "below" [plain "size"])])])] = Ok l.
Proof. split; [refute_f (@nil string)|eexists; vm_compute; reflexivity]. Qed.
Print Assumptions C54_depth_refuted.
(** of the only field nothing but __typename *)
Theorem C54_typename_refuted : refutes_functions vf [query [SelField (sub "me" [plain "__typename"])]].
Proof. refute_f (@nil string). Qed.
Print Assumptions C54_typename_refuted.
(** a fragment on an interface that makes up the selection on a union *)
Theorem C54_union_spread_refuted : refutes_functions vf [DFrag (Fragment "Whole" "Node" [] [plain "id"]); query [SelField (sub "hit" [spread "Whole"])]].
Proof. refute_f ["Whole"]. Qed.
Print Assumptions C54_union_spread_refuted.
(** an enum called like one of the generator's built-ins *)
Theorem C54_builtin_enum_refuted : refutes_functions vt [query [plain "kind"]].
Proof. refute_f (@nil string). Qed.
Print Assumptions C54_builtin_enum_refuted.
