(** C16, C26 - C30, C54: generated functions. *)
From Verif Require Import Base PyAst Gql Config Stylers Registry Utils Funcs PySem Spec_Funcs Ex_Funcs P_Indep P_Funcs P_Funcs2 P_Funcs3.
From Coq Require Import Permutation.

(** ** C26 *)
(** Parameters without default come first, and exactly the optional ones have a default.  For
    every operation, definition and configuration; an optional variable is never expanded here
    (see C28). *)
Theorem C26_signature : forall c st s pc doc_of o d r a n args body rt decs r',
  generate_operation_func c st s pc doc_of o d r = (Ok (SFunc a n args body rt decs), r') ->
  let param := generate_parameter_name st in
  let node := generate_node_name st in
  let expand := f_expand_input_types pc in
  map (fun p => (fst p, match snd p with Some _ => true | None => false end)) (signature args)
  = map (fun x => (x, false)) (required_parameters s param node expand (map fa_key (extra_args pc d)) (filter requiredb (op_vars o)))
    ++ map (fun x => (x, true)) (expanded_names s node expand (filter requiredb (op_vars o)) false
                                 ++ map (fun v => param (v_name v)) (filter (fun v => negb (requiredb v)) (op_vars o))
                                 ++ map fk_key (extra_kwargs pc d))
  /\ length (signature args) = length (a_args args).
Proof. exact signature_C26. Qed.
Print Assumptions C26_signature.
(** Every source of a parameter gives exactly one parameter, so parameters are distinct exactly
    when the sources are.  [_partial]: nothing makes them distinct, see [C26_refuted]. *)
Theorem C26_distinct_partial : forall c st s pc doc_of o d r a n args body rt decs r',
  no_optional_expansion (f_expand_input_types pc) (op_vars o) ->
  generate_operation_func c st s pc doc_of o d r = (Ok (SFunc a n args body rt decs), r') ->
  let sources := parameter_sources s (generate_parameter_name st) (generate_node_name st) (f_expand_input_types pc)
                   (map fa_key (extra_args pc d)) (map fk_key (extra_kwargs pc d)) (op_vars o) in
  Permutation (map pa_name (a_args args)) sources /\ (NoDup (map pa_name (a_args args)) <-> NoDup sources).
Proof. exact distinct_C26. Qed.
Print Assumptions C26_distinct_partial.
Definition q_def : fdef := fx_def OpQuery false "funcs.execute".
Definition aq_def : fdef := fx_def OpQuery true "funcs.aexecute".
Definition s_def : fdef := fx_def OpSubscription false "funcs.subscribe".
Definition fx_f : res stmt := fx_func (fx_cfg ["filter"]) fx_op q_def.
Lemma fx_expand : no_optional_expansion ["filter"] (op_vars fx_op).
Proof. intros v [<-|[<-|[]]] [E|[]]; [split; [eexists|]; reflexivity|discriminate]. Qed.
Example C26_ex :
  map (fun p => (fst p, match snd p with Some _ => true | None => false end)) (signature (f_args fx_f))
    = [("client", false); ("full_name", false); ("age", true); ("first", true); ("timeout", true)]
  /\ no_optional_expansion ["filter"] (op_vars fx_op) /\ NoDup (map pa_name (a_args (f_args fx_f))).
Proof. split; [reflexivity|]. split; [apply fx_expand|]. vm_compute. repeat constructor; cbn; intuition discriminate. Qed.
(** A variable [$age] next to an expanded input with a field [age] gives [age] twice. *)
Definition dup_op : operation :=
  Operation OpQuery (Some "GetUser") [VarDef "filter" (GNonNull (GNamed "Filter")) None []; VarDef "age" (GNamed "Int") None []] []
            [SelField fx_field].
Theorem C26_refuted : exists o pc d a n args body rt decs,
  NoDup (map v_name (op_vars o)) /\ no_optional_expansion (f_expand_input_types pc) (op_vars o)
  /\ fx_func pc o d = Ok (SFunc a n args body rt decs) /\ ~ NoDup (map pa_name (a_args args)).
Proof.
  exists dup_op, (fx_cfg ["filter"]), q_def. do 6 eexists. split; [|split; [|split; [vm_compute; reflexivity|]]].
  - repeat constructor; cbn; intuition discriminate.
  - intros v [<-|[<-|[]]] [E|[]]; [split; [eexists|]; reflexivity|discriminate].
  - vm_compute. intros H. inversion H as [|? ? _ H1]; subst. inversion H1 as [|? ? _ H2]; subst. inversion H2 as [|? ? H3 _]; subst.
    apply H3. now left.
Qed.
Print Assumptions C26_refuted.

(** ** C27 *)
(** Calling the function calls the proxy once with the extra arguments, the operation class and
    the payload; the result, or its only field, is returned.  [_partial]: under [no_clash],
    which the generator does not ensure ([C27_refuted]), and for expansion of required
    variables only (C28). *)
Theorem C27_sends_partial : forall c st s pc doc_of glob subclass call o d r f r' name a n args body rt decs us proxy k pos kws env,
  generate_operation_func c st s pc doc_of o d r = (Ok f, r') -> f = SFunc a n args body rt decs ->
  op_name o = Some name -> no_optional_expansion (f_expand_input_types pc) (op_vars o) ->
  NoDup (map v_name (op_vars o)) ->
  (forall v, In v (op_vars o) -> NoDup (map fst (input_fields s (v_type v)))) ->
  let param := generate_parameter_name st in
  let node := generate_node_name st in
  let u := sentinel_name (c_unset_instance c) in
  let class := operation_class st (op_kind o) name in
  no_clash (map pa_name (a_args args)) (locals param (f_expand_input_types pc) (op_vars o)) [u; last_comp (d_use d); class] ->
  glob u = Some (PVSing us) -> glob (last_comp (d_use d)) = Some (PVFun proxy) -> proxy <> "isinstance" ->
  glob class = Some (PVClass k) ->
  binds glob subclass call args pos kws env ->
  calls_once glob subclass call (optype_eqb (d_kind d) OpSubscription) body env (PVFun proxy)
    (map (argument env) (map fa_key (extra_args pc d))
      ++ [PVClass k; PVDict (payload s param node (f_expand_input_types pc) (PVSing us) (passed args pos kws) (op_vars o))])
    (map (fun k => (k, argument env k)) (map fk_key (extra_kwargs pc d)))
    (collapsed_to node (f_collapse_lonely pc) (op_sels o)).
Proof. exact sends. Qed.
Print Assumptions C27_sends_partial.
(** What that payload contains: each variable at most once under its GraphQL name, with exactly
    the value the caller provided. *)
Theorem C27_payload : forall s param field_param expand unset args vars, NoDup (map v_name vars) ->
  let p := payload s param field_param expand unset args vars in
  NoDup (map fst p)
  /\ (forall k w, In (k, w) p -> exists v, In v vars /\ k = PVConst (CStr (v_name v)))
  /\ forall v w, In v vars -> ~ In (v_name v) expand ->
     (In (PVConst (CStr (v_name v)), w) p <-> provided unset args (requiredb v) (param (v_name v)) w).
Proof. exact payload_C27. Qed.
Print Assumptions C27_payload.
(** Calls [get_user(client, "Ann", first=None)] with [filter] expanded. *)
Definition fx_pos : list pv := [pstr "client"; pstr "Ann"].
Definition fx_kws : dict pv := [("first", PVConst CNone)].
Definition fx_env : dict pv :=
  [("client", pstr "client"); ("full_name", pstr "Ann"); ("age", PVSing "UNSET"); ("first", PVConst CNone); ("timeout", pint 5)].
Lemma fx_binds : binds fx_glob nosub echo (f_args fx_f) fx_pos fx_kws fx_env.
Proof.
  split; [vm_compute; auto| | |]; vm_compute passed; cbn.
  - repeat constructor; cbn; intuition discriminate.
  - intros x [<-|[<-|[<-|[]]]]; vm_compute; auto.
  - vm_compute signature. repeat constructor; vm_compute; eauto.
Qed.
Lemma fx_no_clash : no_clash (map pa_name (a_args (f_args fx_f))) (locals (generate_parameter_name [default_styler]) ["filter"] (op_vars fx_op))
   ["UNSET"; "execute"; "GetUser"].
Proof.
  split.
  - vm_compute. repeat constructor; cbn; intuition discriminate.
  - intros x Hx Hl. vm_compute in Hx, Hl. decompose [or] Hx; decompose [or] Hl; subst; try contradiction; discriminate.
  - intros x Hx. vm_compute in Hx.
    decompose [or] Hx; subst; try contradiction; repeat split; try discriminate; intros H; vm_compute in H; decompose [or] H; try contradiction; discriminate.
  - vm_compute. intuition discriminate.
Qed.
Example C27_ex : binds fx_glob nosub echo (f_args fx_f) fx_pos fx_kws fx_env
  /\ no_clash (map pa_name (a_args (f_args fx_f))) (locals (generate_parameter_name [default_styler]) ["filter"] (op_vars fx_op)) ["UNSET"; "execute"; "GetUser"]
  /\ (forall v, In v (op_vars fx_op) -> NoDup (map fst (input_fields fx_schema (v_type v))))
  /\ payload fx_schema (generate_parameter_name [default_styler]) (generate_node_name [default_styler]) ["filter"] (PVSing "UNSET")
       (passed (f_args fx_f) fx_pos fx_kws) (op_vars fx_op)
     = [(pstr "filter", PVDict [(pstr "fullName", pstr "Ann")]); (pstr "first", PVConst CNone)]
  /\ run_body fx_glob nosub echo (f_body fx_f) fx_env
     = POk (PVMeth (PVTuple [PVFun "execute";
         PVTuple [pstr "client"; PVClass "GetUser"; PVDict [(pstr "filter", PVDict [(pstr "fullName", pstr "Ann")]); (pstr "first", PVConst CNone)]];
         PVTuple [PVTuple [pstr "timeout"; pint 5]]]) "found").
Proof.
  split; [apply fx_binds|]. split; [apply fx_no_clash|]. split; [|split; vm_compute; reflexivity].
  intros v [<-|[<-|[]]]; vm_compute; repeat constructor; cbn; intuition discriminate.
Qed.
(** A subscription yields the results. *)
Definition events (f : pv) (pos : list pv) (kws : list (string * pv)) : PySem.pres pv :=
  POk (PVList [PVObj "Ticks" [("tick", pint 1)]; PVObj "Ticks" [("tick", pint 2)]]).
Example C27_ex_stream :
  run_generator fx_glob nosub events (f_body (fx_func (fx_cfg []) fx_sub s_def)) [("client", pstr "client"); ("timeout", pint 5)]
  = POk [pint 1; pint 2].
Proof. vm_compute. reflexivity. Qed.
(** The local dictionary [variables] overwrites a parameter of that name: the value passed for
    the required variable [$variables] is not sent. *)
Definition var_op : operation :=
  Operation OpQuery (Some "GetUser") [VarDef "variables" (GNonNull (GNamed "Int")) None []] [] [SelField fx_field].
Definition var_pos : list pv := [pstr "client"; pint 3].
Theorem C27_refuted : exists o pc d a n args body rt decs pos env,
  op_vars o = [VarDef "variables" (GNonNull (GNamed "Int")) None []]
  /\ fx_func pc o d = Ok (SFunc a n args body rt decs)
  /\ binds fx_glob nosub echo args pos [] env /\ dget "variables" (passed args pos []) = Some (pint 3)
  /\ run_body fx_glob nosub echo body env
     = POk (PVMeth (PVTuple [PVFun "execute"; PVTuple [pstr "client"; PVClass "GetUser"; PVDict [(pstr "variables", PVDict [])]];
                             PVTuple [PVTuple [pstr "timeout"; pint 5]]]) "found").
Proof.
  exists var_op, (fx_cfg []), q_def. do 6 eexists. exists var_pos, [("client", pstr "client"); ("variables", pint 3); ("timeout", pint 5)].
  split; [reflexivity|]. split; [vm_compute; reflexivity|]. split; [|split; vm_compute; reflexivity].
  split; [vm_compute; auto| | |]; vm_compute passed; cbn.
  - repeat constructor; cbn; intuition discriminate.
  - intros x [<-|[<-|[]]]; vm_compute; auto.
  - vm_compute signature. repeat constructor; vm_compute; eauto.
Qed.
Print Assumptions C27_refuted.

(** ** C28 *)
(** Every field of an expanded variable is a parameter, with a default exactly when it is
    nullable.  [_partial]: required variables only. *)
Theorem C28_parameters_partial : forall c st s pc doc_of o d r a n args body rt decs r',
  no_optional_expansion (f_expand_input_types pc) (op_vars o) ->
  generate_operation_func c st s pc doc_of o d r = (Ok (SFunc a n args body rt decs), r') ->
  forall v key x, In v (op_vars o) -> In (v_name v) (f_expand_input_types pc) -> In (key, x) (input_fields s (v_type v)) ->
  exists default, In (generate_node_name st key, default) (signature args) /\ (default = None <-> exists t, if_type x = GNonNull t).
Proof. exact parameters_C28. Qed.
Print Assumptions C28_parameters_partial.
(** The payload of [C27_sends_partial] holds, under the variable's name, an object with exactly
    the provided fields. *)
Theorem C28_object_partial : forall s param field_param expand unset args vars v, In v vars -> In (v_name v) expand ->
  NoDup (map fst (input_fields s (v_type v))) ->
  exists object, In (PVConst (CStr (v_name v)), PVDict object) (payload s param field_param expand unset args vars)
  /\ NoDup (map fst object)
  /\ (forall k w, In (k, w) object -> exists key x, k = PVConst (CStr key) /\ In (key, x) (input_fields s (v_type v)))
  /\ forall key x w, In (key, x) (input_fields s (v_type v)) ->
     (In (PVConst (CStr key), w) object <-> provided unset args (nonnullb (if_type x)) (field_param key) w).
Proof. exact payload_expanded. Qed.
Print Assumptions C28_object_partial.
Example C28_ex : no_optional_expansion ["filter"] (op_vars fx_op)
  /\ map fst (input_fields fx_schema (GNonNull (GNamed "Filter"))) = ["fullName"; "age"]
  /\ In ("full_name", None) (signature (f_args fx_f)) /\ In ("age", Some (EName "UNSET")) (signature (f_args fx_f)).
Proof. split; [apply fx_expand|]. split; [reflexivity|]. vm_compute. auto. Qed.
(** A list of expanded inputs: the body uses parameters the signature lacks, so every call the
    signature accepts fails. *)
Definition list_op : operation :=
  Operation OpQuery (Some "GetUser") [VarDef "filters" (GList (GNamed "Filter")) None []] [] [SelField fx_field].
Theorem C28_refuted : exists o pc d a n args body rt decs env,
  op_vars o = [VarDef "filters" (GList (GNamed "Filter")) None []] /\ f_expand_input_types pc = ["filters"]
  /\ fx_func pc o d = Ok (SFunc a n args body rt decs)
  /\ ~ In "full_name" (map pa_name (a_args args))
  /\ binds fx_glob nosub echo args [pstr "client"] [] env
  /\ run_body fx_glob nosub echo body env = py_error "NameError".
Proof.
  exists list_op, (fx_cfg ["filters"]), q_def. do 6 eexists. exists [("client", pstr "client"); ("filters", PVSing "UNSET"); ("timeout", pint 5)].
  split; [reflexivity|]. split; [reflexivity|]. split; [vm_compute; reflexivity|]. split; [vm_compute; intuition discriminate|].
  split; [|vm_compute; reflexivity].
  split; [vm_compute; auto| | |]; vm_compute passed; cbn.
  - repeat constructor; cbn; intuition discriminate.
  - intros x [<-|[]]; vm_compute; auto.
  - vm_compute signature. repeat constructor; vm_compute; eauto.
Qed.
Print Assumptions C28_refuted.
(** A nullable expanded input: generation fails. *)
Theorem C28_nullable_refuted : exists o pc d, op_vars o = [VarDef "filter" (GNamed "Filter") None []]
  /\ f_expand_input_types pc = ["filter"] /\ exists e, fx_func pc o d = Err e.
Proof.
  exists (Operation OpQuery (Some "GetUser") [VarDef "filter" (GNamed "Filter") None []] [] [SelField fx_field]), (fx_cfg ["filter"]), q_def.
  split; [reflexivity|]. split; [reflexivity|]. eexists. vm_compute. reflexivity.
Qed.
Print Assumptions C28_nullable_refuted.

(** ** C29 *)
(** One plugin run: the functions are those of each operation and each definition that applies to
    it; a sync and an async definition that agree on kind and parameters give functions that
    differ only in the proxy and in awaiting. *)
Theorem C29_variants : forall c st s pc doc_of ops r fs r', generate_functions c st s pc doc_of ops r = (Ok fs, r') ->
  exists F, fs = flat_map (fun o => map (F o) (definitions_for pc o)) ops
  /\ forall o d1 d2, In o ops -> In d1 (definitions_for pc o) -> In d2 (definitions_for pc o) ->
     d_async d1 = false -> d_async d2 = true -> d_kind d1 = d_kind d2 -> d_args d1 = d_args d2 -> d_kwargs d1 = d_kwargs d2 ->
     variants (last_comp (d_use d1)) (last_comp (d_use d2)) (F o d1) (F o d2).
Proof. exact variants_C29. Qed.
Print Assumptions C29_variants.
Example C29_ex : exists f1 f2 f3,
  fst (generate_functions default_config [default_styler] fx_schema (fx_cfg []) no_doc [fx_op; fx_sub] fx_reg) = Ok [f1; f2; f3]
  /\ variants "execute" "aexecute" f1 f2.
Proof.
  do 3 eexists. split; [vm_compute; reflexivity|].
  eapply (variants_of default_config [default_styler] fx_schema (fx_cfg []) no_doc fx_op q_def aq_def fx_reg _ _ fx_reg);
    [reflexivity|vm_compute; reflexivity|vm_compute; reflexivity|reflexivity..].
Qed.

(** ** C30 *)
(** Calling the factory constructs the class with exactly the provided fields.  [_partial]:
    under [no_clash], see [C30_refuted]. *)
Theorem C30_factory_partial : forall c st s pc glob subclass call n fields r f r' a fn args body rt decs us k cls pos kws env,
  generate_input_func c st s pc n fields r = (Ok f, r') -> f = SFunc a fn args body rt decs ->
  dget n (r_inputs r) = Some cls -> NoDup (map fst fields) ->
  let u := sentinel_name (c_unset_instance c) in
  no_clash (map pa_name (a_args args)) ["data"] [u; cls] ->
  glob u = Some (PVSing us) -> glob cls = Some (PVClass k) ->
  binds glob subclass call args pos kws env ->
  exists sent, run_body glob subclass call body env = call (PVClass k) [] sent
  /\ NoDup (map fst sent) /\ (forall key w, In (key, w) sent -> exists x, In (key, x) fields)
  /\ (forall key x w, In (key, x) fields ->
        (In (key, w) sent <-> provided (PVSing us) (passed args pos kws) (nonnullb (if_type x)) (generate_node_name st key) w))
  /\ (forall key x, In (key, x) fields -> nonnullb (if_type x) = true -> exists w, In (key, w) sent).
Proof. exact factory_C30. Qed.
Print Assumptions C30_factory_partial.
Definition ix_cfg : ifcfg := IfCfg [] [] true true "make_" true.
Definition ix_func (fields : list (string * inputfield)) : res stmt :=
  fst (generate_input_func default_config [default_styler] fx_schema ix_cfg "Filter" fields fx_reg).
Definition ix_fields : list (string * inputfield) := [("fullName", inp (GNonNull (GNamed "String"))); ("age", inp (GNamed "Int"))].
Example C30_ex :
  binds fx_glob nosub echo (f_args (ix_func ix_fields)) [pstr "Ann"] [] [("full_name", pstr "Ann"); ("age", PVSing "UNSET")]
  /\ no_clash (map pa_name (a_args (f_args (ix_func ix_fields)))) ["data"] ["UNSET"; "Filter"]
  /\ run_body fx_glob nosub echo (f_body (ix_func ix_fields)) [("full_name", pstr "Ann"); ("age", PVSing "UNSET")]
     = echo (PVClass "Filter") [] [("fullName", pstr "Ann")].
Proof.
  split; [|split; [|vm_compute; reflexivity]].
  - split; [vm_compute; auto| | |]; vm_compute passed; cbn.
    + repeat constructor; cbn; intuition discriminate.
    + intros x [<-|[]]; vm_compute; auto.
    + vm_compute signature. repeat constructor; vm_compute; eauto.
  - split.
    + vm_compute. repeat constructor; cbn; intuition discriminate.
    + intros x Hx Hl. vm_compute in Hx, Hl. decompose [or] Hx; decompose [or] Hl; subst; try contradiction; discriminate.
    + intros x Hx. vm_compute in Hx.
      decompose [or] Hx; subst; try contradiction; repeat split; try discriminate; intros H; vm_compute in H; decompose [or] H; try contradiction; discriminate.
    + vm_compute. intuition discriminate.
Qed.
(** A required field named [data] is overwritten by the local dictionary. *)
Theorem C30_refuted : exists fields a n args body rt decs env,
  fields = [("data", inp (GNonNull (GNamed "Int")))]
  /\ ix_func fields = Ok (SFunc a n args body rt decs)
  /\ binds fx_glob nosub echo args [pint 3] [] env
  /\ run_body fx_glob nosub echo body env = echo (PVClass "Filter") [] [("data", PVDict [])].
Proof.
  exists [("data", inp (GNonNull (GNamed "Int")))]. do 6 eexists. exists [("data", pint 3)].
  split; [reflexivity|]. split; [vm_compute; reflexivity|]. split; [|vm_compute; reflexivity].
  split; [vm_compute; auto| | |]; vm_compute passed; cbn.
  - repeat constructor; cbn; intuition discriminate.
  - intros x [<-|[]]; vm_compute; auto.
  - vm_compute signature. repeat constructor; vm_compute; eauto.
Qed.
Print Assumptions C30_refuted.

(** ** C16: an aliased field: the annotation and the docstring name different classes *)
Theorem C16_alias_refuted : exists o e l r',
  fst (get_return_type_annotation [default_styler] fx_schema o true fx_reg) = Ok e
  /\ get_return_type_string [default_styler] fx_schema o true fx_reg = (Ok l, r') /\ l <> unparse e.
Proof. exists fx_op. do 3 eexists. split; [vm_compute; reflexivity|]. split; [vm_compute; reflexivity|]. discriminate. Qed.
Print Assumptions C16_alias_refuted.

(** ** C54: functions are not generated for every valid operation *)
(** A list as default value. *)
Theorem C54_list_default_refuted : exists o e,
  op_vars o = [VarDef "ids" (GList (GNamed "Int")) (Some (VList [VInt "1"])) []] /\ fx_func (fx_cfg []) o q_def = Err e.
Proof.
  exists (Operation OpQuery (Some "GetUser") [VarDef "ids" (GList (GNamed "Int")) (Some (VList [VInt "1"])) []] [] [SelField fx_field]).
  eexists. split; [reflexivity|]. vm_compute. reflexivity.
Qed.
Print Assumptions C54_list_default_refuted.
(** A fragment spread as the only selection. *)
Theorem C54_spread_refuted : exists o e, op_sels o = [SelSpread "UserParts" []] /\ fx_func (fx_cfg []) o q_def = Err e.
Proof. exists (Operation OpQuery (Some "GetUser") [] [] [SelSpread "UserParts" []]). eexists. split; [reflexivity|]. vm_compute. reflexivity. Qed.
Print Assumptions C54_spread_refuted.
