(** C20, C21: the names a generated module looks up are bound. *)
From Verif Require Import Base PyAst Gql Config Stylers Registry Utils Referencer Enums Inputs Funcs Recurse Operations Run
  Spec_Types Spec_Inputs Spec_Refs Spec_Imports Spec_Scope P_Base P_InputProps P_Scope4 Ex_Inputs Ex_Funcs.

(** C20.  The module of the enum and the input plugin, for every iteration order of sets: run
    from top to bottom, with the builtins of Python bound to start with, it looks up bound names
    only; a class that quotes a name is rebuilt further down, when the name is bound; only
    classes defined further up are rebuilt.  [bi] are the builtins of Python, [a] and [b] the
    names of the plugins.  Missing for the full property: schemas with input types that are
    skipped although another input type has a field of them, and [force_plugin_order: false];
    see the refutations. *)
Theorem C20_inputs_partial : forall bi c st ec pc s documents iter t,
  incl simple_types bi ->
  (forall n x, dget n (r_scalars (init_reg c)) = Some x -> has_dot x = false -> In x bi) ->
  c_force_plugin_order c = true -> NoDup (dkeys (s_types s)) -> set_order iter ->
  inputs_available (ic_skip_underscore pc) (skipping c (ic_skip_unreferenced pc)) s documents ->
  forall a b,
  generate_ast c iter [Plugin a (enums_plugin c st ec s documents); Plugin b (inputs_plugin c st pc s documents)] false = Ok t ->
  scoped (fun n => In n bi) t /\ quotes_resolved (fun n => In n bi) t /\ rebuilds_defined t.
Proof. exact module_scope. Qed.
Print Assumptions C20_inputs_partial.
Definition with_documents (force : bool) : gconfig :=
  GConfig "v2" (Some "graphql/*.graphql") ["pydantic.BaseModel"] None true false [] [] [] None None true None None
          default_freeze true default_options false [] [] force [] true true
          "api" "schema.py" false "schema.graphql" false "project.json".
Definition scope_module (c : gconfig) (ec : enums_config) (pc : inputs_config) (s : schema) (d : res document) : res (list stmt) :=
  generate_ast c (@rev string)
    [Plugin "EnumsPlugin" (enums_plugin c ex_stylers ec s d); Plugin "InputsPlugin" (inputs_plugin c ex_stylers pc s d)] false.
Definition py_builtins : list string := simple_types ++ ["object"; "set"; "bytes"; "type"; "property"; "super"; "Exception"].
Lemma scope_scalars : forall force n x, dget n (r_scalars (init_reg (with_documents force))) = Some x -> has_dot x = false -> In x py_builtins.
Proof.
  intros force n x H D. apply dget_Some_In in H. vm_compute in H.
  repeat (destruct H as [H|H]; [injection H as <- <-; try discriminate D; vm_compute; tauto|]). contradiction.
Qed.
(** two levels of references: the document needs Filter (which refers to itself and to Color),
    ById and ByName are left out *)
Example C20_ex : inputs_available true (skipping (with_documents true) true) ref_schema (Ok ref_doc)
  /\ NoDup (dkeys (s_types ref_schema)) /\ incl simple_types py_builtins
  /\ exists t, scope_module (with_documents true) default_enums_config default_inputs_config ref_schema (Ok ref_doc) = Ok t
       /\ map bound_by (skipn 3 t) = [["GraphQLDefault"]; ["Color"]; ["Filter"]; []]
       /\ exists pre b body d, t = pre ++ [SClass "Filter" b body d; SExpr (ECall (EAttr (EName "Filter") "model_rebuild") [] [])]
            /\ In "Filter" (class_quotes body).
Proof.
  split; [|split; [|split]].
  - split.
    + intros _ n (d & f & di & H). apply dget_Some_In in H.
      repeat (destruct H as [H|H]; [try discriminate H; injection H as <- _ _ _; reflexivity|]). contradiction.
    + intros _ d [= <-]. split; [split; repeat constructor; cbn; intuition discriminate|].
      intros key t u dn k kv Hin (x & Hx & _). exfalso.
      repeat (destruct Hin as [Hin|Hin]; [injection Hin as <- <-; destruct Hx|]). contradiction.
  - apply nodupb_NoDup. vm_compute. reflexivity.
  - apply incl_appl, incl_refl.
  - eexists. split; [vm_compute; reflexivity|]. split; [reflexivity|].
    eexists (_ :: _ :: _ :: _ :: _ :: []), _, _, _. split; [reflexivity|]. vm_compute. now left.
Qed.
(** an input type with a leading underscore is skipped, but a field of that type stays *)
Definition skipped_schema : schema :=
  Schema (scalars ++ [("A", TInput None [("b", fld (ty "_B"))] []); ("_B", TInput None [("x", fld (ty "Int"))] [])]) None None None.
Theorem C20_underscore_refuted : exists s t,
  scope_module default_config default_enums_config default_inputs_config s (Ok []) = Ok t
  /\ (exists b body d, In (SClass "A" b body d) t /\ In "_B" (class_quotes body)) /\ ~ In "_B" (binds t)
  /\ ~ quotes_resolved (fun n => In n py_builtins) t.
Proof.
  exists skipped_schema. eexists. split; [vm_compute; reflexivity|].
  match goal with |- (exists b body d, In _ ?t /\ _) /\ _ /\ _ => set (m := t) end.
  assert (A : exists b body d, In (SClass "A" b body d) m /\ In "_B" (class_quotes body)).
  { eexists _, _, _. split; [unfold m; cbn; do 3 right; left; reflexivity|]. now left. }
  assert (B : ~ In "_B" (binds m)) by (vm_compute; intuition discriminate).
  split; [exact A|]. split; [exact B|]. intros H. destruct A as (b & body & d & A1 & A2).
  destruct (resolved_bound _ _ H _ _ _ _ _ A1 A2) as [X|X]; [vm_compute in X; intuition discriminate|exact (B X)].
Qed.
Print Assumptions C20_underscore_refuted.
(** the members of a needed union are generated, the types of their fields are not *)
Definition member_schema : schema :=
  Schema (scalars ++ [shape; ("Point", TInput None [("x", fld (ty "Int"))] []);
     ("Circle", TInput None [("kind", fld (req (ty "String"))); ("center", fld (ty "Point"))] [element_of "Shape" "kind" "circle"]);
     ("Query", TObject None [] [("count", FieldDef (ty "Int") [("shape", ArgDef (ty "Shape") None None)] None None [])] [])])
    (Some "Query") None None.
(** query Count($shape: Shape) { count(shape: $shape) } *)
Definition member_doc : document :=
  [op_with "Count" [VarDef "shape" (ty "Shape") None []] [SelField (FieldNode None "count" [("shape", VVar "shape")] [] None)]].
Theorem C20_union_member_refuted : exists s d t, unique_names d
  /\ scope_module (with_documents true) default_enums_config default_inputs_config s (Ok d) = Ok t
  /\ (exists b body dd, In (SClass "Circle" b body dd) t /\ In "Point" (class_quotes body)) /\ ~ In "Point" (binds t)
  /\ ~ quotes_resolved (fun n => In n py_builtins) t.
Proof.
  exists member_schema, member_doc. eexists. split; [split; repeat constructor; cbn; intuition discriminate|]. split; [vm_compute; reflexivity|].
  match goal with |- (exists b body d, In _ ?t /\ _) /\ _ /\ _ => set (m := t) end.
  assert (A : exists b body d, In (SClass "Circle" b body d) m /\ In "Point" (class_quotes body)).
  { eexists _, _, _. split; [unfold m; cbn; do 3 right; left; reflexivity|]. now left. }
  assert (B : ~ In "Point" (binds m)) by (vm_compute; intuition discriminate).
  split; [exact A|]. split; [exact B|]. intros H. destruct A as (b & body & d & A1 & A2).
  destruct (resolved_bound _ _ H _ _ _ _ _ A1 A2) as [X|X]; [vm_compute in X; intuition discriminate|exact (B X)].
Qed.
Print Assumptions C20_union_member_refuted.

(** [force_plugin_order: false]: an enum without class is quoted *)
Definition enum_schema : schema :=
  Schema (scalars ++ [("_E", TEnum None [("X", EnumVal "X" None None)]); ("A", TInput None [("e", fld (ty "_E"))] [])]) None None None.
Theorem C20_plugin_order_refuted : exists s t, inputs_available true false s (Ok [])
  /\ scope_module (with_documents false) (EnumsConfig true true false) ex_plugin s (Ok []) = Ok t
  /\ (exists b body d, In (SClass "A" b body d) t /\ In "_E" (class_quotes body)) /\ ~ In "_E" (binds t)
  /\ ~ quotes_resolved (fun n => In n py_builtins) t.
Proof.
  exists enum_schema. eexists. split.
  { split; [|discriminate]. intros _ n (d & f & di & H). apply dget_Some_In in H.
    repeat (destruct H as [H|H]; [try discriminate H; injection H as <- _ _ _; reflexivity|]). contradiction. }
  split; [vm_compute; reflexivity|].
  match goal with |- (exists b body d, In _ ?t /\ _) /\ _ /\ _ => set (m := t) end.
  assert (A : exists b body d, In (SClass "A" b body d) m /\ In "_E" (class_quotes body)).
  { eexists _, _, _. split; [unfold m; cbn; do 3 right; left; reflexivity|]. now left. }
  assert (B : ~ In "_E" (binds m)) by (vm_compute; intuition discriminate).
  split; [exact A|]. split; [exact B|]. intros H. destruct A as (b & body & d & A1 & A2).
  destruct (resolved_bound _ _ H _ _ _ _ _ A1 A2) as [X|X]; [vm_compute in X; intuition discriminate|exact (B X)].
Qed.
Print Assumptions C20_plugin_order_refuted.

(** C21, for the enum and the input plugin.  Missing: the other plugins, see the refutation. *)
Theorem C21_inputs_partial : forall bi c st ec pc s documents iter t,
  incl simple_types bi ->
  (forall n x, dget n (r_scalars (init_reg c)) = Some x -> has_dot x = false -> In x bi) ->
  c_force_plugin_order c = true -> NoDup (dkeys (s_types s)) -> set_order iter ->
  inputs_available (ic_skip_underscore pc) (skipping c (ic_skip_unreferenced pc)) s documents ->
  forall a b,
  generate_ast c iter [Plugin a (enums_plugin c st ec s documents); Plugin b (inputs_plugin c st pc s documents)] false = Ok t ->
  rebuilds_defined t.
Proof. intros bi c st ec pc s documents iter t H1 H2 H3 H4 H5 H6 a b H7. exact (proj2 (proj2 (module_scope bi c st ec pc s documents iter t H1 H2 H3 H4 H5 H6 a b H7))). Qed.
Print Assumptions C21_inputs_partial.
(** The function plugin expands [$filter: Filter!] into the fields of Filter; one of them has an
    input type without a class, for which the class name "SHOULD_NOT_BE_USED" is recorded. *)
Definition expand_schema : schema :=
  Schema (scalars ++ [("Query", TObject None [] [("count", FieldDef (ty "Int") [("filter", ArgDef (req (ty "Filter")) None None)] None None [])] []);
                      ("Filter", TInput None [("sub", fld (ty "_Sub"))] []); ("_Sub", TInput None [("x", fld (ty "Int"))] [])])
    (Some "Query") None None.
(** query Count($filter: Filter!) { count(filter: $filter) } *)
Definition expand_doc : document :=
  [op_with "Count" [VarDef "filter" (req (ty "Filter")) None []] [SelField (FieldNode None "count" [("filter", VVar "filter")] [] None)]].
Definition funcs_module : res (list stmt) :=
  generate_ast default_config (fun l => l)
    [Plugin "EnumsPlugin" (enums_plugin default_config ex_stylers default_enums_config expand_schema (Ok expand_doc));
     Plugin "InputsPlugin" (inputs_plugin default_config ex_stylers default_inputs_config expand_schema (Ok expand_doc));
     Plugin "OperationsPlugin" (operations_plugin default_config ex_stylers expand_schema (OCfg [] [] [] [] true true None)
                                  (fun _ => "query") (fun x => Ok x) no_doc expand_doc);
     Plugin "FuncsPlugin" (funcs_plugin default_config ex_stylers expand_schema (fx_cfg ["filter"]) no_doc expand_doc)] false.
Theorem C21_function_refuted : exists t, funcs_module = Ok t
  /\ In (SExpr (ECall (EAttr (EName "SHOULD_NOT_BE_USED") "model_rebuild") [] [])) t
  /\ ~ In "SHOULD_NOT_BE_USED" (binds t) /\ ~ rebuilds_defined t.
Proof.
  eexists. split; [vm_compute; reflexivity|].
  match goal with |- In ?x ?t /\ _ /\ _ => set (m := t); assert (A : In x m) end.
  { unfold m. cbn. repeat (first [left; reflexivity|right]). }
  split; [exact A|]. split; [vm_compute; intuition discriminate|]. intros H.
  assert (C := rebuilds_class _ H _ "SHOULD_NOT_BE_USED" A (or_introl eq_refl)). vm_compute in C. discriminate.
Qed.
Print Assumptions C21_function_refuted.
