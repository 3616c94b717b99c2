(** C09: attributes of generated classes. *)
From Verif Require Import Base PyAst Gql Config Stylers Registry Utils Documents Inline Referencer Enums Inputs Recurse Fragments Operations Objects
  Spec_Types Spec_Refs Spec_Inputs Spec_Fields Spec_Naming Spec_Names P_Base P_Monad P_Inputs P_InputProps P_Attr P_Attr2 Ex_Inputs Ex_Select.

(** C09.  With the shipped stylers two fields of one generated class (also of the classes inside
    it) share an attribute only if their GraphQL names agree up to case and underscores; with
    stylers that leave field names alone, only if one is a Python keyword and the other is that
    keyword with an underscore, or for the type name and a field called "typename".  Missing for
    the full property: those exceptions, see the refutations. *)
Theorem C09_operations_partial : forall c st s pc po add doc_of d r l r',
  operations_plugin c st s pc po add doc_of d r = (Ok l, r') ->
  (Forall shipped st -> same_letters l) /\ (Forall keeps_fields st -> same_escaped l).
Proof. exact operations_C09. Qed.
Print Assumptions C09_operations_partial.
Theorem C09_fragments_partial : forall c st s pc pf add d r l r',
  fragments_plugin c st s pc pf add d r = (Ok l, r') ->
  (Forall shipped st -> same_letters l) /\ (Forall keeps_fields st -> same_escaped l).
Proof. exact fragments_C09. Qed.
Print Assumptions C09_fragments_partial.
Theorem C09_objects_partial : forall c st s pc r l r', generate_types c st s pc r = (Ok l, r') ->
  (Forall shipped st -> same_letters l) /\ (Forall keeps_fields st -> same_escaped l).
Proof. exact objects_C09. Qed.
Print Assumptions C09_objects_partial.
Theorem C09_inputs_partial : forall c st s pc documents r l r', generate_inputs c st pc s documents r = (Ok l, r') ->
  (Forall shipped st -> same_letters l) /\ (Forall keeps_fields st -> same_escaped l).
Proof. exact inputs_C09. Qed.
Print Assumptions C09_inputs_partial.
Lemma default_shipped : Forall shipped sst.
Proof. repeat constructor. Qed.
Lemma capitalize_keeps : Forall keeps_fields [capitalize_styler; appender_styler default_appender].
Proof. repeat constructor. Qed.
Example C09_ex : Forall shipped sst /\ Forall keeps_fields [capitalize_styler; appender_styler default_appender]
  /\ (exists l r' body, operations_plugin default_config sst sx sx_pc (fun _ => "query") (fun t => Ok t) (fun _ => None)
        [DOp (sx_op [] [SelField (sub "me" [plain "id"; plain "userName"; SelField (FieldNode (Some "name2") "userName" [] [] None)])])] sx_reg = (Ok l, r')
      /\ In body (flat_map class_bodies l) /\ map attribute (class_fields body) = ["typename"; "id"; "user_name"; "name2"]).
Proof.
  split; [apply default_shipped|]. split; [apply capitalize_keeps|]. do 3 eexists. split; [vm_compute; reflexivity|].
  split; [left; reflexivity|reflexivity].
Qed.
(** ... so types whose field names differ in more than case and underscores keep all fields apart *)
Theorem C09_object_type_partial : forall c st s pc r body r' key t fields, Forall shipped st ->
  generate_types c st s pc r = (Ok body, r') -> In (key, t) (s_types s) -> output_fields t = Some fields ->
  ~ object_skipped (ob_skip_underscore pc) (ob_skip_double_underscore pc) key ->
  NoDup (map folded (map fst fields)) ->
  exists bases b, In (SClass (schema_class_name st key t) bases b []) body
    /\ map wire (class_fields b) = map fst fields /\ NoDup (map attribute (class_fields b)).
Proof. exact object_type_C09. Qed.
Print Assumptions C09_object_type_partial.
Theorem C09_input_type_partial : forall c st pc s documents r r' body, Forall shipped st ->
  no_helper_enum s -> NoDup (dkeys (s_types s)) -> names_styled st r ->
  generate_inputs c st pc s documents r = (Ok body, r') ->
  exists refd,
  referenced_inputs (skipping c (ic_skip_unreferenced pc)) s documents refd
  /\ forall key t, In (key, t) (schema_inputs s) ->
       ~ union_member refd t -> ~ input_skipped (ic_skip_underscore pc) refd key -> ~ is_oneof t -> ~ union_target refd s key ->
       NoDup (map folded (map fst (id_fields t))) ->
       exists bases b decs, In (SClass (style_with sty_input st key) bases b decs) body
         /\ map wire (class_fields b) = map fst (id_fields t) /\ NoDup (map attribute (class_fields b)).
Proof. exact input_type_C09. Qed.
Print Assumptions C09_input_type_partial.
Theorem C09_operation_root_partial : forall c st s pc po add doc_of o r l r', Forall shipped st ->
  generate_operation c st s pc po add doc_of o r = (Ok l, r') ->
  exists classes cls bases body fields, l = classes ++ [SClass cls bases body []]
    /\ op_sels o = map SelField fields /\ map wire (class_fields body) = map response_key fields
    /\ (NoDup (map folded (map response_key fields)) -> NoDup (map attribute (class_fields body))).
Proof. exact operation_root_C09. Qed.
Print Assumptions C09_operation_root_partial.
Example C09_nodup_ex :
  (exists body r', generate_types default_config sst sx default_objects_config sx_reg = (Ok body, r'))
  /\ NoDup (map folded ["id"; "userName"; "friends"])
  /\ NoDup (map folded (map fst [("name", fld (req (ty "String"))); ("maxCount", fld_default (req (ty "Int")) (PInt 10))]))
  /\ ~ object_skipped false true "User".
Proof.
  split; [eexists _, _; vm_compute; reflexivity|]. split; [apply nodupb_NoDup; reflexivity|]. split; [apply nodupb_NoDup; reflexivity|].
  intros [[H _]|[_ H]]; discriminate.
Qed.

(** snake casing makes fooBar and foo_bar the same attribute: of the two fields of this input
    type one is lost *)
Theorem C09_snake_refuted : exists fields body r' bases b f g,
  run_inputs [default_styler] [("Filter", TInput None fields [])] = (Ok body, r')
  /\ map fst fields = ["fooBar"; "foo_bar"] /\ body = [SClass "Filter" bases b []]
  /\ class_fields b = [f; g] /\ wire f = "fooBar" /\ wire g = "foo_bar" /\ attribute f = attribute g.
Proof.
  exists [("fooBar", fld (ty "Int")); ("foo_bar", fld (ty "Int"))]. do 6 eexists. split; [vm_compute; reflexivity|].
  split; [reflexivity|]. split; [reflexivity|]. split; [reflexivity|]. split; [reflexivity|]. split; reflexivity.
Qed.
Print Assumptions C09_snake_refuted.
(** without stylers, a keyword meets the name with an underscore *)
Theorem C09_keyword_refuted : exists fields body r' bases b f g,
  run_inputs [] [("Filter", TInput None fields [])] = (Ok body, r')
  /\ map fst fields = ["class"; "class_"] /\ body = [SClass "Filter" bases b []]
  /\ class_fields b = [f; g] /\ wire f = "class" /\ wire g = "class_" /\ attribute f = attribute g.
Proof.
  exists [("class", fld (ty "Int")); ("class_", fld (ty "Int"))]. do 6 eexists. split; [vm_compute; reflexivity|].
  split; [reflexivity|]. split; [reflexivity|]. split; [reflexivity|]. split; [reflexivity|]. split; reflexivity.
Qed.
Print Assumptions C09_keyword_refuted.
(** a selected field with the response key "typename" replaces the type name, without stylers *)
Theorem C09_typename_refuted : exists f fd classes body r' cls bases b tag g,
  type_field_node default_config [] sx f "Get" fd sx_reg = (Ok (classes, body), r')
  /\ classes = [SClass cls bases b []] /\ class_fields b = [tag; g]
  /\ wire tag = "__typename" /\ wire g = "typename" /\ attribute tag = attribute g.
Proof.
  exists (sub "me" [SelField (FieldNode (Some "typename") "id" [] [] None)]), (out (GNonNull (GNamed "User"))). do 8 eexists.
  split; [vm_compute; reflexivity|]. split; [reflexivity|]. split; [reflexivity|]. split; [reflexivity|]. split; reflexivity.
Qed.
Print Assumptions C09_typename_refuted.
