(** C08, C13, C14, C33, C34: fields of generated object, response and argument classes. *)
From Verif Require Import Base PyAst Gql Config Stylers Registry Utils Documents Inline Inputs Recurse Fragments Operations Objects
  Spec_Types Spec_Inputs Spec_Annot Spec_Fields P_Base P_Fields P_Selection P_Args Ex_Inputs Ex_Select.

(** ** C08 *)
Theorem C08_input_fields : forall c st s name k v r l r',
  generate_input_field c st s name k v r = (Ok l, r') -> exists fld, class_fields l = [fld] /\ wire fld = k.
Proof. exact input_field_C08. Qed.
Print Assumptions C08_input_fields.
Theorem C08_object_fields : forall c st s pc r body r' key t fields,
  generate_types c st s pc r = (Ok body, r') -> In (key, t) (s_types s) -> output_fields t = Some fields ->
  ~ object_skipped (ob_skip_underscore pc) (ob_skip_double_underscore pc) key ->
  exists bases b, In (SClass (schema_class_name st key t) bases b []) body /\ map wire (class_fields b) = map fst fields.
Proof. exact objects_C08. Qed.
Print Assumptions C08_object_fields.
(** every response field, wherever it is selected *)
Theorem C08_response_field : forall c st s f parent fd r res r',
  type_field_node c st s f parent fd r = (Ok res, r') -> exists fld, class_fields (snd res) = [fld] /\ wire fld = response_key f.
Proof. exact type_field_node_C08. Qed.
Print Assumptions C08_response_field.
Theorem C08_operation_fields : forall c st s pc po add doc_of o r l r', generate_operation c st s pc po add doc_of o r = (Ok l, r') ->
  exists classes cls bases body fields, l = classes ++ [SClass cls bases body []]
    /\ op_sels o = map SelField fields /\ map wire (class_fields body) = map response_key fields.
Proof. exact operation_C08. Qed.
Print Assumptions C08_operation_fields.
Theorem C08_argument_fields : forall c st s pc po add doc_of o r l r', Forall (fun v => named st (gty_name (v_type v))) (op_vars o) ->
  o_create_arguments pc = true ->
  generate_operation c st s pc po add doc_of o r = (Ok l, r') ->
  exists cls bases body abases abody, In (SClass cls bases body []) l /\ In (SClass "Arguments" abases abody []) body
    /\ Forall2 (argument_ok (class_for st r) st) (op_vars o) (class_fields abody).
Proof. exact operation_C34. Qed.
Print Assumptions C08_argument_fields.
Definition ex_op : operation :=
  sx_op [VarDef "maxCount" (GNonNull (GNamed "Int")) (Some (VInt "-7")) []; VarDef "from" (GNonNull (GNamed "ID")) None []]
        [SelField (FieldNode (Some "theCount") "count" [] [] None); SelField (sub "me" [plain "userName"])].
(** user_name is read from userName, the_count from theCount; max_count is sent as maxCount, the
    reserved from_ as from *)
Example C08_ex :
  exists cl ab abody a1 v1 a2 v2 rest,
    fst (sx_generate ex_op) = Ok [cl; SClass "Get" ab
      [SExpr (EConst (CStr "No documentation found for this operation."));
       SAnn "the_count" a1 v1; SAnn "me" a2 v2; SClass "Arguments" ab abody []; rest] []]
  /\ wire_name "the_count" v1 = "theCount" /\ map wire (class_fields abody) = ["maxCount"; "from"]
  /\ map (fun f => fst (fst f)) (class_fields abody) = ["max_count"; "from_"]
  /\ Forall (fun v => named sst (gty_name (v_type v))) (op_vars ex_op).
Proof.
  do 8 eexists. split; [vm_compute; reflexivity|]. split; [reflexivity|]. split; [reflexivity|]. split; [reflexivity|].
  repeat constructor; discriminate.
Qed.
Example C08_objects_ex :
  exists body r' bases b, generate_types default_config sst sx default_objects_config sx_reg = (Ok body, r')
  /\ In (SClass "User" bases b []) body /\ map (fun f => fst (fst f)) (class_fields b) = ["id"; "user_name"; "friends"]
  /\ map wire (class_fields b) = ["id"; "userName"; "friends"].
Proof.
  do 4 eexists. split; [vm_compute; reflexivity|]. split; [right; right; left; reflexivity|]. split; reflexivity.
Qed.

(** ** C13.  Missing for the full property: enums named like a class that turms emits itself,
    see C13_helper_enum_refuted. *)
Theorem C13_objects_partial : forall c st s pc r body r', no_helper_enum s ->
  generate_types c st s pc r = (Ok body, r') ->
  exists tup, object_tuples c tup /\ forall key t fields, In (key, t) (s_types s) -> output_fields t = Some fields ->
    ~ object_skipped (ob_skip_underscore pc) (ob_skip_double_underscore pc) key ->
    exists stm, In stm body /\ represents_object tup (object_leaf s (r_scalars r) st) st key t fields stm.
Proof. exact objects_C13. Qed.
Print Assumptions C13_objects_partial.
Lemma sx_no_helper : no_helper_enum sx.
Proof.
  intros n d vs H. apply dget_Some_In in H.
  repeat (destruct H as [H|H]; [try discriminate H; injection H as <- <- <-; cbn; intuition discriminate|]). contradiction.
Qed.
Example C13_ex : no_helper_enum sx /\ exists body r', generate_types default_config sst sx default_objects_config sx_reg = (Ok body, r')
  /\ exists bases b a v, In (SClass "Query" bases b []) body /\ In ("hits", a, v) (class_fields b)
     /\ accepts a (JSeq false [JNull; JLeaf "Post"]) /\ ~ accepts a JNull /\ ~ accepts a (JSeq true []) /\ ~ accepts a (JLeaf "Post").
Proof.
  split; [apply sx_no_helper|]. do 2 eexists. split; [vm_compute; reflexivity|]. do 4 eexists. split; [right; left; reflexivity|].
  split; [right; right; left; reflexivity|]. cbn. split; [|split; [|split]].
  - eexists. split; [reflexivity|]. repeat split; auto.
  - intros (l & H & _). discriminate.
  - intros (l & H & _). discriminate.
  - intros (l & H & _). discriminate.
Qed.
Definition helper_schema : schema :=
  Schema [("Query", TObject None [] [("flag", out (GNonNull (GNamed "Deprecated")))] []);
          ("Deprecated", TEnum None [("YES", EnumVal "YES" None None)])] (Some "Query") None None.
Definition enum_suffix : list styler := [appender_styler (AppenderConfig "" "" "" "" "Enum" "")].
Theorem C13_helper_enum_refuted : exists c st s pc r body r' bases b a v,
  generate_types c st s pc r = (Ok body, r') /\ In (SClass "Query" bases b []) body /\ In ("flag", a, v) (class_fields b)
  /\ get_type s "Query" = Some (TObject None [] [("flag", out (GNonNull (GNamed "Deprecated")))] [])
  /\ accepts a (JLeaf "Deprecated") /\ ~ inhab false (object_leaf s (r_scalars r) st) (GNonNull (GNamed "Deprecated")) (JLeaf "Deprecated").
Proof.
  exists default_config, enum_suffix, helper_schema, default_objects_config, (init_reg default_config). do 6 eexists.
  split; [vm_compute; reflexivity|]. split; [left; reflexivity|]. split; [left; reflexivity|]. split; [reflexivity|]. split; [reflexivity|].
  intros [_ [H|(cl & H & E)]]; [discriminate|]. injection E as <-. vm_compute in H. discriminate.
Qed.
Print Assumptions C13_helper_enum_refuted.

(** ** C14.  Every response field: [type_field_node] generates all of them.  Missing for the full
    property: a nullable union field whose selection has a single alternative
    (C14_union_refuted), and enums as in C13. *)
Theorem C14_response_field_partial : forall c st s f parent fd r classes body r', no_helper_enum s ->
  (is_union_type s (gty_name (fd_type fd)) -> inner_nonnull (fd_type fd) = true \/ List.length (alternatives f) <> 1) ->
  type_field_node c st s f parent fd r = (Ok (classes, body), r') ->
  exists fld, class_fields body = [fld] /\ response_field_ok c st s r classes f fd fld.
Proof. exact field_C14. Qed.
Print Assumptions C14_response_field_partial.
Definition two_hits : fieldnode := sub "hits" [on "User" [plain "userName"]; on "Post" [plain "id"]].
Example C14_ex : List.length (alternatives two_hits) <> 1 /\ is_union_type sx "Hit"
  /\ exists classes a v r', sx_tfn two_hits (out (GNonNull (GList (GNamed "Hit")))) = (Ok (classes, [SAnn "hits" a v]), r')
  /\ accepts a (JSeq false [JNull; JLeaf "GetUserInlineFragment"]) /\ ~ accepts a JNull
  /\ defined classes = ["GetUserInlineFragment"; "GetPostInlineFragment"].
Proof.
  split; [discriminate|]. split; [do 2 eexists; reflexivity|]. do 4 eexists. split; [vm_compute; reflexivity|]. cbn. split; [|split].
  - eexists. split; [reflexivity|]. repeat split; auto.
  - intros (l & H & _). discriminate.
  - reflexivity.
Qed.
Theorem C14_union_refuted : exists c st s f fd r classes a v r',
  no_helper_enum s /\ is_nonnull (fd_type fd) = false
  /\ type_field_node c st s f "Get" fd r = (Ok (classes, [SAnn "hit" a v]), r') /\ ~ accepts a JNull.
Proof.
  exists default_config, sst, sx, (sub "hit" [on "User" [plain "userName"]]), (out (GNamed "Hit")), sx_reg. do 4 eexists.
  split; [apply sx_no_helper|]. split; [reflexivity|]. split; [vm_compute; reflexivity|]. discriminate.
Qed.
Print Assumptions C14_union_refuted.

(** ** C33: integer, float, string and null literals.  Missing: booleans, which are always
    recorded as False, and lists, objects and enum values, which stop the generator. *)
Theorem C33_defaults_partial : forall c st v r stm r', named st (gty_name (v_type v)) ->
  (match v_default v with Some d => simple_literal d | None => True end) ->
  argument_field c st v r = (Ok stm, r') ->
  exists fld, class_fields [stm] = [fld] /\ default_recorded (v_default v) (snd (fst fld)).
Proof. exact argument_C33. Qed.
Print Assumptions C33_defaults_partial.
Definition int_var : vardef := VarDef "n" (GNamed "Int") (Some (VInt "-120")) [].
Example C33_ex : named sst "Int" /\ exists a v r', argument_field default_config sst int_var sx_reg = (Ok (SAnn "n" a v), r')
  /\ recorded a = Some "-120" /\ int_value "-120" = (-120)%Z.
Proof. split; [split; discriminate|]. do 3 eexists. split; [vm_compute; reflexivity|]. split; reflexivity. Qed.
Theorem C33_boolean_refuted : exists c st v r a x r', v_default v = Some (VBool true)
  /\ argument_field c st v r = (Ok (SAnn "flag" a x), r') /\ recorded a = Some "False".
Proof.
  exists default_config, sst, (VarDef "flag" (GNamed "Boolean") (Some (VBool true)) []), sx_reg. do 3 eexists.
  split; [reflexivity|]. split; [vm_compute; reflexivity|]. reflexivity.
Qed.
Theorem C33_unsupported_refuted : forall d, In d [VList [VInt "1"]; VObject []; VEnum "RED"] ->
  exists e, fst (sx_generate (sx_op [VarDef "x" (GNamed "Int") (Some d) []] [plain "count"])) = Err e /\ ecls e = NotImplementedErrorC.
Proof. intros d [<-|[<-|[<-|[]]]]; eexists; (split; [vm_compute; reflexivity|]); reflexivity. Qed.
Print Assumptions C33_boolean_refuted.
Print Assumptions C33_unsupported_refuted.

(** ** C34 *)
Theorem C34_argument : forall c st v r stm r', named st (gty_name (v_type v)) ->
  argument_field c st v r = (Ok stm, r') -> exists fld, class_fields [stm] = [fld] /\ argument_ok (class_for st r) st v fld.
Proof. exact argument_C34. Qed.
Print Assumptions C34_argument.
Theorem C34_arguments_class : forall c st s pc po add doc_of o r l r', Forall (fun v => named st (gty_name (v_type v))) (op_vars o) ->
  o_create_arguments pc = true ->
  generate_operation c st s pc po add doc_of o r = (Ok l, r') ->
  exists cls bases body abases abody, In (SClass cls bases body []) l /\ In (SClass "Arguments" abases abody []) body
    /\ Forall2 (argument_ok (class_for st r) st) (op_vars o) (class_fields abody).
Proof. exact operation_C34. Qed.
Print Assumptions C34_arguments_class.
Example C34_ex : exists a1 v1 r1 a2 v2 r2,
  argument_field default_config sst (VarDef "n" (GNonNull (GNamed "Int")) (Some (VInt "1")) []) sx_reg = (Ok (SAnn "n" a1 v1), r1)
  /\ accepts a1 JNull /\ may_omit v1 = true
  /\ argument_field default_config sst (VarDef "n" (GNonNull (GList (GNamed "Int"))) None []) sx_reg = (Ok (SAnn "n" a2 v2), r2)
  /\ ~ accepts a2 JNull /\ may_omit v2 = false.
Proof.
  do 6 eexists. split; [vm_compute; reflexivity|]. split; [now left|]. split; [reflexivity|]. split; [vm_compute; reflexivity|].
  split; [|reflexivity]. intros (l & H & _). discriminate.
Qed.
