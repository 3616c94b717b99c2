(** C84: descriptions, deprecation reasons and defaults of the schema are kept. *)
From Verif Require Import Base PyAst Gql Config Stylers Registry Utils Documents Referencer Enums Inputs Recurse Objects
  Spec_Inputs Spec_Fields Spec_Kept P_Base P_Kept Ex_Inputs Ex_Funcs.

(** An input class has the description of its type; every field has a marker for the default,
    one for the deprecation, no others, and its description; the documentation below has reason
    and default if configured. *)
Theorem C84_inputs : forall c st s pc name key desc fields add ds r n bases body ks r',
  input_class c st pc s name key desc fields add ds r = (Ok (SClass n bases body ks), r') ->
  note body = Some (title_text desc)
  /\ forall k v, In (k, v) fields -> ~ In (style_with sty_node st k) (map di_name ds) ->
       has_field body (style_with sty_node st k) (marked c (default_text (if_default v)) (if_depr v))
         (input_note c (if_desc v) (if_depr v) (default_text (if_default v))) (fun x => field_text x = filled (if_desc v)).
Proof. exact input_class_kept. Qed.
Print Assumptions C84_inputs.
(** object and interface classes *)
Theorem C84_objects : forall c st s pc r body r' key t fields,
  generate_types c st s pc r = (Ok body, r') -> In (key, t) (s_types s) -> output_fields t = Some fields ->
  ~ object_skipped (ob_skip_underscore pc) (ob_skip_double_underscore pc) key ->
  exists bases b, In (SClass (schema_class_name st key t) bases b []) body /\ note b = filled (type_desc t)
  /\ forall k fd, In (k, fd) fields ->
       has_field b (style_with sty_node st k) (marked c None (fd_depr fd)) (output_note c (fd_desc fd) (fd_depr fd)) (fun _ => True).
Proof. exact objects_kept. Qed.
Print Assumptions C84_objects.
(** every response field, wherever it is selected *)
Theorem C84_responses : forall c st s f parent fd r x r', type_field_node c st s f parent fd r = (Ok x, r') ->
  has_field (snd x) (style_with sty_node st (response_key f)) (marked c None (fd_depr fd)) (output_note c (fd_desc fd) (fd_depr fd)) (fun _ => True).
Proof. exact response_kept. Qed.
Print Assumptions C84_responses.
(** Every generated enum has the description of its type, and below every value its description.
    Full statement: for deprecated values the reason too (false, [C84_refuted]). *)
Theorem C84_enums_partial : forall c st s pc documents r l r' stm, generate_enums c st pc s documents r = (Ok l, r') -> In stm l ->
  exists key d vs bases body, In (key, TEnum d vs) (s_types s) /\ stm = SClass (style_with sty_enum st key) bases body [] /\ note body = Some (title_text d)
  /\ forall k v, In (k, v) vs -> filled (ev_depr v) = None -> has_value body k (ev_value v) (filled (ev_desc v)).
Proof. exact enums_kept. Qed.
Print Assumptions C84_enums_partial.
(** The class for a field of a @oneOf input has the description of the field, and the field the
    marker for its deprecation.
    Full statement: the documentation has the reason, if configured (false, [C84_wrapper_refuted]). *)
Theorem C84_wrappers_partial : forall c st s pc key add k v r n cls bases body ks r',
  oneof_wrapper_class c st pc s key add (k, v) r = (Ok (n, SClass cls bases body ks), r') ->
  (forall t, filled (if_desc v) = Some t -> note body = Some t)
  /\ has_field body (style_with sty_node st k) (marked c None (if_depr v)) None (fun x => field_text x = filled (if_desc v)).
Proof. exact wrapper_kept. Qed.
Print Assumptions C84_wrappers_partial.

(** ** Examples *)
Definition kept_schema : schema :=
  Schema [("Query", TObject (Some "Start here") [] [("old", FieldDef (GNonNull (GNamed "Int")) [] (Some "A number") (Some "use new") []); ("new", FieldDef (GNonNull (GNamed "Int")) [] None None [])] []);
          ("Int", TScalar None); ("Color", TEnum None [("RED", EnumVal "RED" (Some "warm") None); ("BLUE", EnumVal "BLUE" None (Some "out of stock"))])] (Some "Query") None None.
Definition kept_reg : reg := init_reg default_config.
Definition kept_fields : list (string * inputfield) :=
  [("maxCount", InputField (GNamed "Int") (Some (PInt 10)) (Some "At most") (Some "use first")); ("first", inp (GNamed "Int"))].
(** Annotated[Optional[int], GraphQLDefault("10"), Deprecated("use first")] and all three below it *)
Example C84_ex : exists n bases body ks r',
  input_class default_config [snake_styler] default_inputs_config kept_schema "Page" "Page" (Some "A page") kept_fields [] [] kept_reg = (Ok (SClass n bases body ks), r')
  /\ note body = Some "A page"
  /\ has_field body "max_count" [("GraphQLDefault", "10"); ("Deprecated", "use first")]
       (Some ("At most" +s+ nl +s+ "DEPRECATED: use first" +s+ nl +s+ "Default: 10")) (fun x => field_text x = Some "At most")
  /\ has_field body "first" [] None (fun x => field_text x = None).
Proof.
  do 5 eexists. split; [vm_compute; reflexivity|]. split; [reflexivity|]. split.
  - eexists [_], _, _, _. split; [reflexivity|]. repeat split.
  - eexists [_; _; _], _, _, _. split; [reflexivity|]. repeat split.
Qed.
Example C84_objects_ex : exists body r' bases b, generate_types default_config [] kept_schema default_objects_config kept_reg = (Ok body, r')
  /\ In (SClass "Query" bases b []) body /\ note b = Some "Start here"
  /\ has_field b "old" [("Deprecated", "use new")] (Some ("A number" +s+ nl +s+ "DEPRECATED: use new")) (fun _ => True).
Proof.
  do 4 eexists. split; [vm_compute; reflexivity|]. split; [left; reflexivity|]. split; [reflexivity|].
  eexists [_], _, _, _. split; [reflexivity|]. repeat split.
Qed.
Example C84_responses_ex : exists x r',
  type_field_node default_config [] kept_schema (FieldNode (Some "n") "old" [] [] None) "Get" (FieldDef (GNonNull (GNamed "Int")) [] (Some "A number") (Some "use new") []) kept_reg = (Ok x, r')
  /\ has_field (snd x) "n" [("Deprecated", "use new")] (Some ("A number" +s+ nl +s+ "DEPRECATED: use new")) (fun _ => True).
Proof. do 2 eexists. split; [vm_compute; reflexivity|]. eexists [], _, _, _. split; [reflexivity|]. repeat split. Qed.
Definition kept_enum : list stmt := match fst (generate_enums default_config [] default_enums_config kept_schema (Ok []) kept_reg) with
  | Ok (SClass _ _ body _ :: _) => body | _ => [] end.
Example C84_enums_ex : note kept_enum = Some "No documentation" /\ has_value kept_enum "RED" "RED" (Some "warm").
Proof. split; [reflexivity|]. eexists [_], _. split; [vm_compute; reflexivity|reflexivity]. Qed.
Definition kept_wrapper : list stmt :=
  match fst (oneof_wrapper_class default_config [] default_inputs_config kept_schema "Pick" [] ("size", InputField (GNamed "Int") None (Some "In cm") (Some "use area")) kept_reg) with
  | Ok (_, SClass _ _ body _) => body | _ => [] end.
Example C84_wrappers_ex : note kept_wrapper = Some "In cm"
  /\ has_field kept_wrapper "size" [("Deprecated", "use area")] None (fun x => field_text x = Some "In cm").
Proof. split; [vm_compute; reflexivity|]. eexists [_], _, _, _. split; [vm_compute; reflexivity|]. repeat split. Qed.

(** ** Refutations *)
(** BLUE @deprecated(reason: "out of stock"): the generated enum says that it is deprecated, but not why *)
Theorem C84_refuted : exists s key vs k v reason l r' cls bases body, In (key, TEnum None vs) (s_types s) /\ In (k, v) vs /\ ev_depr v = Some reason /\ reason <> ""
  /\ generate_enums default_config [] default_enums_config s (Ok []) (init_reg default_config) = (Ok l, r') /\ In (SClass cls bases body []) l
  /\ has_value body k (ev_value v) (Some "DEPRECATED: None") /\ ~ In (SExpr (EConst (CStr ("DEPRECATED: " +s+ reason)))) body.
Proof.
  exists kept_schema, "Color". do 9 eexists. split; [right; right; left; reflexivity|]. split; [right; left; reflexivity|].
  split; [reflexivity|]. split; [discriminate|]. split; [vm_compute; reflexivity|]. split; [left; reflexivity|]. split.
  - eexists [_; _; _], _. split; reflexivity.
  - cbn. intuition discriminate.
Qed.
Print Assumptions C84_refuted.
(** a deprecated field of a @oneOf input: marked, but not documented as deprecated anywhere in the class *)
Theorem C84_wrapper_refuted : exists c s key k v reason n cls bases body r', c_document_field_metadata c = true /\ if_depr v = Some reason
  /\ oneof_wrapper_class c [] default_inputs_config s key [] (k, v) (init_reg c) = (Ok (n, SClass cls bases body []), r')
  /\ lines (if_desc v) (Some reason) None = Some ("In cm" +s+ nl +s+ "DEPRECATED: use area")
  /\ has_field body k [("Deprecated", reason)] None (fun _ => True) /\ note body = Some "In cm".
Proof.
  exists default_config, kept_schema, "Pick", "size", (InputField (GNamed "Int") None (Some "In cm") (Some "use area")).
  do 6 eexists. split; [reflexivity|]. split; [reflexivity|]. split; [vm_compute; reflexivity|]. split; [reflexivity|].
  split; [|reflexivity]. eexists [_], _, _, _. split; [reflexivity|]. repeat split.
Qed.
Print Assumptions C84_wrapper_refuted.
