(** C59: generation from operations and fragments does not fail. *)
From Verif Require Import Base PyAst Gql Config Stylers Registry Utils Documents Recurse Referencer Enums Inputs Inline Print Fragments Operations Run Spec_Mro Spec_Mro2 Spec_Docs Spec_Inline Spec_Valid Spec_ValidDoc
  P_Base P_Print P_InlineProps P_Total4 P_Total8 Ex_Select Prop_Inline Prop_Total.

(** C59: code generation succeeds for every document that is valid for the schema.  Proved with the
    conditions below.  Missing: the cases of the refutations that follow ([supported_document] rules out those that
    concern the document); [iter] is the iteration order of sets, [ps] prints string literals, [add] is graphql-core's parse and print
    around the addition of __typename. *)
Theorem C59_documents_partial : forall c st s ec ic fc oc doc_of d ps add iter skip_forwards, (forall l x, In x (iter l) -> In x l) ->
  valid_schema s -> is_scalar s "String" = true -> plain_inputs s -> scalars_known s (known_scalars c) ->
  valid_document s d -> supported_document s d ps add ->
  (* an enum an input type mentions gets a class, before that of the input type *)
  (c_force_plugin_order c = true -> enums_kept s (fun _ => true) (underscored (ec_skip_underscore ec) (ec_skip_double_underscore ec))
    /\ enums_apart s (style_enum_class st) (map (style_inputtype_class st) (flat_map input_names (s_types s)))
    /\ (ec_skip_unreferenced ec = true -> ic_skip_unreferenced ic = true)) ->
  (* the types of variables are known, not left out, and have a name *)
  (o_create_arguments oc = true -> forall o v n, In o (operations_of d) -> In v (op_vars o) -> n = gty_name (v_type v) ->
    (is_scalar s n = true -> In n (known_scalars c))
    /\ (is_input s n = true -> (ic_skip_underscore ic && startswith "_" n) = false /\ style_inputtype_class st n <> "")
    /\ (is_enum s n = true -> underscored (ec_skip_underscore ec) (ec_skip_double_underscore ec) n = false /\ style_enum_class st n <> "")) ->
  exists l, generate_ast c iter [Plugin "EnumsPlugin" (enums_plugin c st ec s (Ok d)); Plugin "InputsPlugin" (inputs_plugin c st ic s (Ok d));
    Plugin "FragmentsPlugin" (fragments_plugin c st s fc (print_fragment ps) add d); Plugin "OperationsPlugin" (operations_plugin c st s oc (print_operation ps) add doc_of d)] skip_forwards = Ok l.
Proof. exact documents_ast_total. Qed.
Print Assumptions C59_documents_partial.

(** ** Example: fragments on an object, an interface and a union, inline fragments, variables *)
Definition doc_run (c : gconfig) (s : schema) (d : document) : res (list stmt) :=
  generate_ast c (fun l => l) [Plugin "EnumsPlugin" (enums_plugin c sst default_enums_config s (Ok d)); Plugin "InputsPlugin" (inputs_plugin c sst default_inputs_config s (Ok d));
    Plugin "FragmentsPlugin" (fragments_plugin c sst s (FrCfg [] [] None true true) (print_fragment no_strings) (add_for d) d);
    Plugin "OperationsPlugin" (operations_plugin c sst s sx_pc (print_operation no_strings) (add_for d) (fun _ => None) d)] false.
Definition vx : schema := Schema
  (("Filter", TInput None [("color", inf (GNamed "Color"))] []) :: ("Date", TScalar None) :: sx_types) (Some "Query") None None.
Definition spread (n : string) : selection := SelSpread n [].
Definition vx_doc : document :=
  [DFrag (Fragment "Whole" "Node" [] [plain "__typename"; plain "id"; on "User" [plain "userName"]]);
   DFrag (Fragment "Person" "User" [] [on "User" [spread "Whole"]; SelField (sub "friends" [spread "Whole"])]);
   DFrag (Fragment "Found" "Hit" [] [on "User" [plain "id"]; on "Post" [SelField (sub "author" [plain "id"])]; spread "Other"]);
   DFrag (Fragment "Other" "Hit" [] [on "Post" [plain "id"]]);
   DOp (Operation OpQuery (Some "Get") [VarDef "by" (GNamed "Filter") None []; VarDef "color" (GNonNull (GNamed "Color")) None []; VarDef "limit" (GNamed "Int") (Some (VInt "3")) []] []
     [plain "count"; plain "color"; SelField (sub "me" [spread "Person"; spread "Whole"]); SelField (sub "node" [spread "Whole"; on "Post" [plain "id"]]);
      SelField (sub "hits" [spread "Found"]); SelField (sub "hit" [on "User" [spread "Person"; plain "id"]])])].
Definition rank_in (l : list string) (n : string) : nat :=
  (fix go l := match l with [] => 0 | x :: r => if String.eqb x n then S (List.length r) else go r end) l.
Lemma vx_supported : supported_document vx vx_doc no_strings (add_for vx_doc).
Proof.
  split.
  - intros o [<-|[]]. eexists; reflexivity.
  - intros o x root [<-|[]] [= <-] Hx. by_elem Hx; subst x; (split; [eexists; reflexivity|reflexivity]).
  - intros o v x [<-|[]] Hv. by_elem Hv; subst v; cbn; intros [= <-]; reflexivity.
  - intros f Hf. by_elem Hf; subst f; reflexivity.
  - intros f n Hf Hs. apply (spreads_list no_strings) in Hs. by_elem Hf; subst f; by_elem Hs; subst n.
    + eapply si_field; [right; left; reflexivity|reflexivity|]. eapply si_here. left. reflexivity.
    + eapply si_field; [right; left; reflexivity|reflexivity|]. eapply si_here. left. reflexivity.
    + eapply si_here. right. right. left. reflexivity.
  - intros f Hf. by_elem Hf; subst f; (split; [readable|reflexivity]).
  - intros o [<-|[]]. readable.
Qed.
Example C59_ex : valid_schema vx /\ is_scalar vx "String" = true /\ plain_inputs vx /\ scalars_known vx (known_scalars with_documents)
  /\ valid_document vx vx_doc /\ supported_document vx vx_doc no_strings (add_for vx_doc)
  /\ enums_kept vx (fun _ => true) (underscored true true)
  /\ enums_apart vx (style_enum_class sst) (map (style_inputtype_class sst) (flat_map input_names (s_types vx)))
  /\ (forall o v n, In o (operations_of vx_doc) -> In v (op_vars o) -> n = gty_name (v_type v) ->
    (is_scalar vx n = true -> In n (known_scalars with_documents)) /\ (is_input vx n = true -> startswith "_" n = false /\ style_inputtype_class sst n <> "")
    /\ (is_enum vx n = true -> underscored true true n = false /\ style_enum_class sst n <> ""))
  /\ exists l, doc_run with_documents vx vx_doc = Ok l /\ (8 < List.length l)%nat.
Proof.
  split; [now apply valid_b_ok|]. split; [reflexivity|]. split; [|split; [|split; [|split; [exact vx_supported|split; [|split; [|split]]]]]].
  - split; [apply nodupb_NoDup; reflexivity|]. split.
    + intros k d fs ds f fd H O Hf. cbn in H. repeat (destruct H as [H|H]; [try discriminate H|]); [|contradiction]. injection H as <- <- <- <-. discriminate O.
    + intros k d fs ds x H Hx. cbn in H. repeat (destruct H as [H|H]; [try discriminate H|]); [|contradiction]. injection H as <- <- <- <-. destruct Hx.
  - intros k t n H Hn E. by_type H; by_elem Hn; subst n; try discriminate E; vm_compute; tauto.
  - apply (valid_doc_ok _ _ (rank_in ["Found"; "Person"; "Whole"; "Other"])). reflexivity.
  - intros k t n H _ Hn E. by_type H; by_elem Hn; subst n; try discriminate E; reflexivity.
  - intros n E H. unfold is_enum in E. destruct (get_type vx n) as [t|] eqn:G; [|discriminate]. apply dget_Some_In in G. by_type G; try discriminate E. vm_compute in H. intuition discriminate.
  - intros o v n [<-|[]] Hv ->. by_elem Hv; subst v; vm_compute; repeat split; try discriminate; tauto.
  - eexists. split; [vm_compute; reflexivity|]. cbn. repeat constructor.
Qed.

(** ** Refutations: valid documents for which generation fails *)
Definition query (l : list selection) : definition := DOp (sx_op [] l).
Definition refutes (d : document) : Prop := valid_document vx d /\ fails (doc_run with_documents vx d).
Ltac refute r := split; [now apply (valid_doc_ok _ _ (rank_in r))|eexists; vm_compute; reflexivity].
(** an operation without name *)
Theorem C59_anonymous_refuted : refutes [DOp (Operation OpQuery None [] [] [plain "count"])].
Proof. refute (@nil string). Qed.
Print Assumptions C59_anonymous_refuted.
(** a fragment spread at the top of an operation *)
Theorem C59_root_spread_refuted : refutes [DFrag (Fragment "Root" "Query" [] [plain "count"]); query [spread "Root"]].
Proof. refute ["Root"]. Qed.
Print Assumptions C59_root_spread_refuted.
(** an inline fragment without type, and one on the type of the field itself *)
Theorem C59_inline_refuted : refutes [query [SelField (sub "node" [SelInline None [] [plain "id"]])]] /\ refutes [query [SelField (sub "me" [on "User" [plain "id"]])]]
  /\ refutes [query [SelField (sub "hit" [on "Node" [plain "id"]])]].
Proof. split; [|split]; refute (@nil string). Qed.
Print Assumptions C59_inline_refuted.
(** of a union nothing but __typename *)
Theorem C59_union_typename_refuted : refutes [query [SelField (sub "hit" [plain "__typename"])]].
Proof. refute (@nil string). Qed.
Print Assumptions C59_union_typename_refuted.
(** a fragment on a union spreads one on a member *)
Theorem C59_union_fragment_refuted : refutes [DFrag (Fragment "Found" "Hit" [] [spread "Person"]); DFrag (Fragment "Person" "User" [] [plain "id"])].
Proof. refute ["Found"; "Person"]. Qed.
Print Assumptions C59_union_fragment_refuted.
(** a fragment that is spread only inside of an inline fragment *)
Theorem C59_inline_spread_refuted : refutes [DFrag (Fragment "Whole" "Node" [] [on "User" [SelField (sub "friends" [spread "Zoo"; plain "userName"])]]); DFrag (Fragment "Zoo" "User" [] [plain "id"])].
Proof. refute ["Whole"; "Zoo"]. Qed.
Print Assumptions C59_inline_spread_refuted.
(** the name of a fragment contains a digit *)
Theorem C59_fragment_name_refuted : refutes [DFrag (Fragment "User2" "User" [] [plain "id"]); query [SelField (sub "me" [spread "User2"])]].
Proof. refute ["User2"]. Qed.
Print Assumptions C59_fragment_name_refuted.
(** the default of a variable is an enum value, a list or an object *)
Theorem C59_default_refuted : forall t v, In (t, v) [(GNamed "Color", VEnum "RED"); (GList (GNamed "Int"), VList [VInt "1"]); (GNamed "Filter", VObject [("color", VNull)])] ->
  refutes [DOp (sx_op [VarDef "x" t (Some v) []] [plain "count"])].
Proof. intros t v H. by_elem H; injection H as <- <-; refute (@nil string). Qed.
Print Assumptions C59_default_refuted.
(** a scalar without definition *)
Theorem C59_scalar_refuted : refutes [DOp (sx_op [VarDef "x" (GNamed "Date") None []] [plain "count"])].
Proof. refute (@nil string). Qed.
Print Assumptions C59_scalar_refuted.
(** an input type left out for its name *)
Theorem C59_underscore_refuted : exists s d, valid_schema s /\ valid_document s d /\ is_input s "_Page" = true /\ fails (doc_run with_documents s d).
Proof.
  exists (Schema (("_Page", TInput None [("size", inf (GNamed "Int"))] []) :: sx_types) (Some "Query") None None), [DOp (sx_op [VarDef "p" (GNamed "_Page") None []] [plain "count"])].
  split; [now apply valid_b_ok|]. split; [now apply (valid_doc_ok _ _ (fun _ => 0))|]. split; [reflexivity|]. eexists; vm_compute; reflexivity.
Qed.
Print Assumptions C59_underscore_refuted.
(** enums that no operation needs are left out, input types are not *)
Theorem C59_unreferenced_refuted : exists l ic ec, valid_document vx l /\ ic_skip_unreferenced ic = false /\ ec_skip_unreferenced ec = true
  /\ fails (generate_ast with_documents (fun l => l) [Plugin "EnumsPlugin" (enums_plugin with_documents sst ec vx (Ok l)); Plugin "InputsPlugin" (inputs_plugin with_documents sst ic vx (Ok l))] false).
Proof.
  exists [query [plain "count"]], (InputsConfig ["pydantic.BaseModel"] true false), (EnumsConfig true true true). split; [now apply (valid_doc_ok _ _ (fun _ => 0))|]. split; [reflexivity|]. split; [reflexivity|]. eexists; vm_compute; reflexivity.
Qed.
Print Assumptions C59_unreferenced_refuted.
