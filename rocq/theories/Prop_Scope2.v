(** C60: the names a generated client module looks up are bound. *)
From Verif Require Import Base PyAst Gql Config Stylers Registry Utils Documents Recurse Referencer Enums Inputs Inline Print Fragments Operations Run
  Spec_Types Spec_Inputs Spec_Refs Spec_Imports Spec_Scope Spec_Docs Spec_Inline Spec_Valid Spec_ValidDoc Spec_Scope2
  P_Base P_InputProps P_Print P_Total4 P_Total8 P_Scope8 P_Scope9 Ex_Select Prop_Inline Prop_Total Prop_TotalDoc Prop_Scope.

(** C60.  The module of the enum, the input, the fragment and the operation plugin, for every iteration order of
    sets: run from top to bottom, with the builtins of Python bound to start with, it looks up bound names only.
    [bi] are the builtins of Python, [a], [b], [e] and [f] the names of the plugins, [add] is graphql-core's parse and
    print around the addition of __typename, [print_fragment] and [print_operation] are its printer.  Missing for the
    full property: [force_plugin_order: false], fragments that are spread in inline fragments only, and the
    cases of the refutations below, which the conditions about the document and the configuration rule out. *)
Theorem C60_client_partial : forall bi c st ec ic fc oc s d print_fragment print_operation add doc_of,
  incl simple_types bi ->
  (forall n x, dget n (r_scalars (init_reg c)) = Some x -> has_dot x = false -> In x bi) ->
  c_force_plugin_order c = true -> NoDup (dkeys (s_types s)) ->
  inputs_available (ic_skip_underscore ic) (skipping c (ic_skip_unreferenced ic)) s (Ok d) ->
  valid_document s d ->
  (forall fr n, In fr (fragments_of d) -> spread_in True (fr_sels fr) n -> spread_in False (fr_sels fr) n) ->
  enums_available (ec_skip_underscore ec) (ec_skip_double_underscore ec) (skipping c (ec_skip_unreferenced ec)) s d ->
  ~ Spec_Refs.is_enum s "String" ->
  unions_plain s d -> members_named s d (style_fragment_class st) ->
  (o_create_arguments oc = true -> variables_plain d) ->
  (* [Field] is imported if it is used *)
  (c_create_catchall c = false \/ (o_create_arguments oc = true /\ optional_variable d) -> imports_field s d) ->
  (* and so are the base classes of objects *)
  incl (c_object_bases c) (ic_bases ic) \/ (exists fr, In (DFrag fr) d /\ object_type s (fr_on fr)) \/ (exists o, In (DOp o) d /\ kind_bases oc o = []) ->
  forall iter a b e f t, set_order iter ->
  generate_ast c iter [Plugin a (enums_plugin c st ec s (Ok d)); Plugin b (inputs_plugin c st ic s (Ok d));
    Plugin e (fragments_plugin c st s fc print_fragment add d); Plugin f (operations_plugin c st s oc print_operation add doc_of d)] false = Ok t ->
  scoped (fun n => In n bi) t.
Proof. exact client_scope. Qed.
Print Assumptions C60_client_partial.
(** the document of C59's example: fragments on an object, an interface and a union, inline fragments, variables *)
Ltac flatten := constructor; intros;
  match goal with
  | H : In (SelField _) _, E : fn_sels _ = Some _ |- _ => by_elem H; try discriminate H; injection H as <-; try discriminate E; injection E as <-; flatten
  | H : In (SelInline _ _ _) _ |- _ => by_elem H; try discriminate H; injection H as <- <- <-; (split; [flatten|let x := fresh in let Hx := fresh in intros x Hx; by_elem Hx; subst x; cbn; tauto])
  | _ => idtac
  end.
Lemma vx_flat : flat_document vx_doc.
Proof.
  split.
  - intros o H. by_elem H; try discriminate H. injection H as <-. split; [flatten|]. intros x Hx. by_elem Hx; subst x; cbn; tauto.
  - intros f H. by_elem H; try discriminate H; injection H as <-; flatten.
Qed.
Ltac not_union := match goal with H : union_type vx _ |- _ => destruct H as (? & ? & H); discriminate H end.
Ltac in_no_union :=
  match goal with H : in_union vx _ _ "Whole" |- _ => inversion H; subst; clear H end;
  [try not_union; match goal with H : In (SelSpread _ _) _ |- _ => by_elem H; try discriminate H end
  |try not_union; match goal with H : In (SelInline _ _ _) _, K : In (SelSpread _ _) _ |- _ => by_elem H; try discriminate H; injection H as <- <- <-; by_elem K; try discriminate K end
  |match goal with H : In (SelField _) _, K : fn_sels _ = Some _, L : get_field_def _ _ _ = Some _ |- _ =>
     by_elem H; try discriminate H; injection H as <-; try discriminate K; injection K as <-; injection L as <-; in_no_union end
  |match goal with H : In (SelInline _ _ _) _ |- _ => by_elem H; try discriminate H; injection H as <- <- <-; in_no_union end].
Lemma vx_unions : unions_plain vx vx_doc.
Proof.
  intros fr Hfr HU (dn & is & fs & G). by_elem Hfr; try discriminate Hfr; injection Hfr as <-; try discriminate G. cbn [fr_name] in HU.
  destruct HU as [(o & root & Ho & HR & HI)|(g & Hg & HI)].
  - by_elem Ho; try discriminate Ho. injection Ho as <-. injection HR as <-. cbn in HI. in_no_union.
  - by_elem Hg; try discriminate Hg; injection Hg as <-; cbn in HI; in_no_union.
Qed.
Definition class_names (t : list stmt) : list string := flat_map (fun x => match x with SClass n _ _ _ => [n] | _ => [] end) t.
Definition client_names : list string :=
  ["Deprecated"; "GraphQLDefault"; "Color"; "Filter"; "WholeBase"; "WholeCatch"; "WholeUser"; "WholePost"; "OtherUser"; "OtherPost";
   "Person"; "FoundAuthorBase"; "FoundAuthorBaseUser"; "FoundAuthorBasePost"; "FoundAuthorBaseCatchAll"; "FoundUser"; "FoundPost"; "GetMe";
   "GetNodeBase"; "GetNodeBaseUser"; "GetNodeBasePost"; "GetNodeBaseCatchAll"; "GetUserInlineFragment"; "Get"].
Lemma doc_run_eq : forall c s d, doc_run c s d =
  generate_ast c (fun l => l) [Plugin "EnumsPlugin" (enums_plugin c sst default_enums_config s (Ok d)); Plugin "InputsPlugin" (inputs_plugin c sst default_inputs_config s (Ok d));
    Plugin "FragmentsPlugin" (fragments_plugin c sst s (FrCfg [] [] None true true) (print_fragment no_strings) (add_for d) d);
    Plugin "OperationsPlugin" (operations_plugin c sst s sx_pc (print_operation no_strings) (add_for d) (fun _ => None) d)] false.
Proof. reflexivity. Qed.
Example C60_ex : incl simple_types py_builtins /\ NoDup (dkeys (s_types vx))
  /\ (forall n x, dget n (r_scalars (init_reg (with_documents true))) = Some x -> has_dot x = false -> In x py_builtins)
  /\ inputs_available true (skipping (with_documents true) true) vx (Ok vx_doc) /\ valid_document vx vx_doc
  /\ (forall fr n, In fr (fragments_of vx_doc) -> spread_in True (fr_sels fr) n -> spread_in False (fr_sels fr) n)
  /\ enums_available false true (skipping (with_documents true) true) vx vx_doc /\ ~ Spec_Refs.is_enum vx "String"
  /\ unions_plain vx vx_doc /\ members_named vx vx_doc (style_fragment_class sst) /\ variables_plain vx_doc /\ imports_field vx vx_doc
  /\ exists t, doc_run (with_documents true) vx vx_doc = Ok t
     /\ class_names t = client_names
     /\ scoped (fun n => In n py_builtins) t.
Proof.
  split; [apply incl_appl, incl_refl|]. split; [apply nodupb_NoDup; reflexivity|]. split; [exact (scope_scalars true)|].
  assert (IA : inputs_available true (skipping (with_documents true) true) vx (Ok vx_doc)).
  { split.
    - intros _ n (d & f & di & H). apply dget_Some_In in H.
      repeat (destruct H as [H|H]; [try discriminate H; injection H as <- _ _ _; reflexivity|]). contradiction.
    - intros _ d [= <-]. split; [split; repeat constructor; cbn; intuition discriminate|].
      intros key t u dn k kv Hin (x & Hx & _). exfalso.
      repeat (destruct Hin as [Hin|Hin]; [injection Hin as <- <-; destruct Hx|]). contradiction. }
  assert (VD : valid_document vx vx_doc) by (apply (valid_doc_ok _ _ (rank_in ["Found"; "Person"; "Whole"; "Other"])); reflexivity).
  assert (EA : enums_available false true (skipping (with_documents true) true) vx vx_doc).
  { split; [|intros _; exact vx_flat]. intros e (d & vs & G) _. apply dget_Some_In in G. by_elem G; try discriminate G. injection G as <- _ _.
    split; [|split; intros _; reflexivity]. intros K. by_elem K; discriminate K. }
  assert (NS : ~ Spec_Refs.is_enum vx "String") by (intros (d & vs & G); discriminate G).
  assert (MN : members_named vx vx_doc (style_fragment_class sst)).
  { intros fr c dirs sub f dirs' Hfr (d & ms & G) Hi Hs. by_elem Hfr; try discriminate Hfr; injection Hfr as <-; try discriminate G;
      by_elem Hi; try discriminate Hi; injection Hi as <- <- <-; by_elem Hs; discriminate Hs. }
  assert (VP : variables_plain vx_doc).
  { intros o v Ho Hv. by_elem Ho; try discriminate Ho. injection Ho as <-. by_elem Hv; subst v; vm_compute; intuition discriminate. }
  assert (IF : imports_field vx vx_doc).
  { right. eexists. split; [left; reflexivity|]. right. eexists _, _, _. reflexivity. }
  assert (SI : forall fr n, In fr (fragments_of vx_doc) -> spread_in True (fr_sels fr) n -> spread_in False (fr_sels fr) n) by exact (sd_inline _ _ _ _ vx_supported).
  do 9 (split; [first [assumption|exact vx_unions]|]). 
  assert (OK : match doc_run (with_documents true) vx vx_doc with Ok _ => true | Err _ => false end = true) by (vm_compute; reflexivity).
  destruct (doc_run (with_documents true) vx vx_doc) as [t|x] eqn:R; [clear OK|discriminate OK].
  exists t. split; [reflexivity|]. split.
  { assert (N : match doc_run (with_documents true) vx vx_doc with Ok t => class_names t | Err _ => [] end = class_names t) by now rewrite R.
    change (class_names t = client_names). rewrite <- N. vm_compute. reflexivity. }
  rewrite doc_run_eq in R. eapply (C60_client_partial py_builtins (with_documents true) sst default_enums_config default_inputs_config (FrCfg [] [] None true true) sx_pc vx vx_doc) with (iter := fun l => l); [apply incl_appl, incl_refl|exact (scope_scalars true)| | |exact IA|exact VD|exact SI|exact EA|exact NS|exact vx_unions|exact MN|intros _; exact VP|intros _; exact IF| | |exact R].
  - reflexivity.
  - apply nodupb_NoDup; reflexivity.
  - right. right. eexists. split; [do 4 right; left; reflexivity|reflexivity].
  - intros l. apply Permutation_refl.
Qed.

(** ** Refutations: the document is valid, a module is generated, and running it looks up a name that nothing binds *)
Definition unbound (t : list stmt) (n : string) : Prop :=
  In n (flat_map runs t) /\ ~ In n (binds t) /\ ~ In n py_builtins.
Lemma unbound_not_scoped : forall t n, unbound t n -> ~ scoped (fun x => In x py_builtins) t.
Proof.
  intros t n (H1 & H2 & H3). apply in_flat_map in H1. destruct H1 as (x & Hx & Hn).
  assert (Z : forall t, In x t -> ~ In n (binds t) -> forall E : string -> Prop, ~ E n -> ~ scoped E t); [|exact (Z _ Hx H2 _ H3)]. clear t H2 Hx.
  induction t as [|y t IH]; intros Hx H2 E HE; [destruct Hx|]. intros (K1 & K2). destruct Hx as [->|Hx]; [exact (HE (K1 _ Hn))|].
  unfold binds in H2. cbn [flat_map] in H2. revert K2. apply IH; [exact Hx|intros K; apply H2, in_or_app; now right|].
  intros [K|K]; [exact (HE K)|]. apply H2, in_or_app. now left.
Qed.
Definition looks_up (r : res (list stmt)) (n : string) : Prop :=
  exists t, r = Ok t /\ unbound t n /\ ~ scoped (fun x => In x py_builtins) t.
Ltac unbound_tac := match goal with |- looks_up _ ?n =>
  eexists; split; [vm_compute; reflexivity|];
  match goal with |- unbound ?t _ /\ _ => assert (U : unbound t n); [|split; [exact U|exact (unbound_not_scoped _ _ U)]] end;
  split; [vm_compute; tauto|split; vm_compute; intuition discriminate] end.
(** a fragment on an interface is spread in the selection of a union: its class is taken as a base class, but a
    fragment on an interface has no class of its name *)
Theorem C60_union_spread_refuted : let d := [DFrag (Fragment "Whole" "Node" [] [plain "id"]); query [SelField (sub "hit" [spread "Whole"])]] in
  valid_document vx d /\ looks_up (doc_run (with_documents true) vx d) "Whole".
Proof. split; [now apply (valid_doc_ok _ _ (rank_in ["Whole"]))|]. unbound_tac. Qed.
Print Assumptions C60_union_spread_refuted.
Definition client_run (c : gconfig) (st : list styler) (oc : ocfg) (s : schema) (d : document) : res (list stmt) :=
  generate_ast c (fun l => l) [Plugin "EnumsPlugin" (enums_plugin c st default_enums_config s (Ok d)); Plugin "InputsPlugin" (inputs_plugin c st default_inputs_config s (Ok d));
    Plugin "FragmentsPlugin" (fragments_plugin c st s (FrCfg [] [] None true true) (print_fragment no_strings) (add_for d) d);
    Plugin "OperationsPlugin" (operations_plugin c st s oc (print_operation no_strings) (add_for d) (fun _ => None) d)] false.
(** base classes are configured for operations: the classes of objects selected by the operation have the base
    classes of objects, which are not imported *)
Definition with_model : gconfig :=
  GConfig "v2" (Some "q.graphql") ["app.Model"] None true false [] [] [] None None true None None
          default_freeze true default_options false [] [] true [] true true "api" "schema.py" false "schema.graphql" false "project.json".
Theorem C60_object_bases_refuted : let d := [query [SelField (sub "me" [plain "id"])]] in
  valid_document vx d /\ looks_up (client_run with_model sst (OCfg ["api.Query"] [] [] [] false true None) vx d) "Model".
Proof. split; [now apply (valid_doc_ok _ _ (rank_in []))|]. unbound_tac. Qed.
Print Assumptions C60_object_bases_refuted.
(** a variable that may be left out, and no other use of [Field] *)
Theorem C60_field_refuted : let d := [DOp (sx_op [VarDef "limit" (GNamed "Int") None []] [plain "count"])] in
  valid_document vx d /\ looks_up (doc_run (with_documents true) vx d) "Field".
Proof. split; [now apply (valid_doc_ok _ _ (rank_in []))|]. unbound_tac. Qed.
Print Assumptions C60_field_refuted.
(** an inline fragment of a fragment on a union spreads a fragment that is styled: the base class has the name of the fragment *)
Theorem C60_member_refuted : let d := [DFrag (Fragment "person" "User" [] [plain "id"]); DFrag (Fragment "Found" "Hit" [] [on "User" [spread "person"]])] in
  valid_document vx d /\ looks_up (client_run (with_documents true) [capitalize_styler] sx_pc vx d) "person".
Proof. split; [now apply (valid_doc_ok _ _ (rank_in ["Found"; "person"]))|]. unbound_tac. Qed.
Print Assumptions C60_member_refuted.
(** a variable has an enum type that is named like a helper class of the generator: the last statement of the module rebuilds a class
    with the empty name *)
Definition vy : schema := Schema [("Query", TObject None [] [("old", FieldDef (GNonNull (GNamed "Int")) [("d", ArgDef (GNamed "Deprecated") None None)] None None [])] []);
  ("Deprecated", TEnum None [("YES", EnumVal "YES" None None)]); ("Int", TScalar None)] (Some "Query") None None.
Theorem C60_helper_name_refuted : let d := [DOp (sx_op [VarDef "x" (GNonNull (GNamed "Deprecated")) None []] [SelField (FieldNode None "old" [("d", VVar "x")] [] None)])] in
  valid_document vy d /\ looks_up (doc_run (with_documents true) vy d) "".
Proof. split; [now apply (valid_doc_ok _ _ (rank_in []))|]. unbound_tac. Qed.
Print Assumptions C60_helper_name_refuted.
