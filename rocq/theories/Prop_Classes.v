(** C10: names of the classes of a module. *)
From Verif Require Import Base PyAst Gql Config Stylers Registry Utils Documents Inline Referencer Enums Inputs Recurse Fragments Objects Operations
  Spec_Types Spec_Fields Spec_Names Spec_Inputs Spec_Paths Spec_Classes P_Base P_Classes Ex_Inputs Ex_Select.

(** C10.  Missing for the full property: see the refutations.  Class names of one kind are distinct
    for distinct names that keep their first letter, whatever shipped stylers are used. *)
Theorem C10_style_partial : forall sel st a b, class_method sel -> Forall shipped st -> plain_class a -> plain_class b ->
  style_with sel st a = style_with sel st b -> a = b.
Proof. exact style_inj. Qed.
Print Assumptions C10_style_partial.
(** Enums and inputs (classes and aliases, also those of oneOf inputs): distinct, or generation fails. *)
Theorem C10_enums_partial : forall c st pc s documents r l r', Forall shipped st -> (forall n, In n (enum_names s) -> plain_class n) ->
  enums_plugin c st pc s documents r = (Ok l, r') -> NoDup (named l).
Proof. exact enums_C10. Qed.
Print Assumptions C10_enums_partial.
Theorem C10_inputs_partial : forall c st pc s documents r l r', Forall shipped st -> (forall n, In n (input_names s) -> plain_class n) ->
  inputs_plugin c st pc s documents r = (Ok l, r') -> NoDup (named l).
Proof. exact inputs_C10. Qed.
Print Assumptions C10_inputs_partial.
(** Objects and interfaces. *)
Theorem C10_objects_partial : forall c st s pc r body r', Forall shipped st -> interfaces_exist s -> NoDup (object_names_of s) ->
  (forall n, In n (object_names_of s) -> ~ In n kwlist) ->
  generate_types c st s pc r = (Ok body, r') -> NoDup (named body) /\ incl (named body) (object_names_of s).
Proof. exact objects_named. Qed.
Print Assumptions C10_objects_partial.
(** All three, with stylers that append nothing. *)
Theorem C10_schema_partial : forall c st s pce pci pco de di r1 l1 r1' r2 l2 r2' r3 l3 r3', Forall adds_nothing st -> interfaces_exist s ->
  NoDup (enum_names s ++ input_names s ++ object_names_of s) ->
  (forall n, In n (enum_names s ++ input_names s ++ object_names_of s) -> plain_class n) ->
  enums_plugin c st pce s de r1 = (Ok l1, r1') -> inputs_plugin c st pci s di r2 = (Ok l2, r2') -> generate_types c st s pco r3 = (Ok l3, r3') ->
  NoDup (named (l1 ++ l2 ++ l3)).
Proof. exact schema_C10. Qed.
Print Assumptions C10_schema_partial.
(** Two operations of one kind, or two fragments, with one name are reported (generation fails);
    the classes of operations of one kind with distinct names are distinct. *)
Theorem C10_operations_partial : forall c st s pc po add doc_of d r l r', operations_plugin c st s pc po add doc_of d r = (Ok l, r') ->
  forall k, exists names, map Some names = operation_names k (operations_of d) /\ NoDup names
    /\ let cls := style_with (match k with OpQuery => sty_query | OpMutation => sty_mutation | OpSubscription => sty_subscription end) st in
       incl (map cls names) (named l) /\ (Forall shipped st -> Forall plain_class names -> NoDup (map cls names)).
Proof. exact operations_C10. Qed.
Print Assumptions C10_operations_partial.
Theorem C10_fragments_partial : forall c st s pc pf add d r l r' fs, ordered_fragments d = Ok fs ->
  fragments_plugin c st s pc pf add d r = (Ok l, r') -> NoDup (map fr_name fs).
Proof. exact fragments_C10. Qed.
Print Assumptions C10_fragments_partial.

Definition c10_schema : schema :=
  Schema (scalars ++ [color; filter_input; by_id; by_name; selector; mixed; shape; circle; square; type_kind;
    ("Node", TInterface None [] [("id", out (GNonNull (GNamed "ID")))]);
    ("Car", TObject None ["Node"] [("id", out (GNonNull (GNamed "ID"))); ("paint", out (GNamed "Color"))] []);
    ("Query", TObject None [] [("node", out (GNamed "Node")); ("car", out (GNamed "Car"))] [])]) (Some "Query") None None.
Definition plain_b (n : string) : bool := starts_with (fun c => negb (is_lower c)) n && negb (ends_under n) && negb (mem n kwlist).
Lemma plain_b_ok : forall l, forallb plain_b l = true -> forall n, In n l -> plain_class n.
Proof.
  intros l H n Hn. rewrite forallb_forall in H. apply H in Hn. unfold plain_b in Hn. apply andb_true_iff in Hn as [Hn H3].
  apply andb_true_iff in Hn as [H1 H2]. apply negb_true_iff in H2, H3. repeat split; try assumption. intros K. apply mem_In in K. congruence.
Qed.
Example C10_ex : interfaces_exist c10_schema
  /\ NoDup (enum_names c10_schema ++ input_names c10_schema ++ object_names_of c10_schema)
  /\ (forall n, In n (enum_names c10_schema ++ input_names c10_schema ++ object_names_of c10_schema) -> plain_class n)
  /\ exists l1 r1 l2 r2 l3 r3, enums_plugin default_config sst ex_enums c10_schema (Ok []) (init_reg default_config) = (Ok l1, r1)
     /\ inputs_plugin default_config sst ex_plugin c10_schema (Ok []) r1 = (Ok l2, r2)
     /\ generate_types default_config sst c10_schema default_objects_config r2 = (Ok l3, r3)
     /\ named (l1 ++ l2 ++ l3) = ["Color"; "Circle"; "Square"; "Filter"; "ById"; "ByName"; "MixedFlag"; "MixedIds"; "Mixed";
          "Shape"; "Selector"; "NodeBase"; "Car"; "Query"; "Node"].
Proof.
  split.
  { intros key t i Hin Hi. cbn in Hin. repeat (destruct Hin as [Hin|Hin]; [injection Hin as <- <-; cbn in Hi; try contradiction|]); [|contradiction].
    destruct Hi as [<-|[]]. do 3 eexists. do 13 right. repeat (first [left; reflexivity | right]). }
  split; [apply nodupb_NoDup; reflexivity|]. split; [apply plain_b_ok; reflexivity|].
  do 6 eexists. split; [vm_compute; reflexivity|]. split; [vm_compute; reflexivity|]. split; vm_compute; reflexivity.
Qed.
Example C10_documents_ex : exists l r', operations_plugin default_config sst sx sx_pc (fun _ => "query") (fun t => Ok t) (fun _ => None)
    [DOp (sx_op [] [plain "count"]); DOp (Operation OpQuery (Some "Count") [] [] [plain "count"])] sx_reg = (Ok l, r')
  /\ named l = ["Get"; "Count"]
  /\ (exists e r2, operations_plugin default_config sst sx sx_pc (fun _ => "query") (fun t => Ok t) (fun _ => None)
    [DOp (sx_op [] [plain "count"]); DOp (sx_op [] [plain "count"])] sx_reg = (Err e, r2)).
Proof. do 2 eexists. split; [vm_compute; reflexivity|]. split; [vm_compute; reflexivity|]. do 2 eexists. vm_compute. reflexivity. Qed.

(** "color" and "Color" become one class; nothing is reported *)
Theorem C10_capital_refuted : exists s l r', dkeys (s_types s) = ["color"; "Color"]
  /\ enums_plugin default_config [default_styler] ex_enums s (Ok []) (init_reg default_config) = (Ok l, r') /\ named l = ["Color"; "Color"].
Proof.
  exists (Schema [("color", TEnum None [("RED", EnumVal "RED" None None)]); ("Color", TEnum None [("BLUE", EnumVal "BLUE" None None)])] None None None).
  do 2 eexists. split; [reflexivity|]. split; [vm_compute; reflexivity|]. reflexivity.
Qed.
Print Assumptions C10_capital_refuted.
(** an input type and an enum *)
Theorem C10_kinds_refuted : exists s l1 r1 l2 r2, dkeys (s_types s) = ["ID"; "color"; "Color"]
  /\ enums_plugin default_config [default_styler] ex_enums s (Ok []) (init_reg default_config) = (Ok l1, r1)
  /\ inputs_plugin default_config [default_styler] ex_plugin s (Ok []) r1 = (Ok l2, r2) /\ named (l1 ++ l2) = ["Color"; "Color"].
Proof.
  exists (Schema [("ID", TScalar None); ("color", TEnum None [("RED", EnumVal "RED" None None)]); ("Color", TInput None [("id", fld (ty "ID"))] [])] None None None).
  do 4 eexists. split; [reflexivity|]. split; [vm_compute; reflexivity|]. split; [vm_compute; reflexivity|]. reflexivity.
Qed.
Print Assumptions C10_kinds_refuted.
(** the class behind an interface and an object type *)
Theorem C10_base_refuted : exists s l r', dkeys (s_types s) = ["ID"; "Node"; "NodeBase"]
  /\ generate_types default_config [default_styler] s default_objects_config (init_reg default_config) = (Ok l, r')
  /\ named l = ["NodeBase"; "NodeBase"; "Node"].
Proof.
  exists (Schema [("ID", TScalar None); ("Node", TInterface None [] [("id", out (GNamed "ID"))]); ("NodeBase", TObject None ["Node"] [("id", out (GNamed "ID"))] [])] None None None).
  do 2 eexists. split; [reflexivity|]. split; [vm_compute; reflexivity|]. reflexivity.
Qed.
Print Assumptions C10_base_refuted.
(** a nested class of one operation and another operation *)
Theorem C10_nested_refuted : exists d l r', map op_name (operations_of d) = [Some "Get"; Some "GetMe"]
  /\ operations_plugin default_config sst sx sx_pc (fun _ => "query") (fun t => Ok t) (fun _ => None) d sx_reg = (Ok l, r')
  /\ named l = ["GetMe"; "Get"; "GetMe"].
Proof.
  exists [DOp (sx_op [] [SelField (sub "me" [plain "id"])]); DOp (Operation OpQuery (Some "GetMe") [] [] [plain "count"])].
  do 2 eexists. split; [reflexivity|]. split; [vm_compute; reflexivity|]. reflexivity.
Qed.
Print Assumptions C10_nested_refuted.
Definition sx_fpc : frcfg := FrCfg [] [] None true false.
(** a fragment and an operation *)
Theorem C10_fragment_refuted : exists d l1 r1 l2 r2, map fr_name (fragments_of d) = ["Get"] /\ map op_name (operations_of d) = [Some "Get"]
  /\ fragments_plugin default_config sst sx sx_fpc (fun _ => "fragment") (fun t => Ok t) d sx_reg = (Ok l1, r1)
  /\ operations_plugin default_config sst sx sx_pc (fun _ => "query") (fun t => Ok t) (fun _ => None) d r1 = (Ok l2, r2)
  /\ named (l1 ++ l2) = ["Get"; "Get"].
Proof.
  exists [DFrag (Fragment "Get" "User" [] [plain "id"]); DOp (sx_op [] [plain "count"])].
  do 4 eexists. split; [reflexivity|]. split; [reflexivity|]. split; [vm_compute; reflexivity|]. split; [vm_compute; reflexivity|]. reflexivity.
Qed.
Print Assumptions C10_fragment_refuted.
