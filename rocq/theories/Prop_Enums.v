(** C31: generated enums. *)
From Verif Require Import Base PyAst Gql Config Stylers Registry Utils Referencer Enums
  PySem Spec_Types Spec_Inputs P_Monad P_Enums Ex_Inputs.

(** C31: one class per enum of the schema, in schema order, with one assignment per value in
    schema order; left out exactly when unreferenced or filtered by prefix.  Python accepts the
    class and makes exactly these members when the value names are ordinary (not reserved words,
    not "mro", no leading underscore).  Missing: GraphQL allows values with such names, see the
    refutation. *)
Theorem C31_enum_classes_partial : forall c st pc s documents r body r',
  generate_enums c st pc s documents r = (Ok body, r') ->
  exists refd parts,
    (if skip_unref c pc then exists d rr, documents = Ok d /\ create_reference_registry s d = Ok rr /\ refd = Some (rf_enums rr)
     else refd = None)
    /\ body = concat parts
    /\ Forall2 (enum_part st (ec_skip_underscore pc) (ec_skip_double_underscore pc) refd) (schema_enums s) parts.
Proof. exact enums_C31. Qed.
Print Assumptions C31_enum_classes_partial.
Theorem C31_members_partial : forall l,
  (forall n v, In (n, v) l -> iskeyword n = false /\ n <> "mro" /\ startswith "_" n = false) -> py_enum l = Some l.
Proof. exact py_enum_good. Qed.
Print Assumptions C31_members_partial.
(** generation succeeds whenever the references can be collected and the plugin runs once *)
Theorem C31_succeeds : forall c st pc s documents r rf,
  plugin_refs c (ec_skip_unreferenced pc) s documents r = (Ok rf, r) ->
  NoDup (dkeys (s_types s)) -> (forall n d vs, get_type s n = Some (TEnum d vs) -> dget n (r_enums r) = None) ->
  exists body r', generate_enums c st pc s documents r = (Ok body, r').
Proof. exact generate_enums_succeeds. Qed.
Print Assumptions C31_succeeds.
Example C31_ex : exists b r', generate_enums default_config ex_stylers ex_enums ex_schema (Ok []) (init_reg default_config)
    = (Ok [SClass "Color" [EName "str"; EName "Enum"] b []], r')
  /\ py_enum (enum_members b) = Some [("RED", "RED"); ("GREEN", "GREEN")].
Proof. eexists _, _. split; [vm_compute; reflexivity|vm_compute; reflexivity]. Qed.
Theorem C31_reserved_value_refuted : exists s name b r',
  generate_enums default_config ex_stylers ex_enums s (Ok []) (init_reg default_config)
    = (Ok [SClass name [EName "str"; EName "Enum"] b []], r')
  /\ length (enum_members b) = 2 /\ py_enum (enum_members b) = None.
Proof.
  exists (Schema [none_enum] None None None). eexists _, _, _.
  split; [vm_compute; reflexivity|]. split; vm_compute; reflexivity.
Qed.
Print Assumptions C31_reserved_value_refuted.
