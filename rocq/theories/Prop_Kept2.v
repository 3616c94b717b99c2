(** C84, whole input plugin: no class of the module loses what the schema says about its type. *)
From Verif Require Import Base PyAst Gql Config Stylers Registry Utils Documents Referencer Enums Inputs Recurse
  Spec_Inputs Spec_Kept Spec_Kept2 P_Base P_Kept2.

(** Every class generated for input types, of whatever shape the schema is, is that of an input
    type with its description, defaults and deprecations or that of a field of a @oneOf input.
    Full statement: the latter has the reason in its documentation too, if configured (false,
    [C84_wrapper_refuted]). Which classes there are is C12. *)
Theorem C84_module_partial : forall c st pc s documents r body r' cls bases b ks,
  generate_inputs c st pc s documents r = (Ok body, r') -> In (SClass cls bases b ks) body ->
  exists key t, In (key, t) (schema_inputs s)
    /\ ((cls = style_with sty_input st key /\ keeps_input c st t b)
        \/ (is_oneof t /\ exists k v, In (k, v) (id_fields t) /\ cls = style_with sty_input st (key +s+ cap_first k) /\ keeps_option c st k v b)).
Proof. exact inputs_module_kept. Qed.
Print Assumptions C84_module_partial.

(** ** Example: a member of a union, with a default next to its discriminator, and a @oneOf input *)
Definition kept2_schema : schema :=
  Schema [("Int", TScalar None); ("String", TScalar None);
          ("Circle", TInput (Some "Round") [("kind", InputField (GNamed "String") None None None); ("radius", InputField (GNamed "Int") (Some (PInt 1)) (Some "In cm") None)]
                       [Directive "unionElementOf" [("union", VString "Shape" false); ("discriminator", VString "kind" false); ("key", VString "CIRCLE" false)]]);
          ("Shape", TInput None [("kind", InputField (GNamed "String") None None None)] []);
          ("Pick", TInput None [("size", InputField (GNamed "Int") None (Some "In m") None); ("name", InputField (GNamed "String") None None (Some "use size"))] [Directive "oneOf" []])]
    None None None.
Definition kept2_body : list stmt := match fst (generate_inputs default_config [] default_inputs_config kept2_schema (Ok []) (init_reg default_config)) with
  | Ok l => l | _ => [] end.
Definition class_body (n : string) (l : list stmt) : list stmt :=
  flat_map (fun x => match x with SClass m _ b _ => if String.eqb m n then b else [] | _ => [] end) l.
Example C84_module_ex : flat_map (fun x => match x with SClass n _ _ _ => [n] | _ => [] end) kept2_body = ["Circle"; "PickSize"; "PickName"]
  /\ note (class_body "Circle" kept2_body) = Some "Round"
  /\ has_field (class_body "Circle" kept2_body) "radius" [("GraphQLDefault", "1")] (Some ("In cm" +s+ nl +s+ "Default: 1")) (fun x => field_text x = Some "In cm")
  /\ note (class_body "PickSize" kept2_body) = Some "In m"
  /\ has_field (class_body "PickName" kept2_body) "name" [("Deprecated", "use size")] None (fun _ => True).
Proof.
  split; [vm_compute; reflexivity|]. split; [vm_compute; reflexivity|]. split.
  - eexists [_; _], _, _, _. split; [vm_compute; reflexivity|]. repeat split.
  - split; [vm_compute; reflexivity|]. eexists [_], _, _, _. split; [vm_compute; reflexivity|]. repeat split.
Qed.
