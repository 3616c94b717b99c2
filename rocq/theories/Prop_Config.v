(** C17 (helper level), C43, C50: configuration. *)
From Verif Require Import Base PyAst Gql Config Stylers Registry Utils Spec_Config P_Config.

(** C17 at the level of the config generator: for every kind of turms' own GraphQLTypes, the
    emitted model-config entries are exactly the frozen flag when freezing applies, the
    configured options when options apply, and the additional config of the type; for the
    pydantic v1 and v2 output.  The classes the plugins emit: Prop_Freeze.v. *)
Theorem C17_config_entries_partial : forall k c n r, exists body r',
  generate_pydantic_config (KT k) c n r = (Ok body, r')
  /\ forall name v, In (name, v) (config_entries body) <->
       (freeze_applies c k n /\ name = "frozen" /\ v = CBool true)
       \/ (options_apply c k n /\ option_setting c name v)
       \/ extra_setting c n name v.
Proof. exact config_C17. Qed.
Print Assumptions C17_config_entries_partial.

Example C17_ex :
  let c := GConfig "v1" None [] None true false [] [] [] None None true None None
             (FreezeConfig true [KInput; KObject] (Some ["User"]) None true) true default_options
             false [] [] true [] true true "" "" false "" false "" in
  freeze_applies c KInput (Some "Filter") /\ ~ freeze_applies c KInput (Some "User")
  /\ ~ freeze_applies c KFragment (Some "Filter").
Proof.
  cbn; unfold freeze_applies, applies; cbn. split; [|split].
  - repeat split; auto; [intros l [= <-] m [= <-] [H|[]]; discriminate|intros l H; discriminate].
  - intros (_ & _ & H & _). eapply H; [reflexivity|reflexivity|now left].
  - intros (_ & [H|[H|[]]] & _); discriminate.
Qed.

(** C43 *)
Theorem C43_rules_minus_omitted : forall c,
  (forall rule, In rule (get_document_rules c) <->
     In rule specified_rules_map /\ ~ In rule (c_omited_document_rules c))
  /\ (exists keep, get_document_rules c = filter keep specified_rules_map)
  /\ NoDup (get_document_rules c).
Proof. exact rules_C43. Qed.
Print Assumptions C43_rules_minus_omitted.
Example C43_ex : length specified_rules_map = 26
  /\ mem "no_unused_fragments" (get_document_rules default_config) = true.
Proof. split; vm_compute; reflexivity. Qed.

Theorem C43_unknown_rules_rejected : forall v,
  (is_ok (validate_omited_document_rules v) = true <-> forall r, In r v -> In r specified_rules_map).
Proof. exact omitted_C43. Qed.
Print Assumptions C43_unknown_rules_rejected.
Example C43_reject_ex :
  is_ok (validate_omited_document_rules ["scalar_leafs"; "nope"]) = false
  /\ is_ok (validate_omited_document_rules ["scalar_leafs"]) = true.
Proof. split; vm_compute; reflexivity. Qed.

(** C50 *)
Theorem C50_override_all_or_nothing : forall c, is_ok (validate_unset_override c) = true <->
  (c_unset_type_class c = None <-> c_unset_instance c = None).
Proof. exact unset_C50_accept. Qed.
Print Assumptions C50_override_all_or_nothing.

Theorem C50_references_consistent : forall builtins c r,
  ~ In "" builtins ->
  is_ok (validate_unset_override c) = true ->
  (forall v, c_unset_type_class c = Some v -> is_ok (pythontype_validate builtins v) = true) ->
  (forall v, c_unset_instance c = Some v -> is_ok (pythontype_validate builtins v) = true) ->
  exists r', (let* i := reference_unset c in let* t := reference_unset_type c in ret (i, t)) r
             = (Ok match c_unset_instance c, c_unset_type_class c with
                   | Some i, Some t => (EName (last_comp i), EName (last_comp t))
                   | _, _ => (EName "UNSET", EName "UnsetType")
                   end, r')
  /\ match c_unset_instance c, c_unset_type_class c with
     | Some i, Some t => r_builtins r' = r_builtins r
         /\ (~ In i py_noimport -> In i (r_imports r')) /\ (~ In t py_noimport -> In t (r_imports r'))
     | None, None => r_imports r' = r_imports r /\ In "UNSET" (r_builtins r')
     | _, _ => False
     end.
Proof. exact unset_C50_refs. Qed.
Print Assumptions C50_references_consistent.
Example C50_ex : is_ok (validate_unset_override default_config) = true
  /\ exists l, built_in "UNSET" = Some l /\ flat_map bound_by l = ["UnsetType"; "UNSET"].
Proof. split; [reflexivity|]. eexists; split; reflexivity. Qed.
