(** C12, C24, C25: generated input models. *)
From Verif Require Import Base PyAst Gql Config Stylers Registry Utils Referencer Enums Inputs
  PySem Spec_Types Spec_Refs Spec_Inputs P_Base P_Monad P_Types P_Inputs P_InputProps Ex_Inputs.

(** C12, one field.  Missing for the full property: enums named like a class that turms
    emits itself, see C12_helper_enum_refuted. *)
Theorem C12_input_field_partial : forall c st s name k v r l r',
  no_helper_enum s -> names_styled st r ->
  generate_input_field c st s name k v r = (Ok l, r') ->
  exists tup fld, input_tuples c tup /\ class_fields l = [fld]
    /\ input_field_ok tup (input_leaf s (r_scalars r) st) st k v fld.
Proof. exact field_C12. Qed.
Print Assumptions C12_input_field_partial.
(** C12, whole plugin: every ordinary input type has a class with one such field per field *)
Theorem C12_input_classes_partial : forall c st pc s documents r r' body,
  no_helper_enum s -> NoDup (dkeys (s_types s)) -> names_styled st r ->
  generate_inputs c st pc s documents r = (Ok body, r') ->
  exists refd,
  referenced_inputs (skipping c (ic_skip_unreferenced pc)) s documents refd
  /\ forall key t, In (key, t) (schema_inputs s) ->
       ~ union_member refd t -> ~ input_skipped (ic_skip_underscore pc) refd key -> ~ is_oneof t -> ~ union_target refd s key ->
       exists stm, In stm body
         /\ represents_input (tuple_for_inputs c) (input_leaf s (r_scalars r) st) st key [] (id_fields t) stm.
Proof. exact plain_inputs. Qed.
Print Assumptions C12_input_classes_partial.
(** the complete description of what the plugin emits *)
Theorem C12_inputs_module_partial : forall c st pc s documents r r' body,
  no_helper_enum s -> NoDup (dkeys (s_types s)) -> names_styled st r ->
  generate_inputs c st pc s documents r = (Ok body, r') ->
  exists refd,
  referenced_inputs (skipping c (ic_skip_unreferenced pc)) s documents refd
  /\ inputs_module (tuple_for_inputs c) (input_leaf s (r_scalars r) st) st s (ic_skip_underscore pc)
                   (String.eqb (c_pydantic_version c) "v2") refd body.
Proof. exact inputs_module_referenced. Qed.
Print Assumptions C12_inputs_module_partial.
Example C12_ex : no_helper_enum ex_schema /\ NoDup (dkeys (s_types ex_schema)) /\ names_styled ex_stylers ex_reg
  /\ exists body r', ex_run = (Ok body, r') /\ length body = 11.
Proof.
  split; [|split; [|split]].
  - intros n d vs H. apply dget_Some_In in H.
    repeat (destruct H as [H|H]; [try discriminate H; injection H as <- <- <-; cbn; intuition discriminate|]). contradiction.
  - apply nodupb_NoDup. vm_compute. reflexivity.
  - eapply names_styled_evolve; [|apply names_styled_init]. apply ev_enums_plugin.
  - eexists _, _. split; vm_compute; reflexivity.
Qed.
Example C12_ex_default :
  let v := fld_default (req (ty "Int")) (PInt 10) in
  exists l r', generate_input_field default_config ex_stylers ex_schema "Filter" "maxCount" v ex_reg = (Ok l, r')
  /\ (exists a x, class_fields l = [("max_count", a, Some x)] /\ wire_name "max_count" (Some x) = "maxCount" /\ accepts a JNull)
  /\ inhab false (input_leaf ex_schema (r_scalars ex_reg) ex_stylers) (if_type v) (JLeaf "int").
Proof.
  cbn zeta. eexists _, _. split; [vm_compute; reflexivity|]. split.
  - eexists _, _. split; [reflexivity|]. split; [reflexivity|]. cbn. now left.
  - split; [discriminate|]. right. exists "int". split; [|reflexivity]. exists "int". split; reflexivity.
Qed.
Theorem C12_helper_enum_refuted : exists c st s name k v r l r' a x,
  names_styled st r
  /\ generate_input_field c st s name k v r = (Ok l, r')
  /\ class_fields l = [(k, a, x)] /\ accepts a (JLeaf "Deprecated")
  /\ ~ inhab false (input_leaf s (r_scalars r) st) (if_type v) (JLeaf "Deprecated").
Proof.
  exists default_config, [appender_styler (AppenderConfig "" "" "" "" "Enum" "")],
    (Schema (scalars ++ [deprecated_enum]) None None None), "User", "flag", (fld (req (ty "Deprecated"))), (init_reg default_config).
  eexists _, _, _, _. split; [apply names_styled_init|]. split; [vm_compute; reflexivity|]. split; [reflexivity|].
  split; [reflexivity|]. intros [_ [H|(cl & H & E)]]; [discriminate|]. injection E as <-. vm_compute in H. discriminate.
Qed.
Print Assumptions C12_helper_enum_refuted.

(** C24: what a referenced oneOf input becomes: either a union of classes that carry exactly
    one mandatory non-null field under its GraphQL name, or a union of existing classes with a
    serializer that wraps the value under the GraphQL field of its class.  Missing: oneOf types
    that are also members of a union, and members that are themselves union aliases; see the
    refutations. *)
Theorem C24_oneof_partial : forall c st pc s documents r r' body,
  no_helper_enum s -> NoDup (dkeys (s_types s)) -> names_styled st r ->
  generate_inputs c st pc s documents r = (Ok body, r') ->
  exists refd,
  referenced_inputs (skipping c (ic_skip_unreferenced pc)) s documents refd
  /\ forall key t, In (key, t) (schema_inputs s) -> is_oneof t ->
       ~ union_member refd t -> ~ input_skipped (ic_skip_underscore pc) refd key ->
       oneof_valid t /\ exists out, within out body
         /\ ((direct_oneof s (ic_skip_underscore pc) (String.eqb (c_pydantic_version c) "v2") refd t /\ oneof_direct st key t out)
             \/ (~ direct_oneof s (ic_skip_underscore pc) (String.eqb (c_pydantic_version c) "v2") refd t
                 /\ oneof_wrapped (tuple_for_inputs c) (input_leaf s (r_scalars r) st) st key t out)).
Proof. exact oneof_inputs. Qed.
Print Assumptions C24_oneof_partial.
Theorem C24_invalid_oneof_rejected : forall key t r, ~ oneof_valid (InputDef key (id_fields t) (id_dirs t)) ->
  exists msg, validate_oneof_input_type (id_fields t) r = (Err (Exn GenerationErrorC msg), r).
Proof. exact validate_oneof_rejects. Qed.
Print Assumptions C24_invalid_oneof_rejected.
Example C24_ex : exists t, In ("Selector", t) (schema_inputs ex_schema) /\ is_oneof t /\ ~ union_member None t
  /\ ~ input_skipped true None "Selector".
Proof.
  eexists. split; [vm_compute; right; right; right; left; reflexivity|]. split; [|split].
  - exists one_of. split; [now left|reflexivity].
  - intros (u & dn & k & (d & [<-|[]] & H & _) & _). discriminate.
  - intros [H|[_ H]]; [apply H; intros l; discriminate|discriminate].
Qed.
(** a oneOf type that is also a union element becomes a class whose fields may all be omitted *)
Theorem C24_union_element_refuted : exists types key t body r' bases cb decs,
  run_inputs ex_stylers types = (Ok body, r') /\ In (key, TInput None (id_fields t) (id_dirs t)) types /\ is_oneof t
  /\ In (SClass key bases cb decs) body
  /\ map (fun f => (fst (fst f), may_omit (snd f))) (class_fields cb) = [("kind", true); ("a", true); ("b", true)].
Proof.
  exists [shape; circle; bad_oneof_member], "Pick",
    (InputDef None [("a", fld (ty "Int")); ("b", fld (ty "Int"))] [one_of; element_of "Shape" "kind" "pick"]).
  eexists _, _, _, _, _. split; [vm_compute; reflexivity|]. split; [cbn; auto|].
  split; [exists one_of; cbn; auto|]. split; [right; left; reflexivity|vm_compute; reflexivity].
Qed.
Print Assumptions C24_union_element_refuted.
(** a oneOf field whose type is a union alias: the serializer fails on every member of the union *)
Theorem C24_alias_member_refuted : exists types body r' f a fb ret decs,
  run_inputs ex_stylers types = (Ok body, r') /\ In (SFunc false f a fb ret decs) body
  /\ In (SAssign (EName "Shape") (annotated_of [union_of [EName "Circle"; EName "Square"];
                                                 field_call [("discriminator", estr "kind")]])) body
  /\ run_body (fun n => if String.eqb n "type" then Some (PVClass "type")
                        else if String.eqb n "isinstance" then Some (PVFun "isinstance")
                        else if String.eqb n "Shape" then Some (PVTyping "Shape") else Some (PVClass n))
              (fun _ _ => false) (fun _ _ _ => POk (PVDict [])) fb
              [("value", PVObj "Circle" []); ("handler", PVFun "handler")] = PExn (PVObj "TypeError" []).
Proof.
  exists [by_id; shape; circle; square; bad_alias_oneof]. eexists _, _, _, _, _, _, _.
  split; [vm_compute; reflexivity|]. split; [do 4 right; left; reflexivity|]. split; [do 3 right; left; reflexivity|].
  vm_compute. reflexivity.
Qed.
Print Assumptions C24_alias_member_refuted.

(** C25: members carry the literals they declare, the union lists exactly the declaring types,
    all of them with one discriminator.  Missing: see the refutations. *)
Theorem C25_unions_partial : forall c st pc s documents r r' body,
  no_helper_enum s -> NoDup (dkeys (s_types s)) -> names_styled st r ->
  generate_inputs c st pc s documents r = (Ok body, r') ->
  exists refd,
  referenced_inputs (skipping c (ic_skip_unreferenced pc)) s documents refd
  /\ (forall key t, In (key, t) (schema_inputs s) -> union_member refd t ->
       exists discr stm, In stm body
       /\ NoDup (map fst discr)
       /\ (forall dn k, In (dn, k) discr <-> exists u, declares refd t u dn k)
       /\ represents_input (tuple_for_inputs c) (input_leaf s (r_scalars r) st) st key discr (id_fields t) stm)
  /\ (forall key t, In (key, t) (schema_inputs s) -> union_target refd s key ->
       ~ union_member refd t -> ~ input_skipped (ic_skip_underscore pc) refd key -> ~ is_oneof t ->
       exists out, within out body /\ union_alias st s refd key out).
Proof. exact union_inputs. Qed.
Print Assumptions C25_unions_partial.
Example C25_ex : union_target None ex_schema "Shape"
  /\ exists t, In ("Circle", t) (schema_inputs ex_schema) /\ union_member None t.
Proof.
  assert (H : exists t, In ("Circle", t) (schema_inputs ex_schema) /\ declares None t "Shape" "kind" "circle").
  { eexists. split; [vm_compute; do 6 right; left; reflexivity|].
    split; [|intros l; discriminate]. exists (element_of "Shape" "kind" "circle"). split; [now left|]. repeat split. }
  destruct H as (t & H1 & H2). split; [exists "Circle", t, "kind", "circle"; auto|]. exists t. split; [exact H1|]. exists "Shape", "kind", "circle"; exact H2.
Qed.
(** two members with the same discriminator value are accepted *)
Theorem C25_shared_key_refuted : exists types body r' b1 b2,
  run_inputs ex_stylers types = (Ok body, r')
  /\ In (SClass "Circle" [EName "BaseModel"] b1 []) body /\ In (SClass "Square" [EName "BaseModel"] b2 []) body
  /\ In (SAssign (EName "Shape") (annotated_of [union_of [EName "Circle"; EName "Square"];
                                                 field_call [("discriminator", estr "kind")]])) body
  /\ (exists v, In ("kind", literal_of "circle", v) (class_fields b1))
  /\ (exists v, In ("kind", literal_of "circle", v) (class_fields b2)).
Proof.
  exists [shape; circle; square_again]. eexists _, _, _, _. split; [vm_compute; reflexivity|].
  split; [left; reflexivity|]. split; [right; left; reflexivity|]. split; [do 2 right; left; reflexivity|].
  split; eexists; left; reflexivity.
Qed.
Print Assumptions C25_shared_key_refuted.
(** with a snake-case styler a camel-case discriminator appears twice, as the literal and as an
    ordinary field with the same name on the wire *)
Theorem C25_duplicate_discriminator_refuted : exists types body r' bases b decs,
  run_inputs ex_stylers types = (Ok body, r') /\ In (SClass "Circle" bases b decs) body
  /\ map (fun f => wire_name (fst (fst f)) (snd f)) (class_fields b) = ["elementKind"; "elementKind"; "radius"].
Proof.
  exists [shape; camel_discriminator]. eexists _, _, _, _, _. split; [vm_compute; reflexivity|].
  split; [left; reflexivity|vm_compute; reflexivity].
Qed.
Print Assumptions C25_duplicate_discriminator_refuted.
