(** C53: the fields of generated classes are fields for pydantic. *)
From Verif Require Import Base PyAst Gql Config Stylers Registry Utils Documents Inline Referencer Enums Inputs Recurse Fragments Operations Objects
  Spec_Types Spec_Fields Spec_Names Spec_Pydantic P_Base P_Pydantic Ex_Inputs Ex_Select.

(** C53.  With the shipped stylers, in every class the plugins for operations, fragments, objects and inputs generate (also in the classes
    inside a class), a field whose GraphQL name has no underscore in front and is not, but for case and underscores, the name of a
    protected member of BaseModel, is a field for pydantic; one with an underscore in front is a private attribute, unless it is the type
    name; and if there are only names of the first kind, pydantic creates all classes.  Missing for the full property, that every field of
    GraphQL becomes a field: those other names, see the refutations. *)
Theorem C53_operations_partial : forall c st s pc po add doc_of d r l r',
  operations_plugin c st s pc po add doc_of d r = (Ok l, r') ->
  Forall shipped st -> public_fields l /\ private_fields l /\ (all_public l -> all_creatable l).
Proof. exact operations_C53. Qed.
Print Assumptions C53_operations_partial.
Theorem C53_fragments_partial : forall c st s pc pf add d r l r',
  fragments_plugin c st s pc pf add d r = (Ok l, r') ->
  Forall shipped st -> public_fields l /\ private_fields l /\ (all_public l -> all_creatable l).
Proof. exact fragments_C53. Qed.
Print Assumptions C53_fragments_partial.
Theorem C53_objects_partial : forall c st s pc r l r', generate_types c st s pc r = (Ok l, r') ->
  Forall shipped st -> public_fields l /\ private_fields l /\ (all_public l -> all_creatable l).
Proof. exact objects_C53. Qed.
Print Assumptions C53_objects_partial.
Theorem C53_inputs_partial : forall c st s pc documents r l r', generate_inputs c st pc s documents r = (Ok l, r') ->
  Forall shipped st -> public_fields l /\ private_fields l /\ (all_public l -> all_creatable l).
Proof. exact inputs_C53. Qed.
Print Assumptions C53_inputs_partial.
Ltac public := first [right; reflexivity|left; split; [reflexivity|vm_compute; intuition discriminate]].
Ltac each H := cbn in H; repeat match type of H with _ \/ _ => destruct H as [H|H] | False => contradiction end.
Example C53_ex :
  (exists l r', run_inputs sst [("Filter", TInput None [("maxCount", fld (ty "Int")); ("class", fld (ty "Int")); ("model", fld (req (ty "Int")))] [])] = (Ok l, r')
     /\ map (fun b => map attribute (class_fields b)) (flat_map class_bodies l) = [["max_count"; "class_"; "model"]] /\ all_public l)
  /\ exists l r', operations_plugin default_config sst sx sx_pc (fun _ => "query") (fun t => Ok t) (fun _ => None)
        [DOp (sx_op [] [SelField (sub "me" [plain "id"; SelField (FieldNode (Some "_name") "userName" [] [] None)])])] sx_reg = (Ok l, r')
     /\ map (fun b => map attribute (class_fields b)) (flat_map class_bodies l) = [["typename"; "id"; "_name"]; ["me"]; []; []] /\ ~ all_public l.
Proof.
  split.
  - do 2 eexists. split; [vm_compute; reflexivity|]. split; [reflexivity|]. intros body f Hb Hf. each Hb; subst body; each Hf; subst f; public.
  - do 2 eexists. split; [vm_compute; reflexivity|]. split; [reflexivity|]. intros H.
    destruct (H _ _ (or_introl eq_refl) (or_intror (or_intror (or_introl eq_refl)))) as [[H1 _]|H1]; discriminate H1.
Qed.
(** an input type as in the schemas of Hasura: pydantic takes [_eq] for a private attribute, which is never sent *)
Theorem C53_private_refuted : exists fields body r' bases b f g,
  run_inputs [default_styler] [("IntFilter", TInput None fields [])] = (Ok body, r')
  /\ map fst fields = ["_eq"; "_gt"] /\ body = [SClass "IntFilter" bases b []] /\ class_fields b = [f; g] /\ wire f = "_eq"
  /\ ~ model_field (attribute f) /\ ~ model_field (attribute g) /\ creatable b.
Proof.
  exists [("_eq", fld (ty "Int")); ("_gt", fld (ty "Int"))]. do 6 eexists. split; [vm_compute; reflexivity|].
  split; [reflexivity|]. split; [reflexivity|]. split; [reflexivity|]. split; [reflexivity|].
  split; [intros [H _]; now apply H|]. split; [intros [H _]; now apply H|].
  intros n a v H. each H; injection H as <- <- <-; (split; [cbn; intuition discriminate|]); intros _ (args & kws & E); discriminate E.
Qed.
Print Assumptions C53_private_refuted.
(** with a description, pydantic does not even create the class *)
Theorem C53_described_refuted : exists fields body r' bases b f,
  run_inputs [default_styler] [("IntFilter", TInput None fields [])] = (Ok body, r')
  /\ map fst fields = ["_eq"] /\ body = [SClass "IntFilter" bases b []] /\ class_fields b = [f] /\ private_name (attribute f) /\ is_field_call (snd f) /\ ~ creatable b.
Proof.
  exists [("_eq", InputField (ty "Int") None (Some "equal to") None)]. do 5 eexists. split; [vm_compute; reflexivity|].
  split; [reflexivity|]. split; [reflexivity|]. split; [reflexivity|]. split; [reflexivity|]. split; [do 2 eexists; reflexivity|].
  intros H. destruct (H _ _ _ (or_introl eq_refl)) as [_ H1]. apply H1; [reflexivity|]. do 2 eexists. reflexivity.
Qed.
Print Assumptions C53_described_refuted.
(** nor that of an operation that selects a nullable field with such a name (here through an alias) *)
Theorem C53_selected_refuted : exists f fd classes body r' cls bases b tag g,
  type_field_node default_config sst sx f "Get" fd sx_reg = (Ok (classes, body), r')
  /\ classes = [SClass cls bases b []] /\ class_fields b = [tag; g] /\ wire g = "_name" /\ private_name (attribute g) /\ ~ creatable b.
Proof.
  exists (sub "me" [SelField (FieldNode (Some "_name") "userName" [] [] None)]), (out (GNonNull (GNamed "User"))). do 8 eexists.
  split; [vm_compute; reflexivity|]. split; [reflexivity|]. split; [reflexivity|]. split; [reflexivity|]. split; [reflexivity|].
  intros H. destruct (H _ _ _ (or_intror (or_introl eq_refl))) as [_ H1]. apply H1; [reflexivity|]. do 2 eexists. reflexivity.
Qed.
Print Assumptions C53_selected_refuted.
(** snake casing makes a member of BaseModel out of [modelFields] *)
Theorem C53_protected_refuted : exists fields body r' bases b f,
  run_inputs [default_styler] [("Car", TInput None fields [])] = (Ok body, r')
  /\ map fst fields = ["modelFields"] /\ body = [SClass "Car" bases b []] /\ class_fields b = [f] /\ In (attribute f) protected_members /\ ~ creatable b.
Proof.
  exists [("modelFields", fld (ty "Int"))]. do 5 eexists. split; [vm_compute; reflexivity|].
  split; [reflexivity|]. split; [reflexivity|]. split; [reflexivity|]. split; [vm_compute; tauto|].
  intros H. destruct (H _ _ _ (or_introl eq_refl)) as [H1 _]. apply H1. vm_compute. tauto.
Qed.
Print Assumptions C53_protected_refuted.
