(** C15, C16, C32: variable annotations, return annotations, default values. *)
From Verif Require Import Base PyAst Gql Config Stylers Registry Utils PySem Spec_Types Spec_Annot P_Annot.

(** ** C32 *)
Theorem C32_defaults_survive : forall glob subclass call env v, pyval_wf v ->
  eval glob subclass call env (convert_default_value_to_ast v) = POk (py_value v).
Proof. exact defaults_C32. Qed.
Print Assumptions C32_defaults_survive.
Definition ex_default : pyval :=
  PDict [("tags", PList [PStr "it's"; PNone; PList [PBool true; PInt (-3)]]); ("inner", PDict [("f", PFloat "1.5")])].
Example C32_ex : pyval_wf ex_default /\
  py_value ex_default = PVDict [(PVConst (CStr "tags"), PVList [PVConst (CStr "it's"); PVConst CNone;
                                   PVList [PVConst (CBool true); PVConst (CInt (-3))]]);
                                (PVConst (CStr "inner"), PVDict [(PVConst (CStr "f"), PVConst (CFloat "1.5"))])].
Proof. cbn. repeat split; repeat constructor; cbn; intuition discriminate. Qed.

(** ** C15: an annotation is generated exactly when the variable's type is known, and it
    accepts exactly the values of the declared type. *)
Theorem C15_annotation : forall stylers t r, named stylers (gty_name t) ->
  ((exists e r', recurse_type_annotation stylers None t true r = (Ok e, r'))
   <-> exists c, class_for stylers r (gty_name t) c)
  /\ forall e r', recurse_type_annotation stylers None t true r = (Ok e, r') ->
     forall v, accepts e v <-> inhab false (class_for stylers r) t v.
Proof. exact annotation_C15. Qed.
Print Assumptions C15_annotation.
(** The label is the rendering of the annotation.  [_partial]: not for built-in enums. *)
Theorem C15_label_partial : forall stylers t r e r', named stylers (gty_name t) -> ~ In (gty_name t) built_in_keys ->
  recurse_type_annotation stylers None t true r = (Ok e, r') ->
  exists r'', recurse_type_label stylers None t true r' = (Ok (unparse e), r'').
Proof. exact label_C15. Qed.
Print Assumptions C15_label_partial.
Definition ex_reg : reg := with_enums [("Color", "Color")] (with_inputs [("Filter", "Filter")] (init_reg default_config)).
Definition ex_ty : gty := GNonNull (GList (GList (GNonNull (GNamed "Filter")))).
Example C15_ex : named [default_styler] "Filter" /\
  fst (recurse_type_annotation [default_styler] None ex_ty true ex_reg) = Ok (list_of (optional_of (list_of (EName "Filter"))))
  /\ fst (recurse_type_label [default_styler] None ex_ty true ex_reg) = Ok "List[Optional[List[Filter]]]"
  /\ class_for [default_styler] ex_reg "Filter" "Filter".
Proof. split; [split; discriminate|]. split; [reflexivity|]. split; [reflexivity|]. now apply cf_input. Qed.
(** The label of a built-in enum is unquoted although the annotation is a string. *)
Theorem C15_label_refuted : exists t r e r' l r'',
  recurse_type_annotation [default_styler] None t true r = (Ok e, r')
  /\ recurse_type_label [default_styler] None t true r' = (Ok l, r'') /\ l <> unparse e.
Proof.
  exists (GNonNull (GNamed "__TypeKind")), (init_reg default_config). do 4 eexists.
  split; [reflexivity|]. split; [reflexivity|]. discriminate.
Qed.
Print Assumptions C15_label_refuted.

(** ** C16, for the annotation of an output type; [over] is the class generated for the
    selection.  [_partial]: only for types without non-null wrappers. *)
Theorem C16_annotation_partial : forall stylers s over t r e r', named stylers (gty_name t) -> all_nullable t ->
  recurse_outputtype_annotation stylers s (Some over) t true r = (Ok e, r') ->
  forall v, accepts e v <-> inhab false (output_class stylers s r over) t v.
Proof. exact annotation_C16. Qed.
Print Assumptions C16_annotation_partial.
Theorem C16_label_partial : forall stylers s over t r e r', named stylers (gty_name t) -> all_nullable t ->
  ~ In (gty_name t) built_in_keys ->
  recurse_outputtype_annotation stylers s (Some over) t true r = (Ok e, r') ->
  exists r'', recurse_outputtype_label stylers s (Some over) t true r' = (Ok (unparse e), r'').
Proof. exact label_C16. Qed.
Print Assumptions C16_label_partial.
Definition ex_out_schema : schema :=
  Schema [("Query", TObject None [] [] []); ("User", TObject None [] [] []); ("String", TScalar None)] (Some "Query") None None.
Example C16_ex : let m := recurse_outputtype_annotation [default_styler] ex_out_schema (Some "GetUsers") (GList (GNamed "User")) true in
  fst (m ex_reg) = Ok (optional_of (list_of (optional_of (EName "GetUsers"))))
  /\ fst (recurse_outputtype_label [default_styler] ex_out_schema (Some "GetUsers") (GList (GNamed "User")) true ex_reg)
     = Ok "Optional[List[Optional[GetUsers]]]"
  /\ all_nullable (GList (GNamed "User")).
Proof. repeat split. Qed.
(** [String!] cannot be annotated at all; [[User]!] is annotated as [User], neither a list nor
    agreeing with the label. *)
Theorem C16_nonnull_refuted :
  (forall stylers s over n r, is_ok (fst (recurse_outputtype_annotation stylers s over (GNonNull (GNamed n)) true r)) = false)
  /\ exists s t r e l, fst (recurse_outputtype_annotation [default_styler] s (Some "GetUsers") t true r) = Ok e
     /\ fst (recurse_outputtype_label [default_styler] s (Some "GetUsers") t true r) = Ok l
     /\ t = GNonNull (GList (GNamed "User")) /\ e = EName "GetUsers" /\ l = "List[Optional[GetUsers]]"
     /\ inhab false (output_class [default_styler] s r "GetUsers") t (JSeq false []) /\ ~ accepts e (JSeq false []).
Proof.
  split; [reflexivity|]. exists ex_out_schema, (GNonNull (GList (GNamed "User"))), ex_reg, (EName "GetUsers"), "List[Optional[GetUsers]]".
  repeat split; [discriminate| |discriminate]. right. exists []. split; [reflexivity|]. intros x [].
Qed.
Print Assumptions C16_nonnull_refuted.
