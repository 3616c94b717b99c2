(** C18, C19: reference collection. *)
From Verif Require Import Base PyAst Gql Referencer Spec_Refs P_Base P_Refs Ex_Inputs.

(** C18 *)
Theorem C18_referenced_inputs_exact : forall s d r,
  unique_names d -> create_reference_registry s d = Ok r ->
  (forall n, In n (rf_inputs r) <-> needs s (variable_type d) n /\ is_input s n)
  /\ (forall n, needs s (variable_type d) n -> is_enum s n -> In n (rf_enums r))
  /\ (forall n, needs s (variable_type d) n -> is_scalar s n -> In n (rf_scalars r)).
Proof. exact registry_C18. Qed.
Print Assumptions C18_referenced_inputs_exact.
Theorem C18_terminates : forall s d msg, create_reference_registry s d <> Err (Exn OutOfFuelC msg).
Proof. exact registry_fuel. Qed.
Print Assumptions C18_terminates.
(** variables of a closed schema never make the collection fail *)
Theorem C18_variables_succeed : forall s (vs : list vardef),
  inputs_closed s -> (forall v, In v vs -> input_side s (gty_name (v_type v))) ->
  exists st, rfold (fun v st => recurse_type_annotation_refs s (v_type v) st) vs no_refs = Ok st.
Proof. exact variables_succeed. Qed.
Print Assumptions C18_variables_succeed.
Example C18_ex : unique_names ref_doc /\ (exists r, create_reference_registry ref_schema ref_doc = Ok r
    /\ rf_inputs r = ["Filter"] /\ rf_enums r = ["Color"])
  /\ needs ref_schema (variable_type ref_doc) "Color" /\ inputs_closed ref_schema.
Proof.
  split; [split; repeat constructor; cbn; tauto|]. split; [eexists; split; [vm_compute; reflexivity|split; reflexivity]|].
  split.
  2: { intros n d f di kv E Hk. apply dget_Some_In in E.
       repeat (destruct E as [E|E]; [try discriminate E; injection E as <- <- <- <-;
         repeat (destruct Hk as [<-|Hk]; [eexists; split; [vm_compute; reflexivity|exact I]|]); contradiction|]).
       contradiction. }
  change "Color" with (gty_name (if_type (snd ("color", fld (ty "Color"))))).
  eapply needs_field with (n := "Filter"); [|vm_compute; reflexivity|cbn; auto].
  apply needs_root. eexists _, _. split; [left; reflexivity|]. split; [left; reflexivity|reflexivity].
Qed.

(** C19: proved for documents without inline fragments directly inside inline fragments and
    without inline fragments at the root of an operation.  Missing: exactly those, see the
    refutations. *)
Theorem C19_selected_enums_partial : forall s d r e,
  unique_names d -> flat_document d -> create_reference_registry s d = Ok r ->
  document_selects s d e -> is_enum s e -> In e (rf_enums r).
Proof. exact registry_enums. Qed.
Print Assumptions C19_selected_enums_partial.
Example C19_ex : flat_document ref_doc /\ document_selects ref_schema ref_doc "Color" /\ is_enum ref_schema "Color".
Proof.
  split; [|split].
  - split.
    + intros o [[= <-]|[]]. split; [|intros x [<-|[]]; intros []]. constructor.
      * intros f sub [[= <-]|[]] [= <-]. constructor.
        -- intros f sub [[= <-]|[H|[]]]; discriminate.
        -- intros c di sub [H|[[= <- <- <-]|[]]]; [discriminate|]. split; [constructor|].
           ++ intros f s' [[= <-]|[]]; discriminate.
           ++ intros c di s' [H|[]]; discriminate.
           ++ intros x [<-|[]] [].
      * intros c di sub [H|[]]; discriminate.
    + intros f [H|[]]; discriminate.
  - left. eexists _, "Query". split; [left; reflexivity|]. split; [reflexivity|].
    eapply sl_below; [left; reflexivity|discriminate|vm_compute; reflexivity|reflexivity| |].
    + eexists. split; [vm_compute; reflexivity|exact I].
    + eapply sl_inline; [right; left; reflexivity|].
      change "Color" with (gty_name (fd_type (ofield (ty "Color")))).
      eapply sl_here; [left; reflexivity|discriminate|vm_compute; reflexivity].
  - eexists _, _. vm_compute. reflexivity.
Qed.
Theorem C19_nested_inline_refuted : exists s d r e, unique_names d /\ create_reference_registry s d = Ok r
  /\ document_selects s d e /\ is_enum s e /\ ~ In e (rf_enums r).
Proof.
  exists ref_schema, nested_doc. eexists. exists "Color".
  split; [split; repeat constructor; cbn; tauto|]. split; [vm_compute; reflexivity|]. split; [|split].
  - left. eexists _, "Query". split; [left; reflexivity|]. split; [reflexivity|].
    eapply sl_below; [left; reflexivity|discriminate|vm_compute; reflexivity|reflexivity| |].
    + eexists. split; [vm_compute; reflexivity|exact I].
    + eapply sl_inline; [left; reflexivity|]. eapply sl_inline; [left; reflexivity|].
      change "Color" with (gty_name (fd_type (ofield (ty "Color")))).
      eapply sl_here; [left; reflexivity|discriminate|vm_compute; reflexivity].
  - eexists _, _. vm_compute. reflexivity.
  - intros [].
Qed.
Print Assumptions C19_nested_inline_refuted.
Theorem C19_root_inline_refuted : exists s d r e, unique_names d /\ create_reference_registry s d = Ok r
  /\ document_selects s d e /\ is_enum s e /\ ~ In e (rf_enums r).
Proof.
  exists ref_schema, root_inline_doc. eexists. exists "Color".
  split; [split; repeat constructor; cbn; tauto|]. split; [vm_compute; reflexivity|]. split; [|split].
  - left. eexists _, "Query". split; [left; reflexivity|]. split; [reflexivity|].
    eapply sl_inline; [left; reflexivity|].
    eapply sl_below; [left; reflexivity|discriminate|vm_compute; reflexivity|reflexivity| |].
    + eexists. split; [vm_compute; reflexivity|exact I].
    + change "Color" with (gty_name (fd_type (ofield (ty "Color")))).
      eapply sl_here; [left; reflexivity|discriminate|vm_compute; reflexivity].
  - eexists _, _. vm_compute. reflexivity.
  - intros [].
Qed.
Print Assumptions C19_root_inline_refuted.
