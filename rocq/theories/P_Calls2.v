(** Names looked up by generated functions. *)
From Verif Require Import Base PyAst Gql Config Stylers Registry Utils Documents Inline Referencer Enums Inputs Recurse Fragments Operations Objects Funcs InputFuncs Run
  Spec_Types Spec_Inputs Spec_Imports Spec_Scope Spec_Refs Spec_Funcs Spec_Classes Spec_Calls
  P_Base P_Monad P_Stylers P_Inputs P_Annot P_Recurse P_Fields P_Post P_Imports P_InlineProps P_Return P_Funcs P_Funcs2 P_Scope P_Classes P_Calls.
Arguments register_import : simpl never.
Arguments register_builtin : simpl never.

(** ** the registry only grows *)
Definition Kf : list kind := [KImp; KFwd; KBui].
Section Ev.
Variables (c : gconfig) (st : list styler) (s : schema).
Ltac go := unfold Kf in *; repeat (cbn beta zeta; first [ev_one | match goal with |- ev _ _ (match ?x with _ => _ end) => destruct x end]).
Lemma ev_unset : ev st Kf (reference_unset c).
Proof. unfold reference_unset. go. Qed.
Lemma ev_unset_type : ev st Kf (reference_unset_type c).
Proof. unfold reference_unset_type. go. Qed.
Lemma ev_coercible : forall e k, ev st Kf (coercible_input_union e k).
Proof. intros. unfold coercible_input_union. go. Qed.
Lemma ev_opt_wrap : forall b e, ev st Kf (opt_wrap b e).
Proof. intros. unfold opt_wrap. go. Qed.
Lemma ev_any_input : forall n p, ev st Kf (reference_any_input st n p).
Proof. intros. unfold reference_any_input. go. Qed.
Lemma ev_label : forall e, ev st Kf (label_of e).
Proof. intros. unfold label_of. go. Qed.
Lemma ev_name_id : forall e, ev st Kf (name_id e).
Proof. intros. unfold name_id. go. Qed.
Lemma ev_rta : forall t k o, ev st Kf (recurse_type_annotation st k t o).
Proof. induction t; intros k o; cbn [recurse_type_annotation]; go; auto; try apply ev_opt_wrap; try apply ev_any_input; try apply ev_label. Qed.
Lemma ev_rtl : forall t k o, ev st Kf (recurse_type_label st k t o).
Proof. induction t; intros k o; cbn [recurse_type_label]; go; auto; try apply ev_opt_wrap; try apply ev_any_input; try apply ev_label. Qed.
Lemma ev_roa : forall t k o, ev st Kf (recurse_outputtype_annotation st s k t o).
Proof. fix IH 1. intros [n|t|[n|t|t]] k o; cbn [recurse_outputtype_annotation]; go; try apply IH; try apply ev_opt_wrap. Qed.
Lemma ev_rol : forall t k o, ev st Kf (recurse_outputtype_label st s k t o).
Proof. induction t; intros k o; cbn [recurse_outputtype_label]; go; auto; try apply ev_name_id; try apply ev_opt_wrap; try apply ev_any_input; try apply ev_label. Qed.
Lemma ev_input_description : forall t, ev st Kf (generate_input_description s t).
Proof. induction t; cbn [generate_input_description]; go; auto. Qed.
Section PC.
Variable pc : fcfg.
Lemma ev_input_annotation : forall t o, ev st Kf (generate_input_annotation st s pc t o).
Proof. induction t; intros o; cbn [generate_input_annotation]; go; auto; try apply ev_coercible; try apply ev_opt_wrap. Qed.
Lemma ev_descriptions : forall l, ev st Kf (generate_input_type_descriptions st s l).
Proof. intros. unfold generate_input_type_descriptions. go; try apply ev_input_description. Qed.
Lemma ev_variable_annotation : forall t, ev st Kf (generate_variable_annotation st pc t).
Proof. intros. unfold generate_variable_annotation. go; try apply ev_rta; try apply ev_coercible. Qed.
Lemma ev_unset_union : forall e, ev st Kf (unset_union_annotation c e).
Proof. intros. unfold unset_union_annotation. go; try apply ev_unset_type. Qed.
Lemma ev_new_dict : forall d, ev st Kf (new_dict d).
Proof. intros. unfold new_dict, dict_str_any_annotation. go. Qed.
Lemma ev_input_params : forall l, ev st Kf (generate_input_type_params c st s pc l).
Proof. intros. unfold generate_input_type_params. go; try apply ev_input_annotation; try apply ev_unset_union; try apply ev_unset. Qed.
Lemma ev_parameters : forall d o, ev st Kf (generate_parameters c st s pc d o).
Proof.
  intros. unfold generate_parameters, expanded_type, fields_of. go; try apply ev_input_annotation; try apply ev_unset_union; try apply ev_unset; try apply ev_input_params; try apply ev_variable_annotation.
Qed.
Lemma ev_guard : forall b d k p, ev st Kf (assign_or_guard c b d k p).
Proof. intros. unfold assign_or_guard, guarded_assign. go; try apply ev_unset. Qed.
Lemma ev_assignment : forall v, ev st Kf (variable_assignment c st s pc v).
Proof. intros. unfold variable_assignment, expanded_type, fields_of. go; try apply ev_guard; try apply ev_new_dict. Qed.
Lemma ev_assignments : forall o, ev st Kf (generate_variable_assignments c st s pc o).
Proof. intros. unfold generate_variable_assignments. go; try apply ev_new_dict; try apply ev_assignment. Qed.
Lemma ev_class_name : forall o, ev st Kf (get_operation_class_name st o).
Proof. intros. unfold get_operation_class_name. go. Qed.
Lemma ev_collapsed : forall o b e, ev st Kf (collapsed_attr st o b e).
Proof. intros. unfold collapsed_attr, first_field. go. Qed.
Lemma ev_call : forall d o b, ev st Kf (call_stmt st pc d o b).
Proof. intros. unfold call_stmt, proxy_call. go; try apply ev_collapsed; try apply ev_class_name. Qed.
Lemma ev_fragment_class : forall n t, ev st Kf (fragment_class_for st n t).
Proof. intros. unfold fragment_class_for, name_id, get_interface_fragment_implementation_or_none. go. Qed.
Lemma ev_return_annotation : forall o b, ev st Kf (get_return_type_annotation st s o b).
Proof.
  intros. unfold get_return_type_annotation, root_of, first_field, field_type, get_operation_single_or_none. go; try apply ev_roa; try apply ev_fragment_class; try apply ev_class_name.
Qed.
Lemma ev_return_string : forall o b, ev st Kf (get_return_type_string st s o b).
Proof. intros. unfold get_return_type_string, root_of, first_field, field_type. go; try apply ev_rol; try apply ev_fragment_class; try apply ev_class_name. Qed.
Lemma ev_query_doc : forall doc_of d o b, ev st Kf (generate_query_doc st s pc doc_of d o b).
Proof.
  intros. unfold generate_query_doc, root_of, expanded_type, fields_of, default_text. go; try apply ev_class_name; try apply ev_return_string; try apply ev_rtl; try apply ev_descriptions.
Qed.
Lemma ev_func : forall doc_of o d, ev st Kf (generate_operation_func c st s pc doc_of o d).
Proof.
  intros. unfold generate_operation_func, func_name. go; try apply ev_return_annotation; try apply ev_query_doc; try apply ev_assignments; try apply ev_parameters; try apply ev_call.
Qed.
End PC.
Lemma ev_input_func : forall pc n fields, ev st Kf (generate_input_func c st s pc n fields).
Proof. intros. unfold generate_input_func. go; try apply ev_input_params; try apply ev_descriptions; try apply ev_guard; try apply ev_new_dict. Qed.
Lemma ev_functions : forall pc doc_of d, ev st Kf (funcs_plugin c st s pc doc_of d).
Proof. intros. unfold funcs_plugin, generate_functions. go; try apply ev_func. Qed.
End Ev.
