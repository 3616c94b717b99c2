(** The starter templates. *)
From Coq Require Import Permutation.
From Verif Require Import Base PyAst Gql Config Stylers Registry Strawberry Enums Inputs Print Fragments Operations Funcs Run
  Spec_Docs Spec_Refs Spec_Imports Spec_Inputs Spec_Types Spec_Scope Spec_Scope2 Spec_Scope3 Spec_Inline Spec_Valid Spec_ValidDoc Spec_ValidFuncs Spec_Naming Spec_Syntax Spec_Syntax2 Spec_Syntax3 Templates Spec_Templates
  P_Base P_InputProps P_Total4 P_Total8 P_Scope8 P_Scope9 P_Scope10 Prop_Total Prop_TotalDoc Prop_TotalFuncs Prop_Scope Prop_Scope2 Prop_Scope3 Prop_Scope4 Prop_Syntax.

Lemma order_in : forall iter, set_order iter -> forall l x, In x (iter l) -> In x l.
Proof. intros iter H l x. apply Permutation_in, H. Qed.
Lemma template_config_named : forall docs sk, config_named (template_config docs sk).
Proof.
  intros docs sk. constructor; cbn; try (intros; contradiction); try discriminate.
  - intros b H. by_elem H. now subst b.
  - intros k p H. by_elem H. now injection H as <- <-.
  - intros p H. by_elem H; discriminate H.
Qed.
Lemma template_stylers_named : forall x, In x template_stylers -> styler_named x.
Proof. intros x H. by_elem H; subst x; apply C63_stylers. Qed.
Lemma template_scalars : forall bi docs sk, incl simple_types bi ->
  forall n x, dget n (r_scalars (init_reg (template_config docs sk))) = Some x -> has_dot x = false -> In x bi.
Proof.
  intros bi docs sk H n x E D. apply H. apply dget_Some_In in E. vm_compute in E. by_elem E; injection E as <- <-; try discriminate D; cbn; tauto.
Qed.
Lemma class_nonempty : forall n, is_name n = true -> class_name n <> "".
Proof.
  intros n H E. unfold class_name in E. destruct n as [|a r]; [discriminate H|]. destruct (iskeyword (cap_first (String a r))); discriminate E.
Qed.
Section Client.
Variable s : schema.
Variable d : document.
Variable ps : string -> bool -> string.
Variable add : string -> res string.
Hypothesis R : client_ready s d ps add.

Lemma t_nodup : NoDup (dkeys (s_types s)).
Proof. exact (vs_names _ (cr_schema _ _ _ _ R)). Qed.
Lemma t_input_in : forall n, Spec_Valid.is_input s n = true -> Spec_Refs.is_input s n /\ exists t, In (n, t) (s_types s).
Proof.
  intros n H. unfold Spec_Valid.is_input in H. destruct (get_type s n) as [[]|] eqn:G; try discriminate H. split; [unfold Spec_Refs.is_input; rewrite G; eauto|].
  apply dget_Some_In in G. eauto.
Qed.
Lemma t_enum_in : forall n, Spec_Valid.is_enum s n = true -> exists t, In (n, t) (s_types s).
Proof. intros n H. unfold Spec_Valid.is_enum in H. destruct (get_type s n) as [t|] eqn:G; [|discriminate H]. apply dget_Some_In in G. eauto. Qed.
Lemma t_named : forall n t, In (n, t) (s_types s) -> class_name n <> "".
Proof. intros n t H. apply class_nonempty. exact (sn_types _ (cr_names _ _ _ _ R) _ _ H). Qed.
Lemma t_order : c_force_plugin_order client_config = true -> enums_kept s (fun _ => true) (underscored (ec_skip_underscore default_enums_config) (ec_skip_double_underscore default_enums_config))
    /\ enums_apart s (style_enum_class template_stylers) (map (style_inputtype_class template_stylers) (flat_map input_names (s_types s)))
    /\ (ec_skip_unreferenced default_enums_config = true -> ic_skip_unreferenced default_inputs_config = true).
Proof.
  intros _. split; [|split; [exact (cr_apart _ _ _ _ R)|reflexivity]]. intros k t n H [E|E] M I; [discriminate E|]. exact (cr_enums _ _ _ _ R k t n H E M I).
Qed.
Lemma t_known : forall n, In n scalars_of_templates -> In n (known_scalars client_config).
Proof. intros n H. destruct H as [<-|H]; [apply in_or_app; right; now left|apply in_or_app; now left]. Qed.
Lemma t_scalars : scalars_known s (known_scalars client_config).
Proof. intros k t n H M I. apply t_known. exact (cr_scalars _ _ _ _ R k t n H M I). Qed.
Lemma t_variables : forall o v n, In o (operations_of d) -> In v (op_vars o) -> n = gty_name (v_type v) ->
    (is_scalar s n = true -> In n (known_scalars client_config))
    /\ (is_input s n = true -> (ic_skip_underscore default_inputs_config && startswith "_" n) = false /\ style_inputtype_class template_stylers n <> "")
    /\ (is_enum s n = true -> underscored (ec_skip_underscore default_enums_config) (ec_skip_double_underscore default_enums_config) n = false /\ style_enum_class template_stylers n <> "").
Proof.
  intros o v n Ho Hv E. destruct (cr_variable_types _ _ _ _ R o v n Ho Hv E) as [V1 V2]. split; [|split].
  - intros I. apply t_known, V1, I.
  - intros I. destruct (t_input_in _ I) as (I' & t & Ht). split; [exact (cr_underscore _ _ _ _ R _ I')|exact (t_named _ _ Ht)].
  - intros I. destruct (t_enum_in _ I) as (t & Ht). split; [exact (V2 I)|exact (t_named _ _ Ht)].
Qed.
Lemma t_string : ~ Spec_Refs.is_enum s "String".
Proof. intros (x & vs & G). generalize (cr_string _ _ _ _ R). unfold is_scalar. rewrite G. discriminate. Qed.
Lemma t_inputs : inputs_available (ic_skip_underscore default_inputs_config) (skipping client_config (ic_skip_unreferenced default_inputs_config)) s (Ok d).
Proof.
  split; [intros _; exact (cr_underscore _ _ _ _ R)|]. intros _ d' [= <-]. split.
  - split; [exact (vd_fragments _ _ (cr_document _ _ _ _ R))|exact (vd_operations _ _ (cr_document _ _ _ _ R))].
  - intros key t u dn k kv Hin (x & Hx & E) _ _ _. exfalso. unfold schema_inputs in Hin. apply in_flat_map in Hin as ((k' & t') & Ht & Hin). destruct t'; try destruct Hin.
    injection H as <- <-. destruct (cr_inputs _ _ _ _ R) as (_ & _ & N). exact (N _ _ _ _ _ Ht Hx (proj1 E)). contradiction.
Qed.
Lemma t_enums : enums_available (ec_skip_underscore default_enums_config) (ec_skip_double_underscore default_enums_config) (skipping client_config (ec_skip_unreferenced default_enums_config)) s d.
Proof.
  split; [|intros _; exact (cr_flat _ _ _ _ R)]. intros e E S. destruct (cr_selected _ _ _ _ R e E S) as [H1 H2]. split; [exact H1|]. split; [discriminate|]. intros _. exact H2.
Qed.
Lemma t_code : forall doc_of, Forall (code_plugin template_stylers s d client_config) (document_plugins s d ps add doc_of).
Proof.
  intros doc_of. unfold document_plugins. repeat (apply Forall_cons; [apply CClient; constructor|]); [..|apply Forall_nil].
  - intros b H. by_elem H. subst b. reflexivity.
  - intros b H. by_elem H.
  - exact (cr_fragments _ _ _ _ R).
  - intros b H. by_elem H.
  - exact (cr_variables _ _ _ _ R).
Qed.
Theorem documents_template_ok : forall iter bi doc_of, set_order iter -> incl simple_types bi ->
  exists t, documents_template iter s d ps add doc_of = Ok t /\ valid_module t = true /\ scoped (fun n => In n bi) t.
Proof.
  intros iter bi doc_of HO HB.
  destruct (C59_documents_partial client_config template_stylers s default_enums_config default_inputs_config default_fragments_config default_operations_config doc_of d ps add iter false
    (order_in _ HO) (cr_schema _ _ _ _ R) (cr_string _ _ _ _ R) (cr_inputs _ _ _ _ R) t_scalars (cr_document _ _ _ _ R) (cr_supported _ _ _ _ R) t_order (fun _ => t_variables)) as (t & E).
  exists t. split; [exact E|]. split.
  - exact (C63_valid_python_partial iter HO client_config template_stylers s d (template_config_named _ _) template_stylers_named (cr_names _ _ _ _ R) (cr_doc_names _ _ _ _ R) _ _ _ (t_code doc_of) E).
  - eapply (C60_client_partial bi client_config template_stylers default_enums_config default_inputs_config default_fragments_config default_operations_config s d); [exact HB|apply (template_scalars bi _ _ HB)|reflexivity|exact t_nodup|exact t_inputs|exact (cr_document _ _ _ _ R)
      |exact (sd_inline _ _ _ _ (cr_supported _ _ _ _ R))|exact t_enums|exact t_string|exact (cr_unions _ _ _ _ R)|exact (cr_members _ _ _ _ R)|intros _; exact (cr_variables _ _ _ _ R)| |left; apply incl_refl|exact HO|exact E].
    intros [K|(_ & K)]; [discriminate K|exact (cr_field _ _ _ _ R K)].
Qed.

Section Functions.
Variable args : list farg.
Variable kwargs : list fkwarg.
Variable defs : list fdef.
Notation pc := (functions_config args kwargs defs).
Hypothesis F : functions_ready s d template_stylers pc.
Theorem functions_template_ok : forall iter doc_of, set_order iter ->
  exists t, functions_template pc iter s d ps add doc_of = Ok t /\ valid_module t = true
    /\ forall bi, incl simple_types bi -> (forall k, In k kwargs \/ (exists def, In def defs /\ In k (d_kwargs def)) -> fk_default k <> CNone) -> scoped (fun n => In n bi) t.
Proof.
  intros iter doc_of HO.
  assert (GE : forall o, (In o (operations_of d) /\ exists def, In def (f_definitions pc) /\ d_kind def = op_kind o) -> gets_functions d o (map d_kind (f_definitions pc))).
  { intros o (Ho & def & Hd & E). split; [exact Ho|]. rewrite <- E. now apply in_map. }
  destruct (C54_functions_partial client_config template_stylers s default_enums_config default_inputs_config default_fragments_config default_operations_config pc doc_of doc_of d ps add iter false
    (order_in _ HO) (cr_schema _ _ _ _ R) (cr_string _ _ _ _ R) (cr_inputs _ _ _ _ R) t_scalars (cr_document _ _ _ _ R) (cr_supported _ _ _ _ R) t_order _ eq_refl) as (pre & fs & post & E & _).
  - intros o v n Ho _ Hv En. exact (t_variables o v n Ho Hv En).
  - destruct (fr_supported _ _ _ _ F) as [S1 S2 S3 S4]. split; intros; eauto.
  - intros o e G K. destruct (fr_enums _ _ _ _ F o e (GE o G) K) as (K1 & K2 & K3). split; [exact K1|]. split; [exact K2|]. split; [|exact K3].
    destruct K as [K _]. destruct (t_enum_in _ K) as (t & Ht). exact (t_named _ _ Ht).
  - intros o n (Ho & _) En. apply in_operations in Ho. destruct (dn_ops _ (cr_doc_names _ _ _ _ R) o Ho) as (N & _). rewrite En in N. destruct (op_kind o); exact (class_nonempty n N).
  - intros f Hf. apply in_fragments in Hf. destruct (dn_frags _ (cr_doc_names _ _ _ _ R) f Hf) as (N & _). exact (class_nonempty _ N).
  - exists (pre ++ fs ++ post). split; [exact E|]. split.
    + eapply (C63_valid_python_partial iter HO client_config template_stylers s d (template_config_named _ _) template_stylers_named (cr_names _ _ _ _ R) (cr_doc_names _ _ _ _ R)); [|exact E].
      apply (Forall_app (code_plugin template_stylers s d client_config) (document_plugins s d ps add doc_of)). split; [apply t_code|]. constructor; [|constructor]. apply CClient. constructor; [exact (fr_functions _ _ _ _ F)|exact (cr_variables _ _ _ _ R)|exact (fr_roots _ _ _ _ F)].
    + intros bi HB HK.
      eapply (C60_functions_partial bi client_config template_stylers default_enums_config default_inputs_config default_fragments_config default_operations_config pc s d); [exact HB|apply (template_scalars bi _ _ HB)|reflexivity|exact t_nodup|exact t_inputs|exact (cr_document _ _ _ _ R)
      |exact (sd_inline _ _ _ _ (cr_supported _ _ _ _ R))|exact t_enums|exact t_string|exact (cr_unions _ _ _ _ R)|exact (cr_members _ _ _ _ R)|intros _; exact (cr_variables _ _ _ _ R)| |left; apply incl_refl|exact (fr_inputs _ _ _ _ F)| | |exact HK|exact HO|exact E].
      * intros [K|(_ & K)]; [discriminate K|exact (cr_field _ _ _ _ R K)].
      * intros n _ [[]|[]].
      * intros K. exfalso. now apply K.
Qed.
End Functions.
End Client.
Section Server.
Variable s : schema.
Variable directives : list directivedef.
Variable applied : string -> list directive.
Hypothesis R : server_ready s directives applied template_stylers.
Notation pc := default_strawberry_config.
Lemma mentions_list : forall t n, In n (Spec_Valid.mentions t) -> Spec_Scope3.mentions t n.
Proof.
  intros t n H. unfold Spec_Valid.mentions in H. apply in_app_or in H as [H|H].
  - left. apply in_flat_map in H as ((k & f) & Hf & H). exists k, f. split; [destruct t; exact Hf|]. destruct H as [H|H]; [now left|right].
    apply in_map_iff in H as (a & E & Ha). eauto.
  - right. apply in_map_iff in H as ((k & f) & E & Hf). destruct t; try contradiction. do 5 eexists. split; [reflexivity|]. split; [exact Hf|exact E].
Qed.
Lemma s_input : forall k, Spec_Valid.is_input s k = true -> reserved k = false.
Proof. intros k H. apply (sr_inputs _ _ _ _ R). unfold Spec_Valid.is_input in H. unfold Spec_Refs.is_input. destruct (get_type s k) as [[]|]; try discriminate H. eauto. Qed.
Lemma s_kept : enums_kept s reserved reserved.
Proof.
  intros k t n H K M _. apply (sr_reserved _ _ _ _ R k t n H); [destruct K as [K|K]; [exact K|exact (s_input _ K)]|]. left. now apply mentions_list.
Qed.
Lemma s_generated : forall n t, In (n, t) (s_types s) -> generated pc n t -> forall m, reaches s t m -> reserved n = false.
Proof.
  intros n t H G m M. destruct t; try exact (proj2 G).
  - destruct M as [[(k & f & [] & _)|(? & ? & ? & ? & ? & E & _)]|(u & ? & ? & [(k & f & [] & _)|(? & ? & ? & ? & ? & E & _)] & _)]; discriminate E.
  - destruct M as [[(k & f & [] & _)|(? & ? & ? & ? & ? & E & _)]|(u & ? & ? & [(k & f & [] & _)|(? & ? & ? & ? & ? & E & _)] & _)]; discriminate E.
  - apply (sr_inputs _ _ _ _ R). eexists _, _, _. exact (dget_In_NoDup _ _ _ (vs_names _ (sr_schema _ _ _ _ R)) H).
Qed.
Lemma s_closed : closed s pc.
Proof.
  intros n t m tm H G M E. assert (K := sr_reserved _ _ _ _ R n t m H (s_generated _ _ H G m M) M). destruct tm; cbn; auto.
Qed.
Lemma s_apart : introspection_apart s pc.
Proof.
  right. intros n t m H G M K. assert (Z := sr_reserved _ _ _ _ R n t m H (s_generated _ _ H G m M) M). by_elem K; subst m; discriminate Z.
Qed.
Theorem server_template_ok : forall iter bi, set_order iter -> incl simple_types bi -> In "None" bi ->
  exists t, server_template iter s directives applied = Ok t /\ valid_module t = true /\ scoped_paths (fun n => In n bi) t /\ quotes_bound (fun n => In n bi) t.
Proof.
  intros iter bi HO HB HN.
  destruct (C58_scaffold_partial server_config template_stylers s directives applied pc iter true (order_in _ HO) (sr_schema _ _ _ _ R) (sr_flat _ _ _ _ R) (sr_interfaces _ _ _ _ R)) as (t & E).
  - intros _. split; [reflexivity|]. split; [exact s_kept|exact (sr_apart _ _ _ _ R)].
  - intros n _ H. apply in_or_app. left. by_elem H; subst n; cbn; tauto.
  - reflexivity.
  - intros d a ad Hd B Ha. destruct (sr_arguments _ _ _ _ R d a ad Hd B Ha) as [K1 K2]. split; [exact K1|]. destruct K2 as [K2|K2]; apply in_or_app; [right; now left|now left].
  - exists t. split; [exact E|]. assert (D : document_named []) by (constructor; intros ? []). split; [|split].
    + eapply (C63_valid_python_partial iter HO server_config template_stylers s [] (template_config_named _ _) template_stylers_named (sr_names _ _ _ _ R) D); [|exact E].
      constructor; [|constructor]. apply CServer; [intros b []|exact (sr_scaffold _ _ _ _ R)].
    + eapply (C64_names_partial bi server_config template_stylers s directives applied pc); [exact HB|exact HN|apply (template_scalars bi _ _ HB)|exact (sr_declared _ _ _ _ R)|exact (sr_proper _ _ _ _ R)|intros b []|exact s_apart|exact HO|exact E].
    + eapply (C64_references_partial bi server_config template_stylers s directives applied pc); [exact HB|exact HN|apply (template_scalars bi _ _ HB)|exact (sr_declared _ _ _ _ R)|exact (sr_proper _ _ _ _ R)|intros b []|exact s_apart|exact s_closed|exact HO|exact E].
Qed.
End Server.
