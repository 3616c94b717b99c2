(** Generated functions. *)
From Coq Require Import Lia Permutation.
From Verif Require Import Base PyAst Gql Config Stylers Registry Utils Enums Funcs InputFuncs
  Spec_Naming Spec_Inputs Spec_Funcs Spec_Syntax Spec_Syntax2 Spec_Scope2 P_Base P_Stylers P_Monad P_Registry P_Funcs P_Funcs3 P_Syntax P_Syntax2 P_Syntax3 P_Syntax4 P_Syntax5.

Lemma ok_and : forall {A} (m : M A) (Q P : A -> Prop), ok m Q -> (forall r a r', m r = (Ok a, r') -> P a) -> ok m (fun a => Q a /\ P a).
Proof.
  intros A m Q P H HP r R. destruct (H r R) as [H1 H2]. split; [exact H1|]. destruct (m r) as [[a|e] r'] eqn:E; [|exact I]. split; [exact H2|exact (HP _ _ _ E)].
Qed.
Lemma no_yield : forall e, expr_valid Outside e = true -> yields_in e = false.
Proof.
  fix IH 1. intros e.
  assert (IL : forall l, forallb (expr_valid Outside) l = true -> existsb yields_in l = false).
  { fix IL 1. intros [|x l] H; [reflexivity|]. cbn in H |- *. apply andb_true_iff in H as [H1 H2]. rewrite (IH _ H1). now apply IL. }
  destruct e as [n|k|a b|l|l|items|f args kws|a n|a o b|a|a|ps b]; intros H; cbn [expr_valid yields_in] in H |- *; try reflexivity; try discriminate.
  - apply andb_true_iff in H as [H1 H2]. now rewrite (IH _ H1), (IH _ H2).
  - now apply IL.
  - now apply IL.
  - revert items H. fix ID 1. intros [|[x y] l] H; [reflexivity|]. cbn in H |- *. apply andb_true_iff in H as [H H2]. apply andb_true_iff in H as [H0 H1].
    rewrite (IH _ H0), (IH _ H1). now apply ID.
  - apply andb_true_iff in H as [H H3]. apply andb_true_iff in H as [H H2]. apply andb_true_iff in H as [H0 H1].
    rewrite (IH _ H0), (IL _ H1). cbn. clear H3. revert kws H2. fix ID 1. intros [|[k x] l] H2; [reflexivity|]. cbn in H2 |- *.
    apply andb_true_iff in H2 as [H2 H4]. apply andb_true_iff in H2 as [H2 H5]. rewrite (IH _ H5). now apply ID.
  - apply andb_true_iff in H as [H1 H2]. now apply IH.
  - apply andb_true_iff in H as [H1 H2]. now rewrite (IH _ H1), (IH _ H2).
Qed.
(** a statement of a function that neither yields nor returns *)
Definition plain (x : stmt) : Prop := (forall a, stmt_valid (Inside a) false x = true) /\ yields x = false /\ returns_value x = false.
Lemma plain_doc : forall t, plain (docstring t).
Proof. intros t. now repeat split. Qed.
Lemma plain_item : forall d k p, pyname d = true -> pyname p = true -> plain (assign_item d k p).
Proof. intros d k p D P. repeat split. intros a. cbn. now rewrite (text_of_name _ D), (text_of_name _ P). Qed.

Section Funcs.
Variable c : gconfig.
Variable st : list styler.
Variable s : schema.
Variable d : document.
Hypothesis C : config_named c.
Hypothesis S : forall x, In x st -> styler_named x.
Hypothesis N : schema_named s.
Hypothesis D : document_named d.
Variable pc : fcfg.
Hypothesis CO : forall k p, In (k, p) (f_coercible_scalars pc ++ f_coercible_inputs pc) -> py_path p = true.

Lemma coercible_ok : forall ref p, ev ref -> py_path p = true -> ok (coercible_input_union ref p) ev.
Proof.
  intros ref p R P. unfold coercible_input_union. eapply ok_bind; [now apply import_kept|]. intros _ _. imp. apply ok_ret, ev_union.
  constructor; [exact R|]. constructor; [now apply ev_name, path_last|constructor].
Qed.
Lemma input_annotation_f : forall t o, ok (Funcs.generate_input_annotation st s pc t o) ev.
Proof.
  induction t as [n|t IH|t IH]; intros o; cbn [Funcs.generate_input_annotation].
  - destruct (get_type s n) as [[]|]; try apply ok_raise.
    + eapply ok_bind with (P := ev); [|intros; now apply opt_wrap_ok]. destruct (dget n (f_coercible_scalars pc)) as [p|] eqn:G; [|apply scalar_ok].
      apply dget_Some_In in G. assert (P : py_path p = true) by (eapply CO, in_app_iff; left; exact G).
      eapply ok_bind; [now apply import_kept|]. intros _ _. now apply ok_ret, ev_name, path_last.
    + eapply ok_bind; [now apply import_when|]. intros _ _. bnd; [apply enum_ref; [exact S|reflexivity]|]. apply ok_ret. destruct o; [now apply ev_optional|assumption].
    + bnd; [now apply input_ref|]. eapply ok_bind with (P := ev); [|intros; now apply opt_wrap_ok].
      destruct (dget n (f_coercible_inputs pc)) as [p|] eqn:G; [|now apply ok_ret]. apply dget_Some_In in G. apply coercible_ok; [assumption|].
      eapply CO, in_app_iff. right. exact G.
  - imp. eapply ok_bind; [now apply import_when|]. intros _ _. bnd; [apply IH|]. apply ok_ret.
    assert (L : ev (ESub (EName "Iterable") x)) by (apply ev_sub; [now apply ev_name|assumption]). destruct o; [now apply ev_optional|exact L].
  - apply IH.
Qed.
Lemma variable_annotation_ok : forall t, ~ In (gty_name t) helper_names -> ok (generate_variable_annotation st pc t) ev.
Proof.
  intros t H. unfold generate_variable_annotation. destruct (dget _ (f_coercible_scalars pc)) as [p|] eqn:G.
  - apply dget_Some_In in G. assert (P : py_path p = true) by (eapply CO, in_app_iff; left; exact G). destruct p as [|x p]; [discriminate|]. cbn [truthy opt_str].
    eapply ok_bind; [now apply import_kept|]. intros _ _. apply type_annotation_ok; [exact S|intros e [= <-]; now apply ev_name, path_last|discriminate].
  - cbn [truthy]. destruct (dget _ (f_coercible_inputs pc)) as [p|] eqn:G2.
    + apply dget_Some_In in G2. assert (P : py_path p = true) by (eapply CO, in_app_iff; right; exact G2). destruct p as [|x p]; [discriminate|]. cbn [truthy opt_str].
      bnd; [now apply input_ref|]. bnd; [now apply coercible_ok|]. apply type_annotation_ok; [exact S|intros e [= <-]; assumption|discriminate].
    + cbn [truthy]. apply type_annotation_ok; [exact S|discriminate|now intros _].
Qed.
Lemma unset_union_ok : forall e, ev e -> ok (unset_union_annotation c e) ev.
Proof.
  intros e E. unfold unset_union_annotation. imp. bnd; [now apply unset_type_ok|]. apply ok_ret, ev_union. now repeat (constructor; [assumption|]).
Qed.
Lemma new_dict_ok : forall n, pyname n = true -> ok (new_dict n) plain.
Proof.
  intros n P. unfold new_dict, dict_str_any_annotation. eapply ok_bind with (P := fun e => e = ESub (EName "Dict") (ETuple [EName "str"; EName "Any"])).
  { imp. imp. now apply ok_ret. }
  intros x ->. apply ok_ret. repeat split. intros a. cbn. now rewrite P.
Qed.
Lemma guard_ok : forall req dn k p, pyname dn = true -> pyname p = true -> ok (assign_or_guard c req dn k p) plain.
Proof.
  intros req dn k p DN P. unfold assign_or_guard. destruct req; [now apply ok_ret, plain_item|]. unfold guarded_assign. bnd; [now apply unset_ok|].
  apply ok_ret. repeat split.
  - intros a. cbn. now rewrite (text_of_name _ DN), (text_of_name _ P), (Hx (Inside a)).
  - cbn. rewrite (no_yield _ (Hx Outside)). reflexivity.
Qed.
(** parameters: names, annotations, defaults *)
Definition argok (a : pyarg) : Prop := pyname (pa_name a) = true /\ forall e, pa_ann a = Some e -> ev e.
Definition paramsok (p : params) : Prop := Forall argok (p_pos p) /\ Forall argok (p_kw p) /\ Forall ev (p_def p) /\ length (p_def p) = length (p_kw p).
Lemma papp_ok : forall p q, paramsok p -> paramsok q -> paramsok (papp p q).
Proof.
  intros p q (P1 & P2 & P3 & P4) (Q1 & Q2 & Q3 & Q4). unfold papp. repeat split; cbn; try (apply Forall_app; now split). now rewrite !app_length, P4, Q4.
Qed.
Lemma argok_ann : forall n e, pyname n = true -> ev e -> argok (PyArg n (Some e)).
Proof. intros n e P E. split; [exact P|]. now intros ? [= <-]. Qed.
Lemma input_params_ok : forall fs, (forall k f, In (k, f) fs -> is_name k = true) -> ok (generate_input_type_params c st s pc fs) paramsok.
Proof.
  intros fs F. apply ok_mfold; [|repeat split; constructor]. intros acc [k f] Hk HA. cbn [fst snd]. assert (PK := node_named st S _ (F _ _ Hk)).
  destruct (is_nonnull (if_type f)).
  - bnd; [apply input_annotation_f|]. apply ok_ret, papp_ok; [exact HA|]. repeat split; cbn; repeat constructor; cbn; try assumption. now intros ? [= <-].
  - bnd; [apply input_annotation_f|]. bnd; [now apply unset_union_ok|]. bnd; [now apply unset_ok|]. apply ok_ret, papp_ok; [exact HA|].
    repeat split; cbn; [constructor|constructor; [now apply argok_ann|constructor]|constructor; [assumption|constructor]].
Qed.

(** ** functions of operations *)
Section Operations.
Variable doc_of : operation -> option string.
Hypothesis FN : funcs_named st s d pc.
Hypothesis V : variables_plain d.
Hypothesis R : roots_plain s d.
Variable o : operation.
Hypothesis HO : In (DOp o) d.

Lemma expanded_ok : forall v, ok (expanded_type s v) (fun t => exists n, In (n, t) (s_types s)).
Proof.
  intros v. unfold expanded_type. destruct (v_type v) as [n|[n|t|t]|[n|t|t]]; try apply ok_raise; unfold from_opt; destruct (get_type s n) as [t|] eqn:G;
    try apply ok_raise; apply ok_ret; exists n; now apply dget_Some_In.
Qed.
Lemma fields_ok : forall t, (exists n, In (n, t) (s_types s)) -> ok (fields_of t) (fun fs => forall k f, In (k, f) fs -> is_name k = true).
Proof.
  intros t [n H]. destruct t; try apply ok_raise. apply ok_ret. intros k f Hf. apply (sn_fields _ N _ _ k H). cbn. apply in_map_iff. now exists (k, f).
Qed.
Lemma param_py : forall v, In v (op_vars o) -> pyname (generate_parameter_name st (v_name v)) = true.
Proof. intros v Hv. apply param_named; [exact S|]. exact (proj2 (proj2 (dn_ops _ D _ HO)) _ Hv). Qed.
Lemma parameters_ok : forall def, In def (f_definitions pc) -> ok (generate_parameters c st s pc def o)
  (fun a => Forall argok (a_args a) /\ Forall ev (a_defaults a) /\ (length (a_defaults a) <= length (a_args a))%nat).
Proof.
  intros def HD. unfold generate_parameters.
  bnd; [apply ok_mmap with (Q := argok); intros a Ha; destruct (fn_args _ _ _ _ FN _ _ HD Ha)|].
  { eapply ok_bind; [now apply import_kept|]. intros _ _. apply ok_ret, argok_ann; [assumption|]. now apply ev_name, path_last. }
  eapply ok_bind with (P := paramsok).
  { apply ok_mfold; [|repeat split; constructor]. intros acc v _ HA. destruct (mem _ _); [|now apply ok_ret].
    eapply ok_bind; [apply expanded_ok|]. intros t Ht. eapply ok_bind; [now apply fields_ok|]. intros fs Hfs. bnd; [now apply input_params_ok|].
    now apply ok_ret, papp_ok. }
  intros ex (E1 & E2 & E3 & E4). bnd.
  { apply ok_mmap with (Q := argok). intros v Hv. apply filter_In in Hv as [Hv _]. apply filter_In in Hv as [Hv _].
    bnd; [apply variable_annotation_ok, (V _ _ HO Hv)|]. apply ok_ret, argok_ann; [now apply param_py|assumption]. }
  eapply ok_bind with (P := Forall (fun x => argok (fst x) /\ ev (snd x))).
  { apply ok_mmap. intros v Hv. apply filter_In in Hv as [Hv _]. bnd; [apply variable_annotation_ok, (V _ _ HO Hv)|]. bnd; [now apply unset_union_ok|].
    bnd; [now apply unset_ok|]. apply ok_ret. split; [apply argok_ann; [now apply param_py|assumption]|assumption]. }
  intros opts HOp. eapply ok_bind with (P := Forall (fun x => argok (fst x) /\ ev (snd x))).
  { apply ok_mmap. intros k Hk. destruct (fn_kwargs _ _ _ _ FN _ _ HD Hk). eapply ok_bind; [now apply import_kept|]. intros _ _. apply ok_ret. split.
    - apply argok_ann; [assumption|]. assert (EN : ev (EName (last_comp (fk_type k)))) by now apply ev_name, path_last.
      destruct (fk_default k); first [exact EN|now apply ev_optional].
    - apply ev_const. }
  intros kws HK. apply ok_ret. cbn [a_args a_defaults].
  assert (M1 : forall l, Forall (fun x : pyarg * expr => argok (fst x) /\ ev (snd x)) l -> Forall argok (map fst l) /\ Forall ev (map snd l)).
  { intros l H. split; apply Forall_map; (eapply Forall_impl; [|exact H]); now intros y []. }
  destruct (M1 _ HOp), (M1 _ HK). split; [|split].
  - repeat (apply Forall_app; split); assumption.
  - repeat (apply Forall_app; split); assumption.
  - rewrite !app_length, !map_length, E4. lia.
Qed.
Lemma assignments_ok : ok (generate_variable_assignments c st s pc o) (Forall plain).
Proof.
  unfold generate_variable_assignments. bnd; [now apply new_dict_ok|]. bnd; [|apply ok_ret; constructor; eassumption].
  apply ok_mconcat. intros v Hv. assert (PV := param_py _ Hv). unfold variable_assignment. destruct (mem _ _).
  - assert (PU : pyname ("_" +s+ generate_parameter_name st (v_name v)) = true) by (apply pyname_under, pyname_name, PV).
    eapply ok_bind; [apply expanded_ok|]. intros t Ht. eapply ok_bind; [now apply fields_ok|]. intros fs Hfs. cbv zeta.
    bnd; [now apply new_dict_ok|]. bnd; [apply ok_mmap with (Q := plain); intros [k f] Hk; apply guard_ok; [exact PU|apply node_named; [exact S|exact (Hfs _ _ Hk)]]|].
    apply ok_ret. constructor; [assumption|]. apply (snoc_ok plain); [assumption|]. now apply plain_item.
  - bnd; [now apply guard_ok|]. apply ok_ret. now constructor; [|constructor].
Qed.
Lemma class_name_ok : ok (get_operation_class_name st o) (fun n => pyname n = true).
Proof.
  unfold get_operation_class_name. destruct (dn_ops _ D _ HO) as (N1 & _). unfold from_opt. destruct (op_name o) as [n|]; [|apply ok_raise].
  eapply ok_bind with (P := fun x => is_name x = true); [now apply ok_ret|]. intros x HX. apply ok_ret. destruct (op_kind o); apply styled_in; cbn; tauto || assumption.
Qed.
Lemma ev_name_inv : forall n, ev (EName n) -> name_text n = true.
Proof. intros n H. exact (H Outside). Qed.
Lemma name_id_ok : forall e, ev e -> ok (name_id e) (fun n => name_text n = true).
Proof. intros [] E; try apply ok_raise. now apply ok_ret, ev_name_inv. Qed.
Lemma fragment_class_ok : forall f t, is_name f = true -> ok (fragment_class_for st f t) (fun n => name_text n = true).
Proof.
  intros f t F. unfold fragment_class_for. bnd; [apply implementation_ok|]. destruct x as [i|]; [now apply ok_ret, text_of_name, Hx|].
  bnd; [apply fragment_ref; [exact S|exact F|discriminate]|]. now apply name_id_ok.
Qed.
Lemma output_annotation_ok : forall ow t b, (forall n, ow = Some n -> name_text n = true) -> ~ In (gty_name t) helper_names ->
  ok (recurse_outputtype_annotation st s ow t b) ev.
Proof.
  intros ow. fix IH 1. intros [n|t|[n|t|t]] b W H; cbn [recurse_outputtype_annotation].
  - clear IH. assert (OW : ok match ow with Some (String _ _ as n) => opt_wrap b (EName n) | _ => raise AssertionErrorC "Needs to be set" end ev).
    { destruct ow as [[|x n']|]; try apply ok_raise. apply opt_wrap_ok, ev_text, W. reflexivity. }
    destruct (get_type s n) as [[]|]; try apply ok_raise; try exact OW.
    + eapply ok_bind; [now apply import_when|]. intros _ _. bnd; [apply scalar_ok|]. apply ok_ret. destruct b; [now apply ev_optional|assumption].
    + eapply ok_bind; [now apply import_when|]. intros _ _. bnd; [apply enum_ref; [exact S|intros [E|E]; [discriminate|now destruct H]]|].
      apply ok_ret. destruct b; [now apply ev_optional|assumption].
  - eapply ok_bind with (P := fun _ => True); [destruct b; [imp|]; now apply import_kept|]. intros _ _. bnd; [now apply IH|]. apply ok_ret.
    destruct b; [apply ev_optional|]; now apply ev_list.
  - apply ok_raise.
  - now apply IH.
  - now apply IH.
Qed.
Lemma output_label_ok : forall ow t b, ~ In (gty_name t) helper_names -> ok (recurse_outputtype_label st s ow t b) (fun _ => True).
Proof.
  intros ow. induction t as [n|t IH|t IH]; intros b H; cbn [recurse_outputtype_label]; cbv zeta.
  - destruct (get_type s n) as [[]|]; try apply ok_raise.
    + bnd; [apply scalar_ok|]. eapply ok_bind; [now apply name_id_ok|]. intros ? _. now apply ok_ret.
    + bnd; [apply enum_ref; [exact S|intros [E|E]; [discriminate|now destruct H]]|]. eapply ok_bind; [now apply name_id_ok|]. intros ? _. now apply ok_ret.
    + destruct ow as [[|x n']|]; try apply ok_raise. now apply ok_ret.
    + destruct ow as [[|x n']|]; try apply ok_raise. now apply ok_ret.
    + destruct ow as [[|x n']|]; try apply ok_raise. now apply ok_ret.
  - eapply ok_bind; [now apply IH|]. intros x _. now apply ok_ret.
  - now apply IH.
Qed.
Lemma type_label_ok : forall t b, ~ In (gty_name t) helper_names -> ok (recurse_type_label st None t b) (fun _ => True).
Proof.
  induction t as [n|t IH|t IH]; intros b H; cbn [recurse_type_label].
  - bnd; [exact (any_input_ok st S _ H)|]. eapply ok_bind with (P := fun _ => True); [|intros; now apply ok_ret].
    unfold label_of. destruct x as [|[]| | | | | | | | | | ]; first [now apply ok_ret|apply ok_raise].
  - eapply ok_bind; [now apply IH|]. intros x _. now apply ok_ret.
  - now apply IH.
Qed.
Lemma root_of_ok : ok (root_of s o) (fun r => root_type s (op_kind o) = Some r).
Proof. unfold root_of. apply ok_from_opt. Qed.
Lemma first_ok : ok (first_field o) (fun f => In (SelField f) (op_sels o)).
Proof. unfold first_field. destruct (op_sels o) as [|[f| |] l]; try apply ok_raise. apply ok_ret. now left. Qed.
Lemma field_type_ok : forall root f, root_type s (op_kind o) = Some root -> In (SelField f) (op_sels o) ->
  ok (field_type s root f) (fun t => ~ In (gty_name t) helper_names).
Proof.
  intros root f E H. unfold field_type. destruct (get_field_def s root (fn_name f)) as [fd|] eqn:G; [|apply ok_raise]. apply ok_ret. exact (R _ _ _ _ HO E H G).
Qed.
Lemma root_field_named : forall f, In (SelField f) (op_sels o) -> field_named f = true.
Proof. intros f H. pose proof (proj1 (proj2 (dn_ops _ D _ HO))) as Z. rewrite forallb_forall in Z. exact (Z _ H). Qed.
Lemma target_named : forall f, In (SelField f) (op_sels o) -> is_name (target_from_node f) = true.
Proof.
  intros f H. apply root_field_named in H. destruct f as [a n ar ds sels]. cbn in H |- *. apply andb_true_iff in H as [H _]. apply andb_true_iff in H as [HA HN].
  now destruct a.
Qed.
Lemma spread_named : forall f n ds l, In (SelField f) (op_sels o) -> non_typename_fields f = SelSpread n ds :: l -> is_name n = true.
Proof.
  intros f n ds l H E. apply root_field_named in H. destruct f as [a m ar ds' sels]. unfold non_typename_fields in E. cbn in H, E.
  destruct sels as [sels|]; [|discriminate]. apply andb_true_iff in H as [_ H]. assert (HI : In (SelSpread n ds) (non_typename sels)) by (rewrite E; now left).
  unfold non_typename in HI. apply filter_In in HI as [HI _]. rewrite forallb_forall in H. exact (H _ HI).
Qed.
Lemma return_ok : forall b, ok (get_return_type_annotation st s o b) ev.
Proof.
  intros b. unfold get_return_type_annotation. eapply ok_bind; [apply class_name_ok|]. intros cn HC. eapply ok_bind; [apply root_of_ok|]. intros root HR.
  destruct b; [|now apply ok_ret, ev_name].
  eapply ok_bind with (P := fun x => forall e, x = Some e -> ev e).
  { unfold get_operation_single_or_none. apply ok_gets. intros r Hr e E. apply dget_Some_In in E. exact (rn_single _ Hr _ _ E). }
  intros single HS. destruct single as [e|]; [now apply ok_ret, HS|]. eapply ok_bind; [apply first_ok|]. intros f HF.
  eapply ok_bind; [now apply field_type_ok|]. intros t HT. cbv zeta.
  assert (P1 : ok (recurse_outputtype_annotation st s (Some (cn +s+ py_capitalize (target_from_node f))) t true) ev).
  { apply output_annotation_ok; [|exact HT]. intros n [= <-]. apply text_of_name, pyname_capitalized; [now apply pyname_name|now apply target_named]. }
  destruct (non_typename_fields f) as [|[g|n ds|on ds sub] [|y l]] eqn:EN; try exact P1.
  - apply output_annotation_ok; [discriminate|exact HT].
  - eapply ok_bind; [apply fragment_class_ok; eapply spread_named; [exact HF|exact EN]|]. intros cls Hcls. apply output_annotation_ok; [|exact HT]. now intros ? [= <-].
Qed.
Lemma return_string_ok : forall b, ok (get_return_type_string st s o b) (fun _ => True).
Proof.
  intros b. unfold get_return_type_string. eapply ok_bind; [apply class_name_ok|]. intros cn HC. eapply ok_bind; [apply root_of_ok|]. intros root HR.
  destruct b; [|now apply ok_ret]. eapply ok_bind; [apply first_ok|]. intros f HF. eapply ok_bind; [now apply field_type_ok|]. intros t HT.
  destruct (non_typename_fields f) as [|[g|n ds|on ds sub] [|y l]] eqn:EN; try now apply output_label_ok.
  eapply ok_bind; [apply fragment_class_ok; eapply spread_named; [exact HF|exact EN]|]. intros cls Hcls. now apply output_label_ok.
Qed.
Lemma described_ok : forall t, ok (generate_input_description s t) (fun _ => True).
Proof.
  induction t as [n|t IH|t IH]; cbn [generate_input_description].
  - destruct (get_type s n) as [[]|]; first [now apply ok_ret|apply ok_raise].
  - eapply ok_bind; [apply IH|]. intros ? _. now apply ok_ret.
  - eapply ok_bind; [apply IH|]. intros ? _. now apply ok_ret.
Qed.
Lemma descriptions_ok : forall fs, ok (generate_input_type_descriptions st s fs) (fun _ => True).
Proof.
  intros fs. unfold generate_input_type_descriptions. eapply ok_bind; [apply ok_mmap with (Q := fun _ => True); intros kf _|intros ? _; now apply ok_ret].
  eapply ok_bind with (P := fun _ => True); [destruct (truthy _); [now apply ok_ret|apply described_ok]|]. intros ? _. now apply ok_ret.
Qed.
Lemma doc_ok : forall def b, ok (generate_query_doc st s pc doc_of def o b) plain.
Proof.
  intros def b. unfold generate_query_doc. eapply ok_bind; [apply root_of_ok|]. intros root HR. eapply ok_bind; [apply class_name_ok|]. intros cn HC.
  eapply ok_bind; [apply return_string_ok|]. intros rs _. cbv zeta. eapply ok_bind with (P := fun _ => True); [now apply ok_lift|]. intros dm _.
  eapply ok_bind with (P := fun _ => True).
  { destruct (truthy _); [now apply ok_ret|]. eapply ok_bind with (P := fun _ => True); [|intros; now apply ok_ret].
    apply ok_mfold; [|exact I]. intros acc [f| |] _ _; try now apply ok_ret.
    eapply ok_bind with (P := fun _ => True); [destruct (get_field_def _ _ _); [now apply ok_ret|apply ok_raise]|]. intros; now apply ok_ret. }
  intros desc _. eapply ok_bind with (P := fun _ => True).
  { eapply ok_true, ok_mmap with (Q := fun _ => True). intros v Hv. destruct (mem _ _).
    - eapply ok_bind; [apply expanded_ok|]. intros t Ht. eapply ok_bind; [now apply fields_ok|]. intros fs _. apply descriptions_ok.
    - destruct (var_required v); [|now apply ok_ret]. eapply ok_bind; [apply type_label_ok, (V _ _ HO Hv)|]. intros; now apply ok_ret. }
  intros args _. eapply ok_bind with (P := fun _ => True).
  { eapply ok_true, ok_mmap with (Q := fun _ => True). intros v Hv. apply filter_In in Hv as [Hv _].
    eapply ok_bind; [apply type_label_ok, (V _ _ HO Hv)|]. intros l _.
    eapply ok_bind with (P := fun _ => True); [|intros; now apply ok_ret]. destruct (v_default v) as [x|]; [|now apply ok_ret].
    eapply ok_bind with (P := fun _ => True); [destruct x; first [now apply ok_ret|apply ok_raise]|]. intros; now apply ok_ret. }
  intros opts _. apply ok_ret, plain_doc.
Qed.
(** the last statement: a loop that yields, or a return *)
Definition last_ok (def : fdef) (x : stmt) : Prop :=
  stmt_valid (Inside (d_async def)) false x = true
  /\ ((yields x = false) \/ (returns_value x = false)).
Lemma call_ok : forall def b, In def (f_definitions pc) -> d_kind def = op_kind o -> ok (call_stmt st pc def o b) (last_ok def).
Proof.
  intros def b HD HK. unfold call_stmt. eapply ok_bind with (P := ev).
  { unfold proxy_call. eapply ok_bind; [apply import_kept, (fn_uses _ _ _ _ FN _ HD)|]. intros _ _. eapply ok_bind; [apply class_name_ok|]. intros cn HC.
    apply ok_ret. intros p. cbn. rewrite (text_of_name _ (path_last _ (fn_uses _ _ _ _ FN _ HD))). cbn. rewrite forallb_app. cbn. rewrite (text_of_name _ HC). cbn. rewrite andb_true_r.
    apply andb_true_iff. split; [apply andb_true_iff; split|].
    - apply forallb_forall. intros e He. apply in_map_iff in He as (a & <- & Ha). exact (text_of_name _ (proj1 (fn_args _ _ _ _ FN _ _ HD Ha))).
    - apply forallb_forall. intros e He. apply in_map_iff in He as (k & <- & Hk). cbn. now rewrite (text_of_name _ (proj1 (fn_kwargs _ _ _ _ FN _ _ HD Hk))), (proj1 (fn_kwargs _ _ _ _ FN _ _ HD Hk)).
    - assert (E : flat_map (fun kv : option string * expr => match fst kv with Some k => [k] | None => [] end) (pass_kwargs pc def) = map fk_key (extra_kwargs pc def)).
      { unfold pass_kwargs. induction (extra_kwargs pc def) as [|k l IH]; [reflexivity|]. cbn. now rewrite IH. }
      rewrite E. apply nodupb_NoDup. pose proof (fn_distinct _ _ _ _ FN _ _ HO HD HK) as ND. unfold parameter_sources in ND.
      apply nodup_app in ND as (_ & ND & _). now apply nodup_app in ND. }
  intros call HC.
  assert (CA : forall e p, (expr_valid p e = true) -> yields_in e = false ->
    ok (collapsed_attr st o b e) (fun e' => expr_valid p e' = true /\ yields_in e' = false)).
  { intros e p E Y. unfold collapsed_attr. destruct b; [|now apply ok_ret]. eapply ok_bind; [apply first_ok|]. intros f HF. apply ok_ret. cbn.
    rewrite E, Y. split; [|reflexivity]. apply node_named; [exact S|now apply target_named]. }
  assert (RT : ok (let* e := collapsed_attr st o b (if d_async def then EAwait call else call) in ret (SReturn (Some e))) (last_ok def)).
  { eapply ok_bind; [apply (CA _ (Inside (d_async def)))|].
    - destruct (d_async def); cbn; apply HC.
    - destruct (d_async def); cbn; exact (no_yield _ (HC Outside)).
    - intros e [E1 E2]. apply ok_ret. split; [exact E1|]. left. exact E2. }
  destruct (d_kind def); try exact RT.
  eapply ok_bind; [apply (CA (EName "event") (Inside (d_async def))); reflexivity|]. intros e [E1 E2]. apply ok_ret. split; [|now right].
  cbn. rewrite E1, (HC (Inside (d_async def))). now destruct (d_async def).
Qed.
Lemma yields_plain : forall l, Forall plain l -> existsb yields l = false /\ existsb returns_value l = false.
Proof.
  intros l H. induction H as [|x l (X1 & X2 & X3) _ [IH1 IH2]]; [now split|]. cbn. now rewrite X2, X3.
Qed.
Lemma func_ok : forall def, In def (f_definitions pc) -> d_kind def = op_kind o -> ok (generate_operation_func c st s pc doc_of o def) sv.
Proof.
  intros def HD HK.
  assert (W : ok (generate_operation_func c st s pc doc_of o def)
    (fun x => (exists a n args body rt, x = SFunc a n args body rt []
      /\ pyname n = true /\ (Forall argok (a_args args) /\ Forall ev (a_defaults args) /\ (length (a_defaults args) <= length (a_args args))%nat)
      /\ (forall e, rt = Some e -> ev e) /\ body <> [] /\ forallb (stmt_valid (Inside a) false) body = true
      /\ negb (a && existsb yields body && existsb returns_value body) = true)
      /\ forall a n args body rt decs, x = SFunc a n args body rt decs -> NoDup (map pa_name (a_args args)))).
  { apply ok_and.
    - unfold generate_operation_func. cbv zeta. bnd; [apply return_ok|]. rename x into rt. bnd; [apply doc_ok|]. rename x into doc. bnd; [apply assignments_ok|]. rename x into asg.
      eapply ok_bind with (P := fun _ => True).
      { destruct (op_kind o); try now apply ok_ret. apply import_kept. now destruct (d_async def). }
      intros _ _. eapply ok_bind with (P := fun n => pyname n = true).
      { unfold func_name, from_opt. destruct (op_name o) as [n|] eqn:EO; [|apply ok_raise]. eapply ok_bind with (P := fun x => x = n); [now apply ok_ret|].
        intros x ->. apply ok_ret. exact (fn_names _ _ _ _ FN _ _ _ HO EO HD HK). }
      intros n HN. eapply ok_bind; [now apply parameters_ok|]. intros args HA. eapply ok_bind; [now apply call_ok|]. intros call [L1 L2]. apply ok_ret.
      eexists _, _, _, _, _. split; [reflexivity|]. split; [exact HN|]. split; [exact HA|]. split; [|split; [discriminate|split]].
      + intros e [= <-]. destruct (d_kind def); try assumption. apply ev_sub; [destruct (d_async def); now apply ev_name|assumption].
      + cbn. rewrite (proj1 Hx0 _). cbn. rewrite forallb_app. cbn. rewrite L1, andb_true_r.
        apply forallb_forall. intros y Hy. rewrite Forall_forall in Hx1. apply (Hx1 _ Hy).
      + destruct Hx0 as (_ & Y0 & R0). destruct (yields_plain _ Hx1) as [Y1 R1]. cbn. rewrite Y0, R0, !existsb_app, Y1, R1. cbn. rewrite !orb_false_r.
        destruct L2 as [-> | ->]; now rewrite ?andb_false_r.
    - intros r x r' E a n args body rt decs ->. apply (distinct_C26 _ _ _ _ _ _ _ _ _ _ _ _ _ _ _ (fn_expanded _ _ _ _ FN _ HO) E).
      exact (fn_distinct _ _ _ _ FN _ _ HO HD HK). }
  eapply ok_weaken; [exact W|]. intros x [(a & n & args & body & rt & -> & PN & (A1 & A2 & A3) & RV & BE & BV & YR) ND].
  unfold sv. cbn [stmt_valid]. rewrite PN, BV, YR, !andb_true_r. cbn. unfold args_valid.
  assert (Z1 : forallb (fun x => pyname (pa_name x) && opt_valid Outside (pa_ann x)) (a_args args) = true).
  { apply forallb_forall. intros x Hx. rewrite Forall_forall in A1. destruct (A1 _ Hx) as [P1 P2]. rewrite P1. cbn. destruct (pa_ann x) as [e|]; [|reflexivity]. now apply P2. }
  assert (Z2 : nodupb (map pa_name (a_args args)) = true) by (apply nodupb_NoDup; exact (ND _ _ _ _ _ _ eq_refl)).
  rewrite Z1, Z2, (evs _ Outside A2), (proj2 (Nat.leb_le _ _) A3). cbn. destruct body; [now destruct BE|]. cbn. rewrite !andb_true_r.
  destruct rt as [e|]; [|reflexivity]. exact (RV _ eq_refl Outside).
Qed.
End Operations.

(** ** functions of input types *)
Lemma input_func_ok : forall ipc n fs, as_fcfg ipc = pc -> (forall k f, In (k, f) fs -> is_name k = true) ->
  pyname (i_prepend ipc +s+ generate_parameter_name st n) = true -> NoDup (map (fun f => generate_node_name st (fst f)) fs) ->
  ok (generate_input_func c st s ipc n fs) sv.
Proof.
  intros ipc n fs E F P ND. unfold generate_input_func. rewrite E. bnd; [apply P_Syntax.input_class_ok|]. rename x into cn. cbv zeta.
  eapply ok_bind with (P := fun p => paramsok p /\ NoDup (map pa_name (p_pos p ++ p_kw p))).
  { apply ok_and; [now apply input_params_ok|]. intros r p r' H. apply P_Funcs.input_type_params_ok in H as (H1 & H2 & _).
    rewrite map_app, H1, H2. eapply Permutation_NoDup; [apply perm_split|exact ND]. }
  intros p [(P1 & P2 & P3 & P4) PD].
  eapply ok_bind with (P := Forall plain).
  { destruct (i_extract_documentation ipc); [|apply ok_ret; constructor]. eapply ok_bind; [apply descriptions_ok|]. intros t _. apply ok_ret.
    constructor; [apply plain_doc|constructor]. }
  intros doc HD. bnd; [now apply new_dict_ok|]. bnd; [apply ok_mmap with (Q := plain); intros [k f] Hk; apply guard_ok; [reflexivity|apply node_named; [exact S|exact (F _ _ Hk)]]|].
  apply ok_ret. unfold sv. cbn [stmt_valid].
  set (fname := i_prepend ipc +s+ _) in *.
  assert (PF : pyname (if String.eqb fname cn then fname +s+ "_" else fname) = true).
  { destruct (String.eqb fname cn); [|exact P]. apply pyname_app; [now apply pyname_name|reflexivity|reflexivity]. }
  rewrite PF. cbn [andb]. unfold args_valid. cbn [a_args a_defaults].
  assert (Z1 : forallb (fun x => pyname (pa_name x) && opt_valid Outside (pa_ann x)) (p_pos p ++ p_kw p) = true).
  { apply forallb_forall. intros y Hy. assert (HA : Forall argok (p_pos p ++ p_kw p)) by (apply Forall_app; now split). rewrite Forall_forall in HA.
    destruct (HA _ Hy) as [Q1 Q2]. rewrite Q1. cbn. destruct (pa_ann y) as [e|]; [|reflexivity]. now apply Q2. }
  rewrite Z1, (proj2 (nodupb_NoDup _) PD), (evs _ Outside P3). cbn [andb].
  assert (Z2 : (length (p_def p) <=? length (p_pos p ++ p_kw p))%nat = true) by (apply Nat.leb_le; rewrite app_length, P4; lia).
  rewrite Z2. cbn [opt_valid expr_valid forallb andb]. rewrite (text_of_name _ Hx). cbn [andb].
  assert (Z3 : nonempty (doc ++ x :: x0 ++ [SReturn (Some (ECall (EName cn) [] [(None, EName "data")]))]) = true) by now destruct doc.
  rewrite Z3. cbn [andb]. rewrite andb_true_r. apply forallb_forall. intros y Hy. apply in_app_iff in Hy as [Hy|[<-|Hy]].
  - rewrite Forall_forall in HD. apply (HD _ Hy).
  - apply Hx0.
  - apply in_app_iff in Hy as [Hy|[<-|[]]]; [rewrite Forall_forall in Hx1; apply (Hx1 _ Hy)|]. cbn. now rewrite (text_of_name _ Hx).
Qed.
End Funcs.

(** ** the plugins *)
Section Plugins.
Variable c : gconfig.
Variable st : list styler.
Variable s : schema.
Variable d : document.
Hypothesis C : config_named c.
Hypothesis S : forall x, In x st -> styler_named x.
Hypothesis N : schema_named s.
Hypothesis D : document_named d.

Lemma merged_named : forall pc, funcs_named st s d pc -> funcs_named st s d (merged_config c pc).
Proof.
  intros pc [F1 F2 F3 F4 F5 F6 F7]. constructor; cbn; try assumption. intros k p H. apply in_app_iff in H as [H|H]; apply dmerge_In in H as [H|H].
  - exact (cn_coercible_scalars _ C _ _ H).
  - eapply F4, in_app_iff. left. exact H.
  - exact (cn_coercible_inputs _ C _ _ H).
  - eapply F4, in_app_iff. right. exact H.
Qed.
Lemma funcs_valid : forall pc doc_of, funcs_named st s d pc -> variables_plain d -> roots_plain s d -> ok (funcs_plugin c st s pc doc_of d) (Forall sv).
Proof.
  intros pc doc_of F V R. apply merged_named in F. unfold funcs_plugin, generate_functions. apply ok_mconcat. intros o HO. apply op_In in HO.
  apply ok_mmap. intros def HD. unfold definitions_for in HD. apply filter_In in HD as [HD HK].
  eapply func_ok; try eassumption; [exact (fn_coercible _ _ _ _ F)|]. now destruct (d_kind def), (op_kind o).
Qed.
Lemma input_funcs_valid : forall pc docs, input_funcs_named st s pc -> ok (input_funcs_plugin c st pc s docs) (Forall sv).
Proof.
  intros pc docs [F1 F2 F3]. unfold input_funcs_plugin. eapply ok_bind; [apply refs_kept|]. intros rf _. unfold generate_input_funcs.
  apply ok_mconcat. intros [n t] Ht. cbn [fst snd]. destruct t as [| | | | |de fs dirs]; try (apply ok_ret; constructor). destruct (_ || _); [apply ok_ret; constructor|].
  eapply ok_bind with (P := fun _ => True); [now apply ok_gets|]. intros m _. destruct (dmem n m); [|apply ok_ret; constructor].
  bnd; [|apply ok_ret; constructor; [eassumption|constructor]].
  eapply input_func_ok; try eassumption; [|reflexivity| |exact (F2 _ _ _ _ Ht)|exact (F3 _ _ _ _ Ht)].
  - intros k p H. cbn in H. apply in_app_iff in H as [H|H]; apply dmerge_In in H as [H|H].
    + exact (cn_coercible_scalars _ C _ _ H).
    + eapply F1, in_app_iff. left. exact H.
    + exact (cn_coercible_inputs _ C _ _ H).
    + eapply F1, in_app_iff. right. exact H.
  - intros k f Hf. apply (sn_fields _ N _ _ k Ht). cbn. apply in_map_iff. now exists (k, f).
Qed.
End Plugins.
