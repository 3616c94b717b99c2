(** Proofs about configuration. *)
From Verif Require Import Base PyAst Gql Config Stylers Registry Utils Spec_Config P_Base.

Lemma gqltypes_eqb_eq : forall a b, gqltypes_eqb a b = true <-> a = b.
Proof. intros [] []; cbn; split; easy. Qed.
Lemma kind_in_In : forall k l, kind_in (KT k) l = true <-> In k l.
Proof.
  intros; cbn. rewrite existsb_exists. split.
  - intros (x & H & E). apply gqltypes_eqb_eq in E; now subst.
  - intros H; exists k; split; [assumption|now apply gqltypes_eqb_eq].
Qed.

Definition rule_ok (e : bool) kinds ex inc k n :=
  e && kind_in (KT k) kinds && negb (listed ex n) && negb (unlisted inc n).
Lemma listed_spec : forall ex n, listed ex n = false <->
  (forall l, ex = Some l -> forall m, n = Some m -> ~ In m l).
Proof.
  intros [[|x l]|] n; cbn.
  - split; [intros _ l [= <-] m _ []|auto].
  - destruct n as [m|]; cbn -[mem].
    + rewrite mem_false. split; [intros H l' [= <-] m' [= <-]; exact H|].
      intros H; eapply H; eauto.
    + split; [intros _ l' _ m H; discriminate|auto].
  - split; [intros _ l H; discriminate|auto].
Qed.
Lemma unlisted_spec : forall inc n, unlisted inc n = false <->
  (forall l, inc = Some l -> l = [] \/ exists m, n = Some m /\ In m l).
Proof.
  intros [[|x l]|] n; cbn.
  - split; [intros _ l [= <-]; auto|auto].
  - rewrite negb_false_iff. destruct n as [m|]; cbn -[mem].
    + rewrite mem_In. split; [intros H l' [= <-]; eauto|].
      intros H; destruct (H _ eq_refl) as [|(m' & [= <-] & ?)]; [discriminate|assumption].
    + split; [discriminate|]. intros H; destruct (H _ eq_refl) as [|(m' & ? & ?)]; discriminate.
  - split; [intros _ l H; discriminate|auto].
Qed.
Lemma rule_ok_applies : forall e kinds ex inc k n,
  rule_ok e kinds ex inc k n = true <-> applies e kinds ex inc k n.
Proof.
  intros; unfold rule_ok, applies.
  rewrite !andb_true_iff, !negb_true_iff, kind_in_In, listed_spec, unlisted_spec. tauto.
Qed.

Lemma freeze_kws_spec : forall k c n name v,
  In (name, v) (freeze_kws (KT k) c n) <-> freeze_applies c k n /\ name = "frozen" /\ v = CBool true.
Proof.
  intros; unfold freeze_applies. rewrite <- rule_ok_applies. unfold rule_ok, freeze_kws.
  destruct (fz_enabled (c_freeze c)); cbn [andb]; [|cbn; intuition discriminate].
  destruct (kind_in (KT k) (fz_types (c_freeze c))); cbn [andb]; [|cbn; intuition discriminate].
  destruct (listed _ n); cbn [andb negb]; [cbn; intuition discriminate|].
  destruct (unlisted _ n); cbn [andb negb]; [cbn; intuition discriminate|].
  cbn. split; [intros [[= <- <-]|[]]; auto|]. intros (_ & -> & ->); auto.
Qed.
Lemma opt_kw_In : forall {A} n (f : A -> const) o name v,
  In (name, v) (opt_kw n f o) <-> name = n /\ exists a, o = Some a /\ v = f a.
Proof.
  intros A n f [a|] name v; cbn.
  - split; [intros [[= <- <-]|[]]; eauto|]. intros (-> & a' & [= <-] & ->); auto.
  - split; [easy|]. intros (_ & a & H & _); discriminate.
Qed.
Lemma options_kws_spec : forall k c n name v,
  In (name, v) (options_kws (by_name_key c) (KT k) c n)
  <-> options_apply c k n /\ option_setting c name v.
Proof.
  intros; unfold options_apply. rewrite <- rule_ok_applies. unfold rule_ok, options_kws, option_setting.
  destruct (oc_enabled (c_options c)); cbn [andb]; [|cbn; intuition discriminate].
  destruct (kind_in (KT k) (oc_types (c_options c))); cbn [andb]; [|cbn; intuition discriminate].
  destruct (listed _ n); cbn [andb negb]; [cbn; intuition discriminate|].
  destruct (unlisted _ n); cbn [andb negb]; [cbn; intuition discriminate|].
  rewrite !in_app_iff, !opt_kw_In. tauto.
Qed.
Lemma additional_kws_spec : forall c n name v,
  In (name, v) (additional_kws c n) <-> extra_setting c n name v.
Proof.
  intros; unfold additional_kws, extra_setting. destruct n as [[|ch m]|]; cbn [truthy opt_str].
  - split; [intros []|]. intros (m & d & [= <-] & H & _); congruence.
  - destruct (dget (String ch m) (c_additional_config c)) as [d|] eqn:E.
    + split; [intros; exists (String ch m), d; intuition discriminate|].
      intros (m' & d' & [= <-] & _ & E' & H). congruence.
    + split; [intros []|]. intros (m' & d' & [= <-] & _ & E' & H). congruence.
  - split; [intros []|]. intros (m' & d' & H & _); discriminate.
Qed.

Lemma const_kws_map : forall l, const_kws (map (fun kv => (Some (fst kv), EConst (snd kv))) l) = l.
Proof. induction l as [|[n c] l IH]; cbn; [auto|now rewrite IH]. Qed.
Lemma const_assigns_map : forall l,
  const_assigns (map (fun kv => SAssign (EName (fst kv)) (EConst (snd kv))) l) = l.
Proof. induction l as [|[n c] l IH]; cbn; [auto|now rewrite IH]. Qed.

Lemma config_total : forall k c n r, exists body r',
  generate_pydantic_config k c n r = (Ok body, r')
  /\ config_entries body = freeze_kws k c n ++ options_kws (by_name_key c) k c n ++ additional_kws c n.
Proof.
  intros; unfold generate_pydantic_config, by_name_key.
  destruct (String.eqb (c_pydantic_version c) "v2").
  - unfold generate_config_dict. cbn zeta.
    destruct (freeze_kws k c n ++ options_kws "populate_by_name" k c n ++ additional_kws c n) as [|kv l] eqn:E.
    + eexists; eexists; split; reflexivity.
    + eexists; eexists; split; [reflexivity|].
      unfold config_entries. cbn [flat_map]. rewrite app_nil_r. unfold config_entries_of.
      apply (const_kws_map (kv :: l)).
  - unfold generate_config_class_pydantic. cbn zeta.
    destruct (freeze_kws k c n ++ _ ++ additional_kws c n) as [|kv l] eqn:E.
    + eexists; eexists; split; reflexivity.
    + eexists; eexists; split; [reflexivity|].
      unfold config_entries. cbn [flat_map]. rewrite app_nil_r. unfold config_entries_of.
      apply (const_assigns_map (kv :: l)).
Qed.

Lemma config_C17 : forall k c n r, exists body r',
  generate_pydantic_config (KT k) c n r = (Ok body, r')
  /\ forall name v, In (name, v) (config_entries body) <->
       (freeze_applies c k n /\ name = "frozen" /\ v = CBool true)
       \/ (options_apply c k n /\ option_setting c name v)
       \/ extra_setting c n name v.
Proof.
  intros. destruct (config_total (KT k) c n r) as (body & r' & E & H).
  exists body, r'; split; [exact E|]. intros. rewrite H, !in_app_iff.
  rewrite freeze_kws_spec, options_kws_spec, additional_kws_spec. tauto.
Qed.

(** *** document rules *)
Lemma rules_C43 : forall c,
  (forall rule, In rule (get_document_rules c) <->
     In rule specified_rules_map /\ ~ In rule (c_omited_document_rules c))
  /\ (exists keep, get_document_rules c = filter keep specified_rules_map)
  /\ NoDup (get_document_rules c).
Proof.
  intros; unfold get_document_rules; repeat split.
  - apply filter_In in H; tauto.
  - apply filter_In in H as [_ H]. now apply negb_true_iff, mem_false in H.
  - intros [H1 H2]. apply filter_In; split; [assumption|].
    now apply negb_true_iff, mem_false.
  - eauto.
  - apply NoDup_filter, nodupb_NoDup. vm_compute; reflexivity.
Qed.
Lemma omitted_C43 : forall v,
  (is_ok (validate_omited_document_rules v) = true <-> forall r, In r v -> In r specified_rules_map).
Proof.
  induction v as [|x v IH]; [split; cbn; [intros _ ? []|reflexivity]|].
  cbn [validate_omited_document_rules]. destruct (mem_spec x specified_rules_map) as [H|H].
  - rewrite IH. split; [intros Hv r [<-|Hr]; auto|intros Hv r Hr; apply Hv; now right].
  - split; [discriminate|]. intros Hv; contradict H; apply Hv; now left.
Qed.

(** *** UNSET override *)
Lemma unset_C50_accept : forall c, is_ok (validate_unset_override c) = true <->
  (c_unset_type_class c = None <-> c_unset_instance c = None).
Proof.
  intros; unfold validate_unset_override.
  destruct (c_unset_type_class c), (c_unset_instance c); cbn; split; try easy.
  - intros [_ H]; discriminate (H eq_refl).
  - intros [H _]; discriminate (H eq_refl).
Qed.

Lemma pythontype_nonempty : forall b v w, ~ In "" b -> pythontype_validate b v = Ok w -> w <> "" /\ v = w.
Proof.
  unfold pythontype_validate; intros b v w Hb H. destruct (mem_spec v b) as [M|M].
  - injection H as <-. split; [intros ->; auto|reflexivity].
  - destruct (has_dot v) eqn:D; [|discriminate]. injection H as <-.
    split; [intros ->; discriminate|reflexivity].
Qed.

Lemma unset_C50_refs : forall builtins c r,
  ~ In "" builtins ->
  is_ok (validate_unset_override c) = true ->
  (forall v, c_unset_type_class c = Some v -> is_ok (pythontype_validate builtins v) = true) ->
  (forall v, c_unset_instance c = Some v -> is_ok (pythontype_validate builtins v) = true) ->
  exists r', (let* i := reference_unset c in let* t := reference_unset_type c in ret (i, t)) r
             = (Ok match c_unset_instance c, c_unset_type_class c with
                   | Some i, Some t => (EName (last_comp i), EName (last_comp t))
                   | _, _ => (EName "UNSET", EName "UnsetType")
                   end, r')
  /\ match c_unset_instance c, c_unset_type_class c with
     | Some i, Some t => r_builtins r' = r_builtins r
         /\ (~ In i py_noimport -> In i (r_imports r')) /\ (~ In t py_noimport -> In t (r_imports r'))
     | None, None => r_imports r' = r_imports r /\ In "UNSET" (r_builtins r')
     | _, _ => False
     end.
Proof.
  intros bi c r Hb Ha Ht Hi. apply unset_C50_accept in Ha.
  unfold reference_unset, reference_unset_type, reference_override.
  destruct (c_unset_instance c) as [i|] eqn:Ei, (c_unset_type_class c) as [t|] eqn:Et;
    try (exfalso; destruct Ha as [A B]; try discriminate (A eq_refl); discriminate (B eq_refl)).
  - specialize (Ht _ eq_refl); specialize (Hi _ eq_refl).
    destruct (pythontype_validate bi t) as [t'|] eqn:Pt; [|discriminate].
    destruct (pythontype_validate bi i) as [i'|] eqn:Pi; [|discriminate].
    apply pythontype_nonempty in Pt as [Nt ->]; [|assumption].
    apply pythontype_nonempty in Pi as [Ni ->]; [|assumption].
    destruct t' as [|tc t']; [easy|]. destruct i' as [|ic i']; [easy|].
    cbn [truthy]. unfold bind, register_import, modify, ret.
    destruct (mem_spec (String ic i') py_noimport), (mem_spec (String tc t') py_noimport);
      eexists; (split; [reflexivity|]); cbn [r_builtins r_imports with_imports]; repeat split;
      intros; rewrite ?sadd_In; tauto.
  - unfold bind, register_builtin, modify, ret. eexists; split; [reflexivity|].
    cbn. split; [reflexivity|]. apply sadd_In; now left.
Qed.
