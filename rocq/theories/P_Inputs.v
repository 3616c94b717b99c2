(** Proofs about the enum and input plugins. *)
From Verif Require Import Base PyAst Gql Config Stylers Registry Utils Referencer Enums Inputs
  Spec_Types Spec_Inputs P_Base P_Monad P_Types.

(** ** references *)
Lemma reference_scalar_ok : forall n r e r', reference_scalar n r = (Ok e, r') ->
  exists p, dget n (r_scalars r) = Some p /\ e = EName (last_comp p).
Proof.
  intros n r e r' H. unfold reference_scalar in H. apply bind_ok in H. destruct H as (m & r1 & Hm & H).
  apply gets_ok in Hm. destruct Hm; subst. destruct (dget n (r_scalars r)) as [p|]; [|discriminate].
  minv. eauto.
Qed.
Lemma reference_inputtype_ok : forall st n p f r e r', names_styled st r ->
  reference_inputtype st n p f r = (Ok e, r') ->
  e = EName (style_inputtype_class st n) \/ e = estr (style_inputtype_class st n).
Proof.
  intros st n p f r e r' (HN & _) H. unfold reference_inputtype in H. cbn zeta in H.
  apply bind_ok in H. destruct H as (m & r1 & Hm & H). apply gets_ok in Hm. destruct Hm; subst.
  destruct (dget n (r_inputs r)) as [cls|] eqn:E.
  - apply HN in E; subst cls. destruct (String.eqb _ _); [destruct f; [|discriminate]|]; minv; auto.
  - destruct f; [|discriminate]. minv; auto.
Qed.
Lemma reference_enum_ok : forall st n p f r e r',
  ~ In n ["UNSET"; "GraphQLDefault"; "Deprecated"] -> reference_enum st n p f r = (Ok e, r') ->
  e = EName (enum_type_class st n) \/ e = estr (enum_type_class st n).
Proof.
  intros st n p f r e r' HB H. unfold reference_enum in H. unfold enum_type_class, introspection_enum.
  destruct (mem_spec n built_in_keys) as [Hin|Hin].
  { minv. right. destruct Hin as [<-|[<-|Hin]]; [reflexivity|reflexivity|contradiction]. }
  destruct (String.eqb_spec n "__TypeKind") as [->|_]; [exfalso; apply Hin; cbn; tauto|].
  destruct (String.eqb_spec n "__DirectiveLocation") as [->|_]; [exfalso; apply Hin; cbn; tauto|]. cbn [orb].
  cbn zeta in H.
  apply bind_ok in H. destruct H as (m & r1 & Hm & H). apply gets_ok in Hm. destruct Hm; subst.
  destruct (_ || _); [destruct f; [|discriminate]|]; minv; auto.
Qed.

(** ** which registry parts the input functions touch *)
Definition input_kinds : list kind := [KImp; KBui; KFwd].
Lemma ev_generate_input_annotation : forall c st s t p o, ev st input_kinds (generate_input_annotation c st s t p o).
Proof.
  intros c st s t. induction t as [n|t IH|t IH]; intros p o.
  - cbn [generate_input_annotation]. cbn zeta. destruct (get_type s n) as [[]|]; ev_tac.
  - cbn [generate_input_annotation]. cbn zeta. apply ev_bind; [ev_tac|]. intros _. destruct o.
    + apply ev_bind; [ev_leaf|]; intros _. apply ev_bind; [apply IH|]; intros; apply ev_ret.
    + apply ev_bind; [apply IH|]; intros; apply ev_ret.
  - apply IH.
Qed.
#[export] Hint Resolve ev_generate_input_annotation : evdb.
Lemma ev_generate_input_field_annotation : forall c st s t p o,
  ev st input_kinds (generate_input_field_annotation c st s t p o).
Proof. intros; unfold generate_input_field_annotation; ev_tac. Qed.
Lemma ev_generate_input_field_value : forall st f k o d, ev st [KImp] (generate_input_field_value f k o d).
Proof. intros; unfold generate_input_field_value; ev_tac. Qed.
#[export] Hint Resolve ev_generate_input_field_annotation ev_generate_input_field_value : evdb.
Lemma ev_generate_input_field : forall c st s n k v, ev st input_kinds (generate_input_field c st s n k v).
Proof. intros; unfold generate_input_field; ev_tac. Qed.
#[export] Hint Resolve ev_generate_input_field : evdb.
Lemma ev_discriminator_field : forall st d, ev st [KImp] (discriminator_field d).
Proof. intros; unfold discriminator_field; ev_tac. Qed.
#[export] Hint Resolve ev_discriminator_field : evdb.
Lemma ev_input_class : forall c st pc s n k d f b ds, ev st input_kinds (input_class c st pc s n k d f b ds).
Proof. intros; unfold input_class; ev_tac. Qed.
#[export] Hint Resolve ev_input_class : evdb.
Lemma ev_generate_input_type : forall c st pc s n k d f ds, ev st input_kinds (generate_input_type c st pc s n k d f ds).
Proof. intros; unfold generate_input_type; ev_tac. Qed.
#[export] Hint Resolve ev_generate_input_type : evdb.
Lemma ev_validate_oneof : forall st f, ev st [] (validate_oneof_input_type f).
Proof. intros; unfold validate_oneof_input_type; ev_tac. Qed.
Lemma ev_union_alias : forall st a l, ev st [KImp] (generate_union_alias a l).
Proof. intros; unfold generate_union_alias; ev_tac. Qed.
#[export] Hint Resolve ev_validate_oneof ev_union_alias : evdb.
Definition inputs_kinds : list kind := KInp :: input_kinds.
Lemma ev_oneof_wrapper_class : forall c st pc s k b kv, ev st inputs_kinds (oneof_wrapper_class c st pc s k b kv).
Proof. intros c st pc s k b [vk v]; unfold oneof_wrapper_class; ev_tac. Qed.
#[export] Hint Resolve ev_oneof_wrapper_class : evdb.
Lemma ev_oneof_wrapper_input : forall c st pc s k f, ev st inputs_kinds (generate_oneof_wrapper_input c st pc s k f).
Proof. intros; unfold generate_oneof_wrapper_input; ev_tac. Qed.
Lemma ev_oneof_direct_union : forall st k m, ev st inputs_kinds (generate_oneof_direct_union st k m).
Proof. intros; unfold generate_oneof_direct_union; ev_tac. Qed.
#[export] Hint Resolve ev_oneof_wrapper_input ev_oneof_direct_union : evdb.
Lemma ev_prepass_type : forall c st pc s rf acc kv, ev st inputs_kinds (prepass_type c st pc s rf acc kv).
Proof. intros c st pc s rf [p tree] [k t]; unfold prepass_type; ev_tac. Qed.
Lemma ev_main_type : forall c st pc s rf p acc kv, ev st inputs_kinds (main_type c st pc s rf p acc kv).
Proof. intros c st pc s rf p [tree d] [k t]; unfold main_type; ev_tac. Qed.
#[export] Hint Resolve ev_prepass_type ev_main_type : evdb.
Lemma ev_plugin_refs : forall st c b s d, ev st [] (plugin_refs c b s d).
Proof. intros; unfold plugin_refs; ev_tac. Qed.
#[export] Hint Resolve ev_plugin_refs : evdb.
Lemma ev_generate_inputs : forall c st pc s d, ev st inputs_kinds (generate_inputs c st pc s d).
Proof. intros; unfold generate_inputs; ev_tac. Qed.
#[export] Hint Resolve ev_generate_inputs : evdb.
Lemma ev_inputs_plugin : forall c st pc s d, ev st inputs_kinds (inputs_plugin c st pc s d).
Proof. intros; unfold inputs_plugin; ev_tac. Qed.
Lemma ev_generate_enums : forall c st pc s d, ev st [KEnu] (generate_enums c st pc s d).
Proof. intros; unfold generate_enums; ev_tac. Qed.
#[export] Hint Resolve ev_inputs_plugin ev_generate_enums : evdb.
Lemma ev_enums_plugin : forall c st pc s d, ev st [KEnu; KImp] (enums_plugin c st pc s d).
Proof. intros; unfold enums_plugin; ev_tac. Qed.
#[export] Hint Resolve ev_enums_plugin : evdb.

(** ** C12: annotations *)
Definition input_leaf_expr (s : schema) (scalars : dict string) (st : list styler) (n : string) (e : expr) : Prop :=
  match get_type s n with
  | Some (TScalar _) => exists p, dget n scalars = Some p /\ e = EName (last_comp p)
  | Some (TEnum _ _) => e = EName (enum_type_class st n) \/ e = estr (enum_type_class st n)
  | Some (TInput _ _ _) => e = EName (style_with sty_input st n) \/ e = estr (style_with sty_input st n)
  | _ => False
  end.
Lemma input_leaf_ok : forall s sc st, leaf_ok (input_leaf_expr s sc st) (input_leaf s sc st).
Proof.
  intros s sc st n e H. unfold input_leaf_expr, input_leaf in *.
  destruct (get_type s n) as [[]|]; try contradiction.
  - destruct H as (p & Hp & ->). split; [apply nt_name|]. intros v; cbn. split.
    + intros ->; eauto 6.
    + intros (c & (p' & Hp' & ->) & ->). congruence.
  - destruct H as [-> | ->]; (split; [auto with nt|]); intros v; cbn; (split; [intros ->; eauto|intros (c & -> & ->); reflexivity]).
  - destruct H as [-> | ->]; (split; [auto with nt|]); intros v; cbn; (split; [intros ->; eauto|intros (c & -> & ->); reflexivity]).
Qed.
Lemma generate_input_annotation_annot : forall c st s t p o r e r',
  no_helper_enum s -> names_styled st r ->
  generate_input_annotation c st s t p o r = (Ok e, r') ->
  annot (tuple_for_inputs c) (input_leaf_expr s (r_scalars r) st) t o e.
Proof.
  intros c st s t. induction t as [n|t IH|t IH]; intros p o r e r' HB HN H.
  - cbn [generate_input_annotation] in H. cbn zeta in H.
    assert (L : forall m r1 r2 x, r_scalars r1 = r_scalars r -> names_styled st r1 ->
      match get_type s n with
      | Some (TScalar _) => m = reference_scalar n
      | Some (TInput _ _ _) => m = reference_inputtype st n p true
      | Some (TEnum _ _) => m = reference_enum st n p (negb (c_force_plugin_order c))
      | _ => False
      end -> m r1 = (Ok x, r2) -> input_leaf_expr s (r_scalars r) st n x).
    { intros m r1 r2 x Hs Hn Hm Hx. unfold input_leaf_expr. pose proof (HB n) as HBn.
      destruct (get_type s n) as [[]|]; try contradiction; subst m.
      - apply reference_scalar_ok in Hx. now rewrite Hs in Hx.
      - apply reference_enum_ok in Hx; [exact Hx|]. eapply HBn; reflexivity.
      - eapply reference_inputtype_ok in Hx; [exact Hx|assumption]. }
    assert (S1 : forall r1 u, register_import "typing.Optional" r = (Ok u, r1) -> r_scalars r1 = r_scalars r /\ names_styled st r1).
    { intros r1 u Hu. pose proof (ev_ok st _ _ _ _ _ (ev_register_import st _) Hu) as E.
      split; [eapply frame_scalars; [|exact E]; cbn; intuition discriminate|eapply names_styled_evolve; eassumption]. }
    clear HB. revert H L. destruct (get_type s n) as [[]|]; intros H L; try discriminate; destruct o.
    all: try (apply an_named; eapply L; [reflexivity|eassumption|reflexivity|eassumption]).
    all: apply bind_ok in H; destruct H as (u & r1 & Hu & H);
         apply bind_ok in H; destruct H as (x & r2 & Hx & H); minv; apply an_named_opt;
         destruct (S1 _ _ Hu); eapply L; [| |reflexivity|]; eassumption.
  - cbn [generate_input_annotation] in H. cbn zeta in H.
    apply bind_ok in H. destruct H as (u & r1 & H1 & H).
    assert (E1 : evolve st [KImp] r r1).
    { eapply ev_ok; [|exact H1]. ev_tac. }
    destruct o.
    + apply bind_ok in H. destruct H as (u2 & r2 & H2 & H). apply bind_ok in H. destruct H as (x & r3 & H3 & H).
      minv. pose proof (ev_ok st _ _ _ _ _ (ev_register_import st _) H2) as E2.
      pose proof (evolve_trans _ _ _ _ _ E1 E2) as E.
      assert (S : r_scalars r2 = r_scalars r) by (eapply frame_scalars; [|exact E]; cbn; intuition discriminate).
      apply an_list_opt. rewrite <- S. eapply IH; [eassumption| |exact H3]. eapply names_styled_evolve; eassumption.
    + apply bind_ok in H. destruct H as (x & r3 & H3 & H). minv.
      assert (S : r_scalars r1 = r_scalars r) by (eapply frame_scalars; [|exact E1]; cbn; intuition discriminate).
      apply an_list. rewrite <- S. eapply IH; [eassumption| |exact H3]. eapply names_styled_evolve; eassumption.
  - cbn in H. apply an_nonnull. eapply IH; eassumption.
Qed.

Lemma tuple_for_inputs_spec : forall c, input_tuples c (tuple_for_inputs c).
Proof.
  intros c. unfold input_tuples, tuple_for_inputs. rewrite !andb_true_iff, existsb_exists.
  assert (E : (exists x, In x (fz_types (c_freeze c)) /\ gqltypes_eqb KInput x = true) <-> In KInput (fz_types (c_freeze c))).
  { split; [|intros H; exists KInput; auto]. intros (x & Hx & E). destruct x; try discriminate. exact Hx. }
  rewrite E. tauto.
Qed.

(** an evolution that leaves the scalar table alone *)
Lemma ev_scalars : forall st K {A} (m : M A) r a r', ev st K m -> ~ In KSca K -> m r = (Ok a, r') ->
  names_styled st r -> r_scalars r' = r_scalars r /\ names_styled st r'.
Proof.
  intros st K A m r a r' HE HK Hm HN. pose proof (ev_ok st _ _ _ _ _ HE Hm) as E.
  split; [eapply frame_scalars; eassumption|eapply names_styled_evolve; eassumption].
Qed.
Ltac nosca := cbn; intuition discriminate.

Lemma annotate_accepts : forall c a d e r a' r',
  annotate_field_metadata c a d e r = (Ok a', r') -> forall v, accepts a' v <-> accepts a v.
Proof.
  intros c a d e r a' r' H v. unfold annotate_field_metadata in H.
  apply bind_ok in H. destruct H as (m1 & r1 & H1 & H). apply bind_ok in H. destruct H as (m2 & r2 & H2 & H).
  destruct (m1 ++ m2) as [|x l]; [minv; reflexivity|]. minv. apply accepts_annotated.
Qed.

Lemma field_value_spec : forall f k o d r v r',
  generate_input_field_value f k o d r = (Ok v, r') ->
  wire_name f v = k /\ may_omit v = o.
Proof.
  intros f k o d r v r' H. unfold generate_input_field_value in H.
  destruct (String.eqb_spec f k) as [->|N]; cbn [negb andb] in H.
  - destruct (truthy d) eqn:T; cbn [negb] in H; minv.
    + unfold field_call. destruct o; split; reflexivity.
    + destruct o; split; reflexivity.
  - minv. destruct (truthy d), o; split; reflexivity.
Qed.

Lemma input_field_spec : forall c st s name k v r l r',
  no_helper_enum s -> names_styled st r ->
  generate_input_field c st s name k v r = (Ok l, r') ->
  exists fld, class_fields l = [fld] /\ enum_members l = []
    /\ input_field_ok (tuple_for_inputs c) (input_leaf s (r_scalars r) st) st k v fld.
Proof.
  intros c st s name k v r l r' HB HN H. unfold generate_input_field in H. cbn zeta in H.
  apply bind_ok in H. destruct H as (a0 & r1 & H0 & H). apply bind_ok in H. destruct H as (a & r2 & H1 & H).
  apply bind_ok in H. destruct H as (val & r3 & H2 & H). apply ret_ok in H. destruct H as [-> ->].
  exists (generate_node_name st k, a, val).
  split; [|split]; [destruct (_ && _); reflexivity|destruct (_ && _); reflexivity|].
  destruct (field_value_spec _ _ _ _ _ _ _ H2) as [W O].
  unfold generate_input_field_annotation in H0. apply bind_ok in H0. destruct H0 as (b & rb & Hb & H0).
  pose proof (generate_input_annotation_annot _ _ _ _ _ _ _ _ _ HB HN Hb) as AN.
  destruct (annot_accepts _ _ _ (input_leaf_ok s (r_scalars r) st) _ _ _ AN) as [NT AC].
  split; cbn [fst snd]; auto.
  - intros x. rewrite (annotate_accepts _ _ _ _ _ _ _ H1). unfold input_omittable in H0.
    destruct (if_default v) as [dv|] eqn:D; cbn [andb] in H0.
    + destruct (is_nonnull (if_type v)) eqn:NN.
      * minv. rewrite accepts_optional by assumption. rewrite AC.
        intuition (subst; auto; try discriminate).
      * minv. rewrite AC. split; [auto|]. intros [Hx|[-> _]]; [exact Hx|].
        destruct (if_type v); cbn in *; try discriminate; now left.
    + destruct (is_nonnull (if_type v)); cbn in H0; minv; rewrite AC;
        intuition congruence.
  - rewrite O. unfold input_omittable. destruct (if_default v) as [dv|] eqn:D.
    + split; [left; discriminate|auto].
    + destruct (if_type v); cbn; intuition congruence.
Qed.

