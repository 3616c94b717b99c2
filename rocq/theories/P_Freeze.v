(** Every class of the input and of the object plugin has the configuration of its type. *)
From Verif Require Import Base PyAst Gql Config Stylers Registry Utils Referencer Enums Recurse Inputs Objects
  Spec_Config Spec_Types Spec_Inputs Spec_Fields P_Base P_Config P_Monad P_Inputs P_Inputs3 P_Fields.

Lemma entries_app : forall a b, config_entries (a ++ b) = config_entries a ++ config_entries b.
Proof. intros. apply flat_map_app. Qed.
Lemma entries_none : forall l, (forall x, In x l -> config_entries_of x = []) -> config_entries l = [].
Proof.
  induction l as [|x l IH]; intros H; [reflexivity|]. cbn. rewrite (H x (or_introl eq_refl)). apply IH. intros y Hy. apply H. now right.
Qed.
Lemma config_configured : forall k c n pre r cfg r', config_entries pre = [] ->
  generate_pydantic_config (KT k) c n r = (Ok cfg, r') -> configured c k n (pre ++ cfg).
Proof.
  intros k c n pre r cfg r' E H name v. rewrite entries_app, E. cbn [app].
  destruct (config_C17 k c n r) as (b & r2 & H2 & S). rewrite H in H2. injection H2 as <- <-. apply S.
Qed.
(** statements that are annotated assignments or expressions *)
Definition quiet_stm (x : stmt) : Prop := match x with SAnn _ _ _ | SExpr _ | SFunc _ _ _ _ _ _ => True | _ => False end.
Lemma quiet_entries : forall x, quiet_stm x -> config_entries_of x = [].
Proof. intros [] []; reflexivity. Qed.
Lemma quiet_list : forall l, Forall quiet_stm l -> config_entries l = [].
Proof. intros l H. apply entries_none. intros x Hx. apply quiet_entries. rewrite Forall_forall in H. auto. Qed.

Section I.
Variables (c : gconfig) (st : list styler) (pc : inputs_config) (s : schema).
(** the base classes are configured ones *)
Definition based (bases : list expr) : Prop :=
  forall b, In b bases -> exists p, b = EName (last_comp p) /\ (In p (ic_bases pc) \/ exists n l, dget n (c_additional_bases c) = Some l /\ In p l).
Definition in_ok (stm : stmt) : Prop :=
  match stm with
  | SClass cls bases body _ => based bases /\ exists key t, In (key, t) (schema_inputs s)
      /\ (cls = style_with sty_input st key
          \/ (is_oneof t /\ exists kv, In kv (id_fields t) /\ cls = style_with sty_input st (key +s+ cap_first (fst kv))))
      /\ configured c KInput (Some key) body
  | _ => True
  end.
Lemma field_quiet : forall n k v r l r', generate_input_field c st s n k v r = (Ok l, r') -> Forall quiet_stm l.
Proof.
  intros n k v r l r' H. unfold generate_input_field in H.
  apply bind_ok in H as (a0 & r1 & _ & H). apply bind_ok in H as (a & r2 & _ & H). cbn zeta in H. apply bind_ok in H as (x & r3 & _ & H).
  apply ret_ok in H as [-> ->]. destruct (_ && _); repeat constructor.
Qed.
Lemma generated_name : forall n r x r', generate_inputtype st n r = (Ok x, r') -> x = style_with sty_input st n.
Proof. intros n r x r' H. unfold generate_inputtype in H. apply generate_in_spec in H. apply H. Qed.
Lemma import_bases_spec : forall l r es r', import_bases l r = (Ok es, r') -> es = map (fun b => EName (last_comp b)) l.
Proof. intros l r es r' H. unfold import_bases in H. minv. reflexivity. Qed.
Lemma additional_based : forall n r es r', get_additional_bases_for_type c n r = (Ok es, r') -> based (es ++ input_bases pc).
Proof.
  intros n r es r' H b Hb. apply in_app_iff in Hb as [Hb|Hb].
  - unfold get_additional_bases_for_type in H. destruct (dget n _) as [l|] eqn:E; [|apply ret_ok in H as [-> _]; contradiction].
    apply import_bases_spec in H as ->. apply in_map_iff in Hb as (p & <- & Hp). exists p. split; [reflexivity|]. right. eauto.
  - unfold input_bases in Hb. apply in_map_iff in Hb as (p & <- & Hp). exists p. auto.
Qed.
Lemma class_in_ok : forall key t r d b ds x r', In (key, t) (schema_inputs s) -> based (b ++ input_bases pc) ->
  input_class c st pc s (style_with sty_input st key) key d (id_fields t) b ds r = (Ok x, r') -> in_ok x.
Proof.
  intros key t r d b ds x r' Hin HB H. unfold input_class in H.
  apply bind_ok in H as (dfs & r1 & H1 & H). apply bind_ok in H as (fs & r2 & H2 & H). cbn zeta in H.
  apply bind_ok in H as (cfg & r3 & H3 & H). apply ret_ok in H as [-> ->]. cbn [in_ok]. split; [exact HB|].
  exists key, t. split; [exact Hin|]. split; [now left|].
  change (class_doc d :: dfs ++ fs ++ ?p ++ cfg) with ((class_doc d :: dfs) ++ fs ++ p ++ cfg).
  rewrite !app_assoc. eapply config_configured; [|exact H3]. apply quiet_list. rewrite !Forall_app. repeat split.
  - constructor; [exact I|]. assert (F : Forall2 (fun _ y => quiet_stm y) ds dfs).
    { eapply (mmap_inv _ (fun _ => True)); [exact H1|exact I|]. intros x0 ra y rb _ _ Hx. split; [exact I|].
      unfold discriminator_field in Hx. minv. exact I. }
    clear - F. induction F; constructor; auto.
  - apply mconcat_ok in H2 as (yss & H2 & ->). assert (F : Forall2 (fun _ y => Forall quiet_stm y) (id_fields t) yss).
    { eapply (mmap_inv _ (fun _ => True)); [exact H2|exact I|]. intros x0 ra y rb _ _ Hx. split; [exact I|].
      cbn beta in Hx. destruct (mem _ _); [apply ret_ok in Hx as [-> _]; constructor|]. eapply field_quiet; exact Hx. }
    clear - F. induction F; cbn; [constructor|]. apply Forall_app; auto.
  - destruct ds; [constructor|]. destruct (String.eqb _ _); repeat constructor.
Qed.
Lemma wrappers_in_ok : forall key t r l r', In (key, t) (schema_inputs s) -> is_oneof t ->
  generate_oneof_wrapper_input c st pc s key (id_fields t) r = (Ok l, r') -> Forall in_ok l.
Proof.
  intros key t r l r' Hin HO H. unfold generate_oneof_wrapper_input in H.
  apply bind_ok in H as (ab & r1 & H1 & H). apply bind_ok in H as (ws & r2 & H2 & H). apply bind_ok in H as (al & r3 & H3 & H).
  apply bind_ok in H as (a & r4 & H4 & H). apply ret_ok in H as [-> ->]. apply Forall_app. split.
  - assert (F : Forall2 (fun _ y => in_ok (snd y)) (id_fields t) ws).
    { eapply (mmap_inv _ (fun _ => True)); [exact H2|exact I|]. intros [k v] ra y rb Hk _ Hx. split; [exact I|]. cbn beta in Hx.
      unfold oneof_wrapper_class in Hx. apply bind_ok in Hx as (cn & r5 & H5 & Hx). apply bind_ok in Hx as (a0 & r6 & H6 & Hx).
      apply bind_ok in Hx as (a1 & r7 & H7 & Hx). cbn zeta in Hx. apply bind_ok in Hx as (vv & r8 & H8 & Hx).
      apply bind_ok in Hx as (cfg & r9 & H9 & Hx). apply ret_ok in Hx as [-> ->]. cbn [snd in_ok]. split; [eapply additional_based; exact H1|].
      exists key, t. split; [exact Hin|]. split.
      - right. split; [exact HO|]. exists (k, v). split; [exact Hk|]. unfold try_except in H5.
        destruct (generate_inputtype st _ ra) as [[y|e] rr] eqn:G; [injection H5 as <- <-; apply generated_name in G; exact G|].
        destruct (is_cls _ e); discriminate.
      - match goal with |- configured _ _ _ (?a :: ?b :: cfg) => change (a :: b :: cfg) with ([a; b] ++ cfg) end.
        eapply config_configured; [reflexivity|exact H9]. }
    clear - F. induction F; cbn; constructor; auto.
  - constructor; [|constructor]. unfold generate_union_alias in H4. destruct (map fst ws) as [|m [|m' ms]]; minv; exact I.
Qed.
Lemma inputs_in_ok : forall documents r body r', generate_inputs c st pc s documents r = (Ok body, r') -> Forall in_ok body.
Proof.
  intros documents r body r' H. unfold generate_inputs in H. apply bind_ok in H as (rf & r1 & H1 & H).
  apply bind_ok in H as (u & r2 & H2 & H). apply bind_ok in H as (x & r3 & H3 & H). apply bind_ok in H as (y & r4 & H4 & H).
  apply bind_ok in H as (l & r5 & H5 & H). apply ret_ok in H as [-> ->].
  assert (X : Forall in_ok (snd x)).
  { eapply (mfold_ok _ (fun _ a _ => Forall in_ok (snd a))) in H3; [exact H3|constructor|].
    intros pre [key t] post [p tree] ra acc' rb E HP Hs. cbn [snd] in HP. unfold prepass_type in Hs.
    apply bind_ok in Hs as ([ms discr] & r6 & _ & Hs). destruct ms as [|m ms]; [apply ret_ok in Hs as [-> ->]; exact HP|].
    apply bind_ok in Hs as (ds & r7 & _ & Hs). apply bind_ok in Hs as (n & r8 & Hn & Hs). apply bind_ok in Hs as (cl & r9 & Hc & Hs).
    apply ret_ok in Hs as [-> ->]. cbn [snd]. apply Forall_app. split; [exact HP|]. constructor; [|constructor].
    apply generated_name in Hn as ->. unfold generate_input_type in Hc. apply bind_ok in Hc as (ab & r10 & Hab & Hc).
    eapply class_in_ok; [|eapply additional_based; exact Hab|exact Hc]. change (schema_inputs s) with (input_types s). rewrite E. apply in_elt. }
  assert (Y : Forall in_ok (fst y)).
  { eapply (mfold_ok _ (fun _ a _ => Forall in_ok (fst a))) in H4; [exact H4|exact X|].
    intros pre [key t] post [tree df] ra acc' rb E HP Hs. cbn [fst] in HP.
    assert (Hin : In (key, t) (schema_inputs s)) by (change (schema_inputs s) with (input_types s); rewrite E; apply in_elt).
    unfold main_type in Hs. destruct (mem key _); [apply ret_ok in Hs as [-> ->]; exact HP|].
    destruct (match rf with Some r => _ | None => _ end); [apply ret_ok in Hs as [-> ->]; exact HP|].
    destruct (_ && _); [apply ret_ok in Hs as [-> ->]; exact HP|].
    destruct (is_oneof_input_type _) eqn:O.
    - apply bind_ok in Hs as (v & r6 & _ & Hs). cbn zeta in Hs. apply is_oneof_dec in O.
      assert (HO : is_oneof t) by (destruct t; exact O).
      assert (W : forall acc', bind (generate_oneof_wrapper_input c st pc s key (id_fields t)) (fun l0 => ret (tree ++ l0, df)) r6 = (Ok acc', rb) -> Forall in_ok (fst acc')).
      { intros acc2 Hw. apply bind_ok in Hw as (l0 & r7 & Hw & Hr). apply ret_ok in Hr as [-> ->]. cbn [fst]. apply Forall_app. split; [exact HP|].
        eapply wrappers_in_ok; eauto. }
      destruct (if String.eqb _ _ then _ else _) as [ms|]; [|exact (W _ Hs)]. destruct (existsb _ ms); [exact (W _ Hs)|].
      apply ret_ok in Hs as [-> ->]. exact HP.
    - destruct (dget key _) as [members|].
      + apply bind_ok in Hs as (? & ? & _ & Hs). apply bind_ok in Hs as (? & ? & _ & Hs). apply bind_ok in Hs as (? & ? & _ & Hs).
        apply bind_ok in Hs as (al & ? & _ & Hs). apply ret_ok in Hs as [-> ->]. cbn [fst]. apply Forall_app. split; [exact HP|]. repeat constructor.
      + apply bind_ok in Hs as (ab & ? & Hab & Hs). apply bind_ok in Hs as (n & ? & Hn & Hs). apply bind_ok in Hs as (cl & ? & Hc & Hs).
        apply ret_ok in Hs as [-> ->]. cbn [fst]. apply Forall_app. split; [exact HP|]. constructor; [|constructor].
        apply generated_name in Hn as ->. eapply class_in_ok; [exact Hin|eapply additional_based; exact Hab|exact Hc]. }
  apply Forall_app. split; [exact Y|]. apply mconcat_ok in H5 as (yss & H5 & ->).
  assert (F : Forall2 (fun _ z => Forall in_ok z) (snd y) yss).
  { eapply (mmap_inv _ (fun _ => True)); [exact H5|exact I|]. intros km ra z rb _ _ Hz. split; [exact I|]. cbn beta in Hz.
    unfold generate_oneof_direct_union in Hz. apply bind_ok in Hz as (al & ? & _ & Hz). cbn zeta in Hz.
    apply bind_ok in Hz as (cs & ? & _ & Hz). apply bind_ok in Hz as (? & ? & _ & Hz). apply bind_ok in Hz as (? & ? & _ & Hz). apply bind_ok in Hz as (? & ? & _ & Hz).
    apply ret_ok in Hz as [-> _]. repeat constructor. }
  clear - F. induction F; cbn; [constructor|]. apply Forall_app; auto.
Qed.
End I.
Theorem inputs_configured : forall c st pc s documents r body r', generate_inputs c st pc s documents r = (Ok body, r') ->
  forall cls bases b decs, In (SClass cls bases b decs) body -> exists key t, In (key, t) (schema_inputs s)
    /\ (cls = style_with sty_input st key
        \/ (is_oneof t /\ exists kv, In kv (id_fields t) /\ cls = style_with sty_input st (key +s+ cap_first (fst kv))))
    /\ configured c KInput (Some key) b.
Proof.
  intros c st pc s documents r body r' H cls bases b decs Hin. apply inputs_in_ok in H. rewrite Forall_forall in H.
  apply (H _ Hin).
Qed.
Theorem inputs_based : forall c st pc s documents r body r', generate_inputs c st pc s documents r = (Ok body, r') ->
  forall cls bases b decs, In (SClass cls bases b decs) body -> based c pc bases.
Proof.
  intros c st pc s documents r body r' H cls bases b decs Hin. apply inputs_in_ok in H. rewrite Forall_forall in H.
  apply (H _ Hin).
Qed.

Section O.
Variables (c : gconfig) (st : list styler) (s : schema) (pc : obcfg).
Definition ob_ok (stm : stmt) : Prop :=
  match stm with
  | SClass cls _ body _ => exists key t, In (key, t) (s_types s)
      /\ (is_object_def t = true \/ is_interface_def t = true) /\ cls = schema_class_name st key t
      /\ configured c KObject (Some key) body
  | _ => True
  end.
Lemma statements_quiet : forall k fd a r l r', field_statements c st k fd a r = (Ok l, r') -> Forall quiet_stm l.
Proof.
  intros k fd a r l r1 H. unfold field_statements in H. minv. constructor; [exact I|]. destruct (compose_field_documentation _ _ _ _); repeat constructor.
Qed.
Lemma types_ob_ok : forall r body r', generate_types c st s pc r = (Ok body, r') -> Forall ob_ok body.
Proof.
  intros r body r' H. unfold generate_types in H. apply bind_ok in H as (u & r1 & H1 & H).
  apply bind_ok in H as (x & r2 & H2 & H). apply bind_ok in H as (us & r3 & H3 & H). cbn zeta in H.
  apply bind_ok in H as (u2 & r4 & H4 & H). apply ret_ok in H as [-> ->]. rewrite !Forall_app. repeat split.
  - eapply (mfold_ok _ (fun _ a _ => Forall ob_ok (os_tree a))) in H2; [exact H2|constructor|].
    intros pre [key t] post y ra y' rb E HP Hs. unfold object_step in Hs. apply bind_ok in Hs as (add & r5 & H5 & Hs).
    destruct (_ || _); [apply ret_ok in Hs as [-> ->]; exact HP|].
    apply bind_ok in Hs as (cn & r6 & H6 & Hs). apply bind_ok in Hs as (ib & r7 & H7 & Hs). apply bind_ok in Hs as (fs & r8 & H8 & Hs).
    apply bind_ok in Hs as (cfg & r9 & H9 & Hs). cbn zeta in Hs. apply ret_ok in Hs as [-> ->]. cbn [os_tree].
    apply Forall_app. split; [exact HP|]. constructor; [|constructor]. cbn [ob_ok].
    assert (Hin : In (key, t) (sorted_objects s)) by (rewrite E; apply in_elt).
    unfold sorted_objects in Hin. apply in_app_iff in Hin.
    exists key, t. split; [|split; [|split]].
    + destruct Hin as [Hin|Hin]; apply filter_In in Hin; apply Hin.
    + destruct Hin as [Hin|Hin]; apply filter_In in Hin; cbn [snd] in Hin; tauto.
    + destruct t; cbn [is_interface_def] in H6; first [apply generate_interface_name in H6|apply generate_objecttype_name in H6]; exact H6.
    + rewrite app_assoc. eapply config_configured; [|exact H9]. apply quiet_list. apply Forall_app. split; [destruct (truthy _); repeat constructor|].
      apply mconcat_ok in H8 as (yss & H8 & ->). assert (F : Forall2 (fun _ z => Forall quiet_stm z) (Objects.type_fields t) yss).
      { eapply (mmap_inv _ (fun _ => True)); [exact H8|exact I|]. intros kv rc z rd _ _ Hz. split; [exact I|]. cbn beta in Hz.
        unfold object_field in Hz. apply bind_ok in Hz as (a & ? & _ & Hz). eapply statements_quiet; exact Hz. }
      clear - F. induction F; cbn; [constructor|]. apply Forall_app; auto.
  - assert (F : Forall2 (fun _ z => ob_ok z) (os_implementing x) us).
    { eapply (mmap_inv _ (fun _ => True)); [exact H3|exact I|]. intros kv rc z rd _ _ Hz. split; [exact I|]. cbn beta in Hz. minv. exact I. }
    clear - F. induction F; constructor; auto.
  - apply Forall_forall. intros z Hz. apply in_map_iff in Hz as (kv & <- & _). exact I.
Qed.
End O.
Theorem objects_configured : forall c st s pc r body r', generate_types c st s pc r = (Ok body, r') ->
  forall cls bases b decs, In (SClass cls bases b decs) body -> exists key t, In (key, t) (s_types s)
    /\ (is_object_def t = true \/ is_interface_def t = true) /\ cls = schema_class_name st key t
    /\ configured c KObject (Some key) b.
Proof.
  intros c st s pc r body r' H cls bases b decs Hin. apply types_ob_ok in H. rewrite Forall_forall in H. exact (H _ Hin).
Qed.
