(** Fields of object, response and argument classes. *)
From Verif Require Import Base PyAst Gql Config Stylers Registry Utils Documents Inputs Recurse Operations Objects
  Spec_Types Spec_Inputs Spec_Annot Spec_Fields P_Base P_Gql P_Monad P_Types P_Inputs P_Annot P_Recurse.

(** ** The statements of a field *)
Lemma kws_spec : forall name k (b : bool),
  let kws := (if b then [] else [("default", enone)]) in
  let kws' := if String.eqb k name then kws else kws ++ [("alias", estr k)] in
  let v := match kws' with [] => None | _ => Some (field_call kws') end in
  wire_name name v = k /\ may_omit v = negb b.
Proof. intros name k b. cbn zeta. destruct (String.eqb_spec k name) as [->|H]; destruct b; split; reflexivity. Qed.
Lemma inhab_null : forall tup leaf t, inhab tup leaf t JNull <-> is_nonnull t = false.
Proof. intros tup leaf [n|t|t]; cbn; intuition congruence. Qed.
Lemma field_statements_ok : forall c st k fd a r l r' tup leaf,
  field_statements c st k fd a r = (Ok l, r') ->
  (forall v, accepts a v <-> inhab tup leaf (fd_type fd) v) ->
  exists fld, class_fields l = [fld] /\ output_field_ok tup leaf (generate_node_name st k) k (fd_type fd) fld.
Proof.
  intros c st k fd a r l r' tup leaf H A. unfold field_statements in H. cbn zeta in H.
  apply bind_ok in H as (a' & r1 & H1 & H). apply bind_ok in H as (u & r2 & H2 & H). apply ret_ok in H as [-> ->].
  pose proof (kws_spec (generate_node_name st k) k (is_nonnull (fd_type fd))) as K. cbn zeta in K.
  eexists. split.
  - unfold class_fields. cbn [flat_map]. destruct (compose_field_documentation _ _ _ _); reflexivity.
  - destruct K as [K1 K2]. split; cbn [fst snd].
    + reflexivity.
    + exact K1.
    + intros x. rewrite (annotate_accepts _ _ _ _ _ _ _ H1). apply A.
    + rewrite K2, inhab_null. destruct (is_nonnull _); cbn; intuition congruence.
Qed.

Lemma accepts_union' : forall l v, accepts (union_of l) v <-> exists e, In e l /\ accepts e v.
Proof.
  intros [|e l] v; [|now apply accepts_union]. cbn. split; [contradiction|intros (e & [] & _)].
Qed.

(** ** Objects *)
Section ObjectFields.
Variable c : gconfig.
Variable st : list styler.
Variable s : schema.
Variable pc : obcfg.
Definition Kobj := [KImp; KBui; KFwd; KObj; KIfa].
Lemma ev_leaf_reference : forall n p, ev st Ksel (leaf_reference c st s n p).
Proof. intros. unfold leaf_reference, reference_interface. destruct (get_type s n) as [[]|]; ev_tac. Qed.
Hint Resolve ev_leaf_reference : evdb.
Lemma ev_named_object : forall n p o, ev st Ksel (named_object_annotation c st s n p o).
Proof. intros. unfold named_object_annotation. destruct (get_type s n) as [[]|]; ev_tac. Qed.
Lemma ev_object_annot : forall t p o, ev st Ksel (generate_object_field_annotation c st s t p o).
Proof.
  induction t as [n|t IH|t IH]; intros p o; cbn [generate_object_field_annotation]; [apply ev_named_object| |apply IH].
  ev_tac.
Qed.
Hint Resolve ev_object_annot ev_field_statements : evdb.
Lemma ev_object_field : forall n kv, ev st Ksel (object_field c st s n kv).
Proof. intros. unfold object_field. ev_tac. Qed.
Hint Resolve ev_object_field : evdb.
Lemma ev_object_step : forall x kt, ev st [KImp; KBui; KFwd; KObj; KIfa] (object_step c st s pc x kt).
Proof. intros x [key t]. unfold object_step, interface_bases, inherit_interface. ev_tac. Qed.

Lemma reference_generic_ok : forall style get n p f r e r', reference_generic style get n p f r = (Ok e, r') ->
  e = EName (style n) \/ e = estr (style n).
Proof.
  intros style get n p f r e r' H. unfold reference_generic in H. cbn zeta in H. apply bind_ok in H as (m & r1 & _ & H).
  destruct (negb _ || _); [destruct f; [minv; auto|discriminate]|]. minv. auto.
Qed.
Definition obj_leaf_expr (sc : dict string) (n : string) (e : expr) : Prop :=
  no_tuple e /\ forall v, accepts e v <-> exists cls, object_leaf s sc st n cls /\ v = JLeaf cls.
Lemma plain_accepts : forall cls (P : string -> Prop), (forall x, P x <-> x = cls) ->
  forall e, e = EName cls \/ e = estr cls -> no_tuple e /\ forall v, accepts e v <-> exists x, P x /\ v = JLeaf x.
Proof.
  intros cls P HP e He. split; [destruct He as [->| ->]; auto with nt|]. intros v.
  assert (E : accepts e v <-> v = JLeaf cls) by (destruct He as [->| ->]; reflexivity). rewrite E. split.
  - intros ->. exists cls. split; [now apply HP|reflexivity].
  - intros (x & Hx & ->). apply HP in Hx. now subst.
Qed.
Lemma leaf_reference_ok : no_helper_enum s -> forall n p r e r', leaf_reference c st s n p r = (Ok e, r') ->
  no_tuple e /\ forall v, accepts e v <-> exists cls, plain_leaf s (r_scalars r) st n cls /\ v = JLeaf cls.
Proof.
  intros HB n p r e r' H. unfold leaf_reference in H. unfold plain_leaf. destruct (get_type s n) as [[]|] eqn:G; try discriminate.
  - apply reference_scalar_ok in H as (q & Hq & ->). eapply plain_accepts; [|now left].
    intros x. rewrite Hq. split; [intros (y & [= <-] & ->); reflexivity|intros ->; eauto].
  - apply reference_enum_ok in H; [|eapply HB; eassumption]. eapply plain_accepts; [|exact H]. reflexivity.
  - apply reference_generic_ok in H. eapply plain_accepts; [|exact H]. reflexivity.
  - unfold reference_interface in H. minv. eapply plain_accepts; [|right; reflexivity]. reflexivity.
Qed.
Lemma named_object_ok : no_helper_enum s -> forall n p o r e r',
  named_object_annotation c st s n p o r = (Ok e, r') ->
  annot (tuple_for_objects c) (obj_leaf_expr (r_scalars r)) (GNamed n) o e.
Proof.
  intros HB n p o r e r' H. unfold named_object_annotation in H. apply bind_ok in H as (u & r1 & H1 & H).
  apply bind_ok in H as (x & r2 & H2 & H). apply ret_ok in H as [-> ->].
  assert (S1 : r_scalars r1 = r_scalars r).
  { eapply (frame_scalars st [KImp]); [nosca|]. eapply ev_ok; [|exact H1]. destruct o; ev_tac. }
  assert (L : obj_leaf_expr (r_scalars r) n x); [|destruct o; now constructor].
  unfold obj_leaf_expr, object_leaf. destruct (get_type s n) as [[]|] eqn:G;
    try (rewrite <- S1; eapply leaf_reference_ok; eassumption).
  apply bind_ok in H2 as (u2 & r3 & H3 & H2). apply bind_ok in H2 as (es & r4 & H4 & H2). apply ret_ok in H2 as [-> ->].
  assert (S3 : r_scalars r3 = r_scalars r).
  { rewrite <- S1. eapply (frame_scalars st [KImp]); [nosca|]. eapply ev_ok; [|exact H3]. ev_tac. }
  assert (F : Forall2 (fun m e => no_tuple e /\ forall v, accepts e v <-> exists cls, plain_leaf s (r_scalars r) st m cls /\ v = JLeaf cls) members es).
  { eapply (mmap_inv _ (fun r0 => r_scalars r0 = r_scalars r)) in H4; [apply H4|assumption|].
    intros m ra y rb Hm Ea Hr. split.
    - rewrite <- Ea. eapply (frame_scalars st Ksel); [nosca|]. eapply ev_ok; [apply ev_leaf_reference|exact Hr].
    - rewrite <- Ea. eapply leaf_reference_ok; eassumption. }
  split; [apply nt_union|]. intros v. rewrite accepts_union'. split.
  - intros (y & Hy & Ha). clear -F Hy Ha. induction F as [|m z ms es [_ Hz] F IH]; [contradiction|].
      destruct Hy as [->|Hy].
      * apply Hz in Ha as (cls & Hc & ->). exists cls. split; [exists m; split; [now left|assumption]|reflexivity].
      * destruct (IH Hy) as (cls & (m' & Hm' & Hc) & ->). exists cls. split; [exists m'; split; [now right|assumption]|reflexivity].
  - intros (cls & (m & Hm & Hc) & ->). clear -F Hm Hc. induction F as [|m0 z ms es [_ Hz] F IH]; [contradiction|].
      destruct Hm as [->|Hm].
      * exists z. split; [now left|]. apply Hz. eauto.
      * destruct (IH Hm) as (y & Hy & Ha). exists y. split; [now right|assumption].
Qed.
Lemma object_annot_ok : no_helper_enum s -> forall t p o r e r',
  generate_object_field_annotation c st s t p o r = (Ok e, r') ->
  annot (tuple_for_objects c) (obj_leaf_expr (r_scalars r)) t o e.
Proof.
  intros HB. induction t as [n|t IH|t IH]; intros p o r e r' H; cbn [generate_object_field_annotation] in H.
  - eapply named_object_ok; eassumption.
  - apply bind_ok in H as (u & r1 & H1 & H). apply bind_ok in H as (u2 & r2 & H2 & H). apply bind_ok in H as (x & r3 & H3 & H).
    cbn zeta in H. apply ret_ok in H as [-> ->].
    assert (S : r_scalars r2 = r_scalars r).
    { transitivity (r_scalars r1); (eapply (frame_scalars st [KImp]); [nosca|]); eapply ev_ok; try eassumption; ev_tac. }
    apply IH in H3. rewrite S in H3.
    replace (if tuple_for_objects c then tuple_of x else list_of x) with (seq_of (tuple_for_objects c) x) by (now destruct (tuple_for_objects c)).
    destruct o; now constructor.
  - apply an_nonnull. eapply IH; eassumption.
Qed.
Lemma obj_leaf_ok : forall sc, leaf_ok (obj_leaf_expr sc) (object_leaf s sc st).
Proof. intros sc n e H. exact H. Qed.
Lemma object_field_ok : no_helper_enum s -> forall cls kv r l r',
  object_field c st s cls kv r = (Ok l, r') ->
  exists fld, class_fields l = [fld]
    /\ output_field_ok (tuple_for_objects c) (object_leaf s (r_scalars r) st) (style_with sty_node st (fst kv)) (fst kv) (fd_type (snd kv)) fld.
Proof.
  intros HB cls kv r l r' H. unfold object_field in H. apply bind_ok in H as (a & r1 & H1 & H).
  apply object_annot_ok in H1; [|assumption]. apply annot_accepts with (cls := object_leaf s (r_scalars r) st) in H1; [|apply obj_leaf_ok].
  eapply field_statements_ok; [eassumption|]. apply H1.
Qed.
Lemma class_fields_app : forall a b, class_fields (a ++ b) = class_fields a ++ class_fields b.
Proof. intros. apply flat_map_app. Qed.
Lemma object_fields_ok : no_helper_enum s -> forall cls fs r l r',
  mconcat (object_field c st s cls) fs r = (Ok l, r') ->
  Forall2 (fun kv fld => output_field_ok (tuple_for_objects c) (object_leaf s (r_scalars r) st) (style_with sty_node st (fst kv)) (fst kv) (fd_type (snd kv)) fld)
    fs (class_fields l).
Proof.
  intros HB cls fs r l r' H. apply mconcat_ok in H as (ls & H & ->).
  eapply (mmap_inv _ (fun r0 => r_scalars r0 = r_scalars r)) with
    (Q := fun kv l => exists fld, class_fields l = [fld]
    /\ output_field_ok (tuple_for_objects c) (object_leaf s (r_scalars r) st) (style_with sty_node st (fst kv)) (fst kv) (fd_type (snd kv)) fld)
    in H as [_ F]; [|reflexivity|].
  - induction F as [|kv x fs ls (fld & E & Hf) F IH]; [constructor|]. cbn [List.concat]. rewrite class_fields_app, E. constructor; assumption.
  - intros kv ra y rb _ Ea Hr. split.
    + rewrite <- Ea. eapply (frame_scalars st Ksel); [nosca|]. eapply ev_ok; [apply ev_object_field|exact Hr].
    + rewrite <- Ea. eapply object_field_ok; eassumption.
Qed.
Lemma config_fields : forall k tn r l r', generate_pydantic_config k c tn r = (Ok l, r') -> class_fields l = [].
Proof.
  intros k tn r l r' H. unfold generate_pydantic_config in H. destruct (String.eqb _ _).
  - unfold generate_config_dict in H. cbn zeta in H. destruct (_ ++ _ ++ _); minv; reflexivity.
  - minv. unfold generate_config_class_pydantic. destruct (_ ++ _ ++ _); reflexivity.
Qed.
Lemma generate_objecttype_name : forall k r n r', generate_objecttype st k r = (Ok n, r') -> n = style_with sty_object st k.
Proof. intros k r n r' H. unfold generate_objecttype, generate_in in H. minv. reflexivity. Qed.
Lemma generate_interface_name : forall k r n r', generate_interface st k true r = (Ok n, r') -> n = style_with sty_object st k +s+ "Base".
Proof. intros k r n r' H. unfold generate_interface in H. minv. reflexivity. Qed.
(** the class generated for a type, and the run that generated its fields *)
Definition obj_ok (r : reg) (kt : string * typedef) (tree : list stmt) : Prop :=
  ~ object_skipped (ob_skip_underscore pc) (ob_skip_double_underscore pc) (fst kt) ->
  exists cls bases body fs ra rb, In (SClass (schema_class_name st (fst kt) (snd kt)) bases body []) tree
    /\ mconcat (object_field c st s cls) (type_fields (snd kt)) ra = (Ok fs, rb) /\ r_scalars ra = r_scalars r
    /\ class_fields body = class_fields fs.
Lemma object_step_ok : forall x kt r x' r',
  object_step c st s pc x kt r = (Ok x', r') ->
  incl (os_tree x) (os_tree x') /\ obj_ok r kt (os_tree x').
Proof.
  intros x [key t] r x' r' H. unfold object_step in H. apply bind_ok in H as (add & r1 & H1 & H).
  destruct (_ || _) eqn:Sk.
  { apply ret_ok in H as [-> ->]. split; [apply incl_refl|]. intros Hs. exfalso. apply Hs. unfold object_skipped. cbn [fst].
    apply orb_true_iff in Sk as [Sk|Sk]; apply andb_true_iff in Sk; tauto. }
  apply bind_ok in H as (cn & r2 & H2 & H). apply bind_ok in H as (ib & r3 & H3 & H). apply bind_ok in H as (fs & r4 & H4 & H).
  apply bind_ok in H as (cfg & r5 & H5 & H). cbn zeta in H. apply ret_ok in H as [-> ->]. cbn [os_tree].
  assert (S : r_scalars r3 = r_scalars r).
  { transitivity (r_scalars r2); [|transitivity (r_scalars r1)]; (eapply (frame_scalars st Kobj); [nosca|]); eapply ev_ok; try eassumption;
      unfold Kobj; [unfold interface_bases, inherit_interface; ev_tac|destruct (is_interface_def t); ev_tac|ev_tac]. }
  apply config_fields in H5.
  split; [apply incl_appl, incl_refl|]. intros _.
  assert (En : cn = schema_class_name st key t).
  { destruct t; cbn [is_interface_def] in H2; first [apply generate_interface_name in H2|apply generate_objecttype_name in H2]; exact H2. }
  exists cn. do 2 eexists. exists fs, r3, r4. cbn [fst snd]. rewrite <- En. split; [apply in_or_app; right; left; reflexivity|].
  split; [exact H4|]. split; [exact S|]. rewrite !class_fields_app, H5, app_nil_r. destruct (truthy (type_desc t)); reflexivity.
Qed.
Lemma generate_types_ok : forall r body r',
  generate_types c st s pc r = (Ok body, r') ->
  forall kt, In kt (sorted_objects s) -> obj_ok r kt body.
Proof.
  intros r body r' H kt Hin Hs. unfold generate_types in H. apply bind_ok in H as (u & r1 & H1 & H).
  apply bind_ok in H as (x & r2 & H2 & H). apply bind_ok in H as (us & r3 & H3 & H). cbn zeta in H.
  apply bind_ok in H as (u2 & r4 & H4 & H). apply ret_ok in H as [-> ->].
  assert (S : r_scalars r1 = r_scalars r).
  { eapply (frame_scalars st Kobj); [nosca|]. eapply ev_ok; [|eassumption]. unfold Kobj. ev_tac. }
  assert (F : r_scalars r2 = r_scalars r /\ forall kt, In kt (sorted_objects s) -> obj_ok r kt (os_tree x)).
  { eapply (mfold_ok _ (fun pre y rr => r_scalars rr = r_scalars r /\ forall kt, In kt pre -> obj_ok r kt (os_tree y))) in H2; [exact H2| |].
    - split; [assumption|contradiction].
    - intros pre kt' post y ra y' rb _ [Ea HP] Hst. split.
      + rewrite <- Ea. eapply (frame_scalars st Kobj); [nosca|]. eapply ev_ok; [apply ev_object_step|exact Hst].
      + apply object_step_ok in Hst as [Hi Ho].
        intros k0 Hk. apply in_app_iff in Hk as [Hk|[<-|[]]].
        * intros Hsk. destruct (HP k0 Hk Hsk) as (cls & bases & b & fs & r5 & r6 & Hstm & Hr). exists cls, bases, b, fs, r5, r6. split; [now apply Hi|assumption].
        * intros Hsk. destruct (Ho Hsk) as (cls & bases & b & fs & r5 & r6 & Hstm & Hr & Hs5 & Hc). exists cls, bases, b, fs, r5, r6.
          split; [assumption|]. split; [assumption|]. split; [congruence|assumption]. }
  destruct F as [_ F]. destruct (F kt Hin Hs) as (cls & bases & b & fs & r5 & r6 & Hstm & Hr). exists cls, bases, b, fs, r5, r6.
  split; [apply in_or_app; now left|assumption].
Qed.
Lemma generate_types_all : forall r body r' key t fields,
  generate_types c st s pc r = (Ok body, r') -> In (key, t) (s_types s) -> output_fields t = Some fields ->
  ~ object_skipped (ob_skip_underscore pc) (ob_skip_double_underscore pc) key ->
  exists cls bases b fs ra rb, In (SClass (schema_class_name st key t) bases b []) body
    /\ mconcat (object_field c st s cls) fields ra = (Ok fs, rb) /\ r_scalars ra = r_scalars r
    /\ class_fields b = class_fields fs.
Proof.
  intros r body r' key t fields H Hin Ho Hs.
  assert (Hso : In (key, t) (sorted_objects s)).
  { unfold sorted_objects. apply in_app_iff. destruct t; try discriminate; [right|left]; apply filter_In; auto. }
  pose proof (generate_types_ok _ _ _ H _ Hso Hs) as G. cbn [fst snd] in G.
  destruct t; try discriminate; injection Ho as <-; exact G.
Qed.
End ObjectFields.
Lemma tuple_for_objects_spec : forall c, object_tuples c (tuple_for_objects c).
Proof.
  intros c. unfold object_tuples, tuple_for_objects. rewrite !andb_true_iff, existsb_exists.
  assert (E : (exists x, In x (fz_types (c_freeze c)) /\ gqltypes_eqb KObject x = true) <-> In KObject (fz_types (c_freeze c))).
  { split; [|intros H; exists KObject; auto]. intros (x & Hx & E). destruct x; try discriminate. exact Hx. }
  rewrite E. tauto.
Qed.
Lemma objects_C13 : forall c st s pc r body r', no_helper_enum s ->
  generate_types c st s pc r = (Ok body, r') ->
  exists tup, object_tuples c tup /\ forall key t fields, In (key, t) (s_types s) -> output_fields t = Some fields ->
    ~ object_skipped (ob_skip_underscore pc) (ob_skip_double_underscore pc) key ->
    exists stm, In stm body /\ represents_object tup (object_leaf s (r_scalars r) st) st key t fields stm.
Proof.
  intros c st s pc r body r' HB H. exists (tuple_for_objects c). split; [apply tuple_for_objects_spec|].
  intros key t fields Hin Ho Hs.
  destruct (generate_types_all _ _ _ _ _ _ _ _ _ _ H Hin Ho Hs) as (cls & bases & b & fs & ra & rb & Hstm & Hf & S & E).
  eexists. split; [exact Hstm|]. exists bases, b. split; [reflexivity|]. rewrite E.
  apply object_fields_ok in Hf; [|assumption]. now rewrite S in Hf.
Qed.

(** ** Wire names, whatever the annotations *)
Lemma field_statements_wire : forall c st k fd a r l r', field_statements c st k fd a r = (Ok l, r') ->
  exists fld, class_fields l = [fld] /\ wire fld = k.
Proof.
  intros c st k fd a r l r' H. unfold field_statements in H. cbn zeta in H.
  apply bind_ok in H as (a' & r1 & H1 & H). apply bind_ok in H as (u & r2 & H2 & H). apply ret_ok in H as [-> ->].
  pose proof (kws_spec (generate_node_name st k) k (is_nonnull (fd_type fd))) as K. cbn zeta in K.
  eexists. split.
  - unfold class_fields. cbn [flat_map]. destruct (compose_field_documentation _ _ _ _); reflexivity.
  - apply K.
Qed.
Lemma object_fields_wire : forall c st s cls fs r l r',
  mconcat (object_field c st s cls) fs r = (Ok l, r') -> map wire (class_fields l) = map fst fs.
Proof.
  intros c st s cls fs r l r' H. apply mconcat_ok in H as (ls & H & ->).
  eapply (mmap_inv _ (fun _ => True)) with (Q := fun kv l => exists fld, class_fields l = [fld] /\ wire fld = fst kv) in H as [_ F]; [|exact I|].
  - induction F as [|kv x fs ls (fld & E & Hf) F IH]; [reflexivity|]. cbn [List.concat]. rewrite class_fields_app, E. cbn. now rewrite Hf, IH.
  - intros kv ra y rb _ _ Hr. split; [exact I|]. unfold object_field in Hr. apply bind_ok in Hr as (a & r1 & _ & Hr).
    eapply field_statements_wire; exact Hr.
Qed.
Lemma objects_C08 : forall c st s pc r body r' key t fields,
  generate_types c st s pc r = (Ok body, r') -> In (key, t) (s_types s) -> output_fields t = Some fields ->
  ~ object_skipped (ob_skip_underscore pc) (ob_skip_double_underscore pc) key ->
  exists bases b, In (SClass (schema_class_name st key t) bases b []) body /\ map wire (class_fields b) = map fst fields.
Proof.
  intros c st s pc r body r' key t fields H Hin Ho Hs.
  destruct (generate_types_all _ _ _ _ _ _ _ _ _ _ H Hin Ho Hs) as (cls & bases & b & fs & ra & rb & Hstm & Hf & S & E).
  exists bases, b. split; [exact Hstm|]. rewrite E. eapply object_fields_wire; exact Hf.
Qed.
Lemma input_field_C08 : forall c st s name k v r l r',
  generate_input_field c st s name k v r = (Ok l, r') -> exists fld, class_fields l = [fld] /\ wire fld = k.
Proof.
  intros c st s name k v r l r' H. unfold generate_input_field in H. cbn zeta in H.
  apply bind_ok in H. destruct H as (a0 & r1 & H0 & H). apply bind_ok in H. destruct H as (a & r2 & H1 & H).
  apply bind_ok in H. destruct H as (val & r3 & H2 & H). apply ret_ok in H. destruct H as [-> ->].
  exists (generate_node_name st k, a, val). split; [destruct (_ && _); reflexivity|]. eapply field_value_spec; exact H2.
Qed.
Lemma type_field_node_C08 : forall c st s f parent fd r res r',
  type_field_node c st s f parent fd r = (Ok res, r') -> exists fld, class_fields (snd res) = [fld] /\ wire fld = response_key f.
Proof.
  intros c st s [alias name args ds sels] parent fd r res r' H. rewrite tfn_eq in H. cbn zeta in H.
  apply bind_ok in H as (x & r1 & H1 & H). apply bind_ok in H as (body & r2 & H2 & H). apply ret_ok in H as [-> ->]. cbn [snd].
  eapply field_statements_wire; exact H2.
Qed.
