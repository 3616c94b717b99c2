(** Proofs for C84 *)
From Verif Require Import Base PyAst Gql Config Stylers Registry Utils Documents Referencer Enums Inputs Recurse Objects
  Spec_Inputs Spec_Fields Spec_Kept P_Base P_Monad P_Inputs P_Fields.

Section K.
Variable c : gconfig.
Variable st : list styler.
Variable s : schema.

Ltac br := repeat (minv1 || match goal with H : (match ?x with _ => _ end) _ = (Ok _, _) |- _ => destruct x eqn:? end).

Lemma override_name : forall o b n r e r', reference_override o b n r = (Ok e, r') -> e = EName (marker_class o n).
Proof. intros o b n r e r' H. unfold reference_override in H. destruct o as [[|x o]|]; cbn in H; minv; reflexivity. Qed.
Lemma annotate_marks : forall a d dep r e r', marks a = [] -> annotate_field_metadata c a (option_map estr d) dep r = (Ok e, r') ->
  marks e = marked c d dep.
Proof.
  intros a d dep r e r' A H. unfold annotate_field_metadata in H.
  apply bind_ok in H as (m1 & r1 & H1 & H). apply bind_ok in H as (m2 & r2 & H2 & H). unfold marked.
  destruct d as [d|]; cbn [option_map] in H1; minv; destruct dep as [t|]; minv;
  repeat match goal with X : reference_graphql_default _ _ = _ |- _ => apply override_name in X; subst
                    | X : reference_deprecated _ _ = _ |- _ => apply override_name in X; subst end;
  cbn [app] in H; minv; reflexivity || exact A.
Qed.
Lemma scalar_plain : forall n r e r', reference_scalar n r = (Ok e, r') -> marks e = [].
Proof. intros n r e r' H. unfold reference_scalar in H. br; reflexivity. Qed.
Lemma enum_plain : forall n p f r e r', reference_enum st n p f r = (Ok e, r') -> marks e = [].
Proof. intros n p f r e r' H. unfold reference_enum in H. br; reflexivity. Qed.
Lemma inputtype_plain : forall n p f r e r', reference_inputtype st n p f r = (Ok e, r') -> marks e = [].
Proof. intros n p f r e r' H. unfold reference_inputtype in H. br; reflexivity. Qed.
Lemma generic_plain : forall y g n p f r e r', reference_generic y g n p f r = (Ok e, r') -> marks e = [].
Proof. intros y g n p f r e r' H. unfold reference_generic in H. br; reflexivity. Qed.
Lemma input_plain : forall t p b r e r', generate_input_annotation c st s t p b r = (Ok e, r') -> marks e = [].
Proof.
  induction t as [n|t IH|t IH]; intros p b r e r' H; cbn [generate_input_annotation] in H.
  - br; try reflexivity; solve [eapply scalar_plain; eassumption|eapply enum_plain; eassumption|eapply inputtype_plain; eassumption].
  - br; try reflexivity; try (eapply IH; eassumption); destruct (tuple_for_inputs c); reflexivity.
  - br; try reflexivity; try (eapply IH; eassumption); destruct (tuple_for_inputs c); reflexivity.
Qed.
Lemma leaf_plain : forall n p r e r', leaf_reference c st s n p r = (Ok e, r') -> marks e = [].
Proof.
  intros n p r e r' H. unfold leaf_reference in H.
  br; try reflexivity; try (eapply scalar_plain; eassumption); try (eapply enum_plain; eassumption); try (eapply generic_plain; eassumption).
  all: unfold reference_interface in *; br; reflexivity.
Qed.
Lemma object_plain : forall t p b r e r', generate_object_field_annotation c st s t p b r = (Ok e, r') -> marks e = [].
Proof.
  induction t as [n|t IH|t IH]; intros p b r e r' H; cbn [generate_object_field_annotation] in H.
  - unfold named_object_annotation in H. apply bind_ok in H as (u & r1 & _ & H). apply bind_ok in H as (a & r2 & H1 & H). minv.
    destruct b; [reflexivity|]. destruct (get_type s n) as [[]|]; minv; try reflexivity; eapply leaf_plain; eassumption.
  - br; try reflexivity; try (eapply IH; eassumption); destruct b, (tuple_for_objects c); reflexivity.
  - br; try reflexivity; try (eapply IH; eassumption); destruct b, (tuple_for_objects c); reflexivity.
Qed.

Lemma filled_truthy : forall d, filled d = if truthy d then d else None.
Proof. intros [[|x d]|]; reflexivity. Qed.
Lemma documentation_lines : forall d dep def, compose_field_documentation d dep def true = lines d dep def.
Proof.
  intros d dep def. unfold compose_field_documentation, lines. cbn [negb]. destruct d as [[|x d]|], dep as [[|y p]|], def; reflexivity.
Qed.
Lemma documentation_output : forall d dep, compose_field_documentation d dep None (c_document_field_metadata c) = output_note c d dep.
Proof.
  intros d dep. unfold output_note. destruct (c_document_field_metadata c); [apply documentation_lines|].
  unfold compose_field_documentation. cbn [negb]. destruct d as [[|x d]|]; reflexivity.
Qed.

(** ** Fields of objects and responses *)
Definition said (n : option string) : list stmt := match n with Some t => [docstring t] | None => [] end.
Definition output_part (k : string) (fd : fielddef) (l : list stmt) : Prop :=
  exists a x, l = SAnn (style_with sty_node st k) a x :: said (output_note c (fd_desc fd) (fd_depr fd)) /\ marks a = marked c None (fd_depr fd).
Lemma field_statements_kept : forall k fd a r l r', marks a = [] -> field_statements c st k fd a r = (Ok l, r') -> output_part k fd l.
Proof.
  intros k fd a r l r' A H. unfold field_statements in H. cbn zeta in H. apply bind_ok in H as (a' & r1 & H1 & H).
  apply bind_ok in H as (u & r2 & _ & H). apply ret_ok in H as [-> ->].
  rewrite documentation_output. eexists a', _. split; [reflexivity|]. exact (annotate_marks a None _ _ _ _ A H1).
Qed.

(** ** Bodies made of parts *)
Definition part_of (name : string) (ms : list (string * string)) (n : option string) (text : option expr -> Prop) (l : list stmt) : Prop :=
  exists a x, l = SAnn name a x :: said n /\ marks a = ms /\ text x.
Definition quiet (l : list stmt) : Prop := note l = None.
Definition opened (l : list stmt) : Prop := l = [] \/ exists n a x t, l = SAnn n a x :: t.
Lemma quiet_concat : forall ls tail, Forall opened ls -> quiet tail -> quiet (List.concat ls ++ tail).
Proof. intros ls tail F Q. induction F as [|l ls [->|(n & a & x & t & ->)] F IH]; [exact Q|exact IH|reflexivity]. Qed.
Lemma note_said : forall n after, quiet after -> note (said n ++ after) = n.
Proof. intros [t|] after Q; [reflexivity|exact Q]. Qed.
Lemma parts_field : forall ls l pre tail name ms n text, Forall opened ls -> quiet tail -> In l ls -> part_of name ms n text l ->
  has_field (pre ++ List.concat ls ++ tail) name ms n text.
Proof.
  intros ls l pre tail name ms n text F Q Hl (a & x & -> & M & T). apply in_split in Hl as (l1 & l2 & ->).
  apply Forall_app in F as [_ F]. apply Forall_inv_tail in F. rewrite concat_app. cbn [List.concat].
  exists (pre ++ List.concat l1), a, x, (said n ++ List.concat l2 ++ tail).
  split; [|split; [exact M|split; [apply note_said, quiet_concat; assumption|exact T]]].
  repeat (rewrite <- ?app_assoc; cbn [app]). reflexivity.
Qed.
Lemma config_quiet : forall k tn r l r', generate_pydantic_config k c tn r = (Ok l, r') -> quiet l.
Proof.
  intros k tn r l r' H. unfold generate_pydantic_config in H. destruct (String.eqb _ _).
  - unfold generate_config_dict in H. cbn zeta in H. destruct (_ ++ _ ++ _); minv; reflexivity.
  - minv. unfold generate_config_class_pydantic. destruct (_ ++ _ ++ _); reflexivity.
Qed.

(** ** Inputs *)
Definition is_text (d : option string) (x : option expr) : Prop := field_text x = filled d.
Lemma input_value_text : forall n k o d r x r', generate_input_field_value n k o d r = (Ok x, r') -> is_text d x.
Proof.
  intros n k o d r x r' H. unfold generate_input_field_value in H. cbn zeta in H. unfold is_text. rewrite filled_truthy.
  destruct d as [[|y d]|]; cbn [truthy] in *; destruct (negb (String.eqb n k)), o; cbn in H; minv; reflexivity.
Qed.
Lemma input_field_kept : forall name k v r l r', generate_input_field c st s name k v r = (Ok l, r') ->
  part_of (style_with sty_node st k) (marked c (default_text (if_default v)) (if_depr v))
    (input_note c (if_desc v) (if_depr v) (default_text (if_default v))) (is_text (if_desc v)) l.
Proof.
  intros name k v r l r' H. unfold generate_input_field in H. cbn zeta in H.
  apply bind_ok in H as (a0 & r1 & H1 & H). apply bind_ok in H as (a & r2 & H2 & H). apply bind_ok in H as (x & r3 & H3 & H). apply ret_ok in H as [-> ->].
  change (default_string (if_default v)) with (default_text (if_default v)) in *.
  assert (A : marks a0 = []).
  { unfold generate_input_field_annotation in H1. apply bind_ok in H1 as (e & r4 & H1 & H4). apply input_plain in H1.
    destruct (_ && _); minv; [reflexivity|exact H1]. }
  exists a, x. split; [|split; [exact (annotate_marks _ _ _ _ _ _ A H2)|eapply input_value_text; exact H3]].
  unfold input_note. destruct (c_document_field_metadata c); cbn [andb].
  - rewrite documentation_lines, filled_truthy. generalize (default_text (if_default v)). intros ds. unfold lines.
    destruct (if_depr v) as [[|y p]|], ds; cbn [truthy orb filled]; try reflexivity;
    destruct (if_desc v) as [[|z e]|]; reflexivity.
  - reflexivity.
Qed.
Lemma input_class_kept : forall pc name key desc fields add ds r n bases body ks r',
  input_class c st pc s name key desc fields add ds r = (Ok (SClass n bases body ks), r') ->
  note body = Some (title_text desc)
  /\ forall k v, In (k, v) fields -> ~ In (style_with sty_node st k) (map di_name ds) ->
       has_field body (style_with sty_node st k) (marked c (default_text (if_default v)) (if_depr v))
         (input_note c (if_desc v) (if_depr v) (default_text (if_default v))) (fun x => field_text x = filled (if_desc v)).
Proof.
  intros pc name key desc fields add ds r n bases body ks r' H. unfold input_class in H.
  apply bind_ok in H as (dfs & r1 & H1 & H). apply bind_ok in H as (fs & r2 & H2 & H). cbn zeta in H.
  apply bind_ok in H as (cfg & r3 & H3 & H). apply ret_ok in H as [H ->]. injection H as -> -> -> ->.
  split. { unfold title_text. rewrite filled_truthy. destruct desc as [[|y d]|]; reflexivity. }
  intros k v Hin Hn. apply mconcat_ok in H2 as (ls & H2 & ->).
  eapply (mmap_inv _ (fun _ => True)) with (Q := fun kv l => opened l /\ (~ In (style_with sty_node st (fst kv)) (map di_name ds) ->
     part_of (style_with sty_node st (fst kv)) (marked c (default_text (if_default (snd kv))) (if_depr (snd kv)))
    (input_note c (if_desc (snd kv)) (if_depr (snd kv)) (default_text (if_default (snd kv)))) (is_text (if_desc (snd kv))) l)) in H2 as [_ F]; [|exact I|].
  - assert (O : Forall opened ls) by (clear -F; induction F as [|? ? ? ? [? _]]; constructor; assumption).
    assert (Z : exists l, In l ls /\ part_of (style_with sty_node st k) (marked c (default_text (if_default v)) (if_depr v))
      (input_note c (if_desc v) (if_depr v) (default_text (if_default v))) (is_text (if_desc v)) l).
    { clear -F Hin Hn. induction F as [|kv l fs ls [_ P] F IH]; [contradiction|]. destruct Hin as [->|Hin].
      - exists l. split; [now left|]. exact (P Hn).
      - destruct (IH Hin) as (l' & Hl & P'). exists l'. split; [now right|exact P']. }
    destruct Z as (l & Hl & P). rewrite app_comm_cons. eapply parts_field; try eassumption.
    apply config_quiet in H3. destruct ds; [exact H3|]. destruct (String.eqb _ _); [reflexivity|exact H3].
  - intros kv ra y rb _ _ Hr. split; [exact I|]. destruct (mem _ _) eqn:E.
    + apply ret_ok in Hr as [-> ->]. split; [now left|]. intros N. exfalso. apply N. now apply mem_In.
    + apply input_field_kept in Hr. split; [|intros _; exact Hr]. destruct Hr as (a & x & -> & _). right. eauto.
Qed.

(** ** Objects *)
Definition anything (x : option expr) : Prop := True.
Lemma object_fields_kept : forall cls fs r l r' pre tail, mconcat (object_field c st s cls) fs r = (Ok l, r') -> quiet tail ->
  quiet (l ++ tail) /\ forall k fd, In (k, fd) fs ->
    has_field (pre ++ l ++ tail) (style_with sty_node st k) (marked c None (fd_depr fd)) (output_note c (fd_desc fd) (fd_depr fd)) anything.
Proof.
  intros cls fs r l r' pre tail H Q. apply mconcat_ok in H as (ls & H & ->).
  eapply (mmap_inv _ (fun _ => True)) with (Q := fun kv l => output_part (fst kv) (snd kv) l) in H as [_ F]; [|exact I|].
  - assert (O : Forall opened ls) by (clear -F; induction F as [|? ? ? ? (a & x & -> & _)]; constructor; [right; eauto|assumption]).
    split; [apply quiet_concat; assumption|]. intros k fd Hin.
    assert (Z : exists l, In l ls /\ output_part k fd l).
    { clear -F Hin. induction F as [|kv l fs ls P F IH]; [contradiction|]. destruct Hin as [->|Hin].
      - exists l. split; [now left|exact P].
      - destruct (IH Hin) as (l' & Hl & P'). exists l'. split; [now right|exact P']. }
    destruct Z as (l & Hl & a & x & -> & M). eapply parts_field; try eassumption. exists a, x. repeat split. exact M.
  - intros kv ra y rb _ _ Hr. split; [exact I|]. unfold object_field in Hr. apply bind_ok in Hr as (a & r1 & Ha & Hr).
    eapply field_statements_kept; [|exact Hr]. eapply object_plain; exact Ha.
Qed.
Definition object_kept (kt : string * typedef) (tree : list stmt) : Prop :=
  exists bases body, In (SClass (schema_class_name st (fst kt) (snd kt)) bases body []) tree /\ note body = filled (type_desc (snd kt))
  /\ forall k fd, In (k, fd) (type_fields (snd kt)) ->
       has_field body (style_with sty_node st k) (marked c None (fd_depr fd)) (output_note c (fd_desc fd) (fd_depr fd)) anything.
Lemma object_step_kept : forall pc x kt r x' r', object_step c st s pc x kt r = (Ok x', r') ->
  incl (os_tree x) (os_tree x')
  /\ (~ object_skipped (ob_skip_underscore pc) (ob_skip_double_underscore pc) (fst kt) -> object_kept kt (os_tree x')).
Proof.
  intros pc x [key t] r x' r' H. unfold object_step in H. apply bind_ok in H as (add & r1 & H1 & H). cbn [fst].
  destruct (_ || _) eqn:Sk.
  { apply ret_ok in H as [-> ->]. split; [apply incl_refl|]. intros Hs. exfalso. apply Hs. unfold object_skipped.
    apply orb_true_iff in Sk as [Sk|Sk]; apply andb_true_iff in Sk; tauto. }
  apply bind_ok in H as (cn & r2 & H2 & H). apply bind_ok in H as (ib & r3 & H3 & H). apply bind_ok in H as (fs & r4 & H4 & H).
  apply bind_ok in H as (cfg & r5 & H5 & H). cbn zeta in H. apply ret_ok in H as [-> ->]. cbn [os_tree].
  split; [apply incl_appl, incl_refl|]. intros _.
  assert (En : cn = schema_class_name st key t).
  { destruct t; cbn [is_interface_def] in H2; first [apply generate_interface_name in H2|apply generate_objecttype_name in H2]; exact H2. }
  unfold object_kept. do 2 eexists. cbn [fst snd]. rewrite <- En. split; [apply in_or_app; right; left; reflexivity|].
  apply config_quiet in H5. edestruct object_fields_kept as [Q K]; [exact H4|exact H5|]. split; [|exact K].
  rewrite filled_truthy. destruct (truthy (type_desc t)) eqn:E; [|exact Q]. destruct (type_desc t); [reflexivity|discriminate].
Qed.
Lemma objects_kept : forall pc r body r' key t fields,
  generate_types c st s pc r = (Ok body, r') -> In (key, t) (s_types s) -> output_fields t = Some fields ->
  ~ object_skipped (ob_skip_underscore pc) (ob_skip_double_underscore pc) key ->
  exists bases b, In (SClass (schema_class_name st key t) bases b []) body /\ note b = filled (type_desc t)
  /\ forall k fd, In (k, fd) fields ->
       has_field b (style_with sty_node st k) (marked c None (fd_depr fd)) (output_note c (fd_desc fd) (fd_depr fd)) (fun _ => True).
Proof.
  intros pc r body r' key t fields H Hin Ho Hs. unfold generate_types in H. apply bind_ok in H as (u & r1 & H1 & H).
  apply bind_ok in H as (x & r2 & H2 & H). apply bind_ok in H as (us & r3 & H3 & H). cbn zeta in H.
  apply bind_ok in H as (u2 & r4 & H4 & H). apply ret_ok in H as [-> ->].
  assert (Hso : In (key, t) (sorted_objects s)).
  { unfold sorted_objects. apply in_app_iff. destruct t; try discriminate; [right|left]; apply filter_In; auto. }
  assert (F : forall kt, In kt (sorted_objects s) -> ~ object_skipped (ob_skip_underscore pc) (ob_skip_double_underscore pc) (fst kt) -> object_kept kt (os_tree x)).
  { apply (mfold_ok _ (fun pre y _ => forall kt, In kt pre -> ~ object_skipped (ob_skip_underscore pc) (ob_skip_double_underscore pc) (fst kt) -> object_kept kt (os_tree y))) with (1 := H2); [contradiction|].
    intros pre kt post y ra y' rb _ IH Hst kt' Hk Hsk. apply object_step_kept in Hst as [Hi Hk'].
    apply in_app_iff in Hk as [Hk|[<-|[]]]; [|now apply Hk'].
    destruct (IH _ Hk Hsk) as (bases & b & Hb & R). exists bases, b. split; [now apply Hi|exact R]. }
  destruct (F _ Hso Hs) as (bases & b & Hb & N & K). cbn [fst snd] in *. exists bases, b. split; [apply in_or_app; now left|]. split; [exact N|].
  intros k fd Hk. apply K. destruct t; try discriminate; injection Ho as ->; exact Hk.
Qed.

(** ** Responses *)
Lemma optional_if_plain : forall b (m : M expr) r e r', (forall r e r', m r = (Ok e, r') -> marks e = []) -> optional_if b m r = (Ok e, r') -> marks e = [].
Proof. intros b m r e r' Hm H. unfold optional_if in H. apply bind_ok in H as (u & r1 & _ & H). minv. destruct b; [reflexivity|]. eapply Hm; eassumption. Qed.
Lemma ret_plain : forall e0, marks e0 = [] -> forall r e r', @ret expr e0 r = (Ok e, r') -> marks e = [].
Proof. intros e0 E r e r' H. now apply ret_ok in H as [-> _]. Qed.
Lemma named_plain : forall tfn parent target sels n b r x r', named_annotation c st s tfn parent target sels n b r = (Ok x, r') -> marks (snd x) = [].
Proof.
  intros tfn parent target sels n b r x r' H. unfold named_annotation in H. destruct (get_type s n) as [[d0|d0 l0|d0 l0 fs0 l1|d0 l0 fs0|d0 l0|d0 l0 l1]|]; try discriminate.
  - minv. eapply optional_if_plain; [|eassumption]. intros; eapply scalar_plain; eassumption.
  - minv. eapply optional_if_plain; [|eassumption]. intros; eapply enum_plain; eassumption.
  - unfold object_annotation in H. cbn zeta in H. apply bind_ok in H as (t & r1 & _ & H).
    assert (G : forall cls r x r', (let* r := walk (object_item tfn n cls fs0) sels ([], [], [doc_stmt d0; t]) in
      let '(classes, bases, body) := r in
      let* add := match bases with [] => get_additional_bases_for_type c n | _ => ret (map EName bases) end in
      let* cfg := generate_pydantic_config (KT KObject) c None in
      let* e := optional_if b (ret (EName cls)) in
      ret (classes ++ [SClass cls (add ++ names_of (c_object_bases c)) (body ++ cfg) []], e)) r = (Ok x, r') -> marks (snd x) = []).
    { intros cls r0 x0 r0' G. apply bind_ok in G as ([[cs bs] body] & r2 & _ & G). minv. cbn [snd]. eapply optional_if_plain; [|eassumption]. apply ret_plain. reflexivity. }
    destruct (option_map non_typename sels) as [[|[| |] [|]]|]; try (eapply G; exact H). clear G.
    minv. cbn [snd]. eapply optional_if_plain; [|eassumption]. apply ret_plain.
    destruct a; [minv; reflexivity|unfold reference_fragment in H1; eapply generic_plain; exact H1].
  - unfold interface_annotation in H. cbn zeta in H. minv. cbn [snd]. eapply optional_if_plain; [|eassumption]. apply ret_plain.
    destruct (c_create_catchall c); minv; reflexivity.
  - unfold union_annotation in H. apply bind_ok in H as ([cs ns] & r1 & _ & H). destruct ns as [|n1 [|n2 ns]]; minv; [reflexivity|].
    cbn [snd]. eapply optional_if_plain; [|eassumption]. apply ret_plain. reflexivity.
Qed.
Lemma wrap_plain : forall named, (forall n b r x r', named n b r = (Ok x, r') -> marks (snd x) = []) ->
  forall t b r x r', wrap_annotation c named t b r = (Ok x, r') -> marks (snd x) = [].
Proof.
  intros named N. induction t as [n|t IH|t IH]; intros b r x r' H; cbn [wrap_annotation] in H; try (now eapply N; exact H); try (now eapply IH; exact H).
  cbn zeta in H. minv. cbn [snd]. destruct b, (fz_enabled (c_freeze c)); reflexivity.
Qed.
Lemma response_kept : forall f parent fd r x r', type_field_node c st s f parent fd r = (Ok x, r') ->
  has_field (snd x) (style_with sty_node st (response_key f)) (marked c None (fd_depr fd)) (output_note c (fd_desc fd) (fd_depr fd)) (fun _ => True).
Proof.
  intros [alias name args dirs sels] parent fd r x r' H. cbn [type_field_node] in H. cbn zeta in H.
  apply bind_ok in H as (a & r1 & Ha & H). apply bind_ok in H as (body & r2 & Hb & H). apply ret_ok in H as [-> ->]. cbn [snd].
  apply field_statements_kept in Hb as (e & v & -> & M).
  - exists [], e, v, (said (output_note c (fd_desc fd) (fd_depr fd))). split; [reflexivity|]. split; [exact M|]. split; [|exact I].
    rewrite <- (app_nil_r (said _)). now apply note_said.
  - eapply wrap_plain; [|exact Ha]. intros. eapply named_plain; eassumption.
Qed.

(** ** Enums *)
Lemma members_quiet : forall vs, note (flat_map enum_member vs) = None.
Proof. intros [|[k v] vs]; reflexivity. Qed.
Lemma enums_kept : forall pc documents r l r' stm, generate_enums c st pc s documents r = (Ok l, r') -> In stm l ->
  exists key d vs bases body, In (key, TEnum d vs) (s_types s) /\ stm = SClass (style_with sty_enum st key) bases body [] /\ note body = Some (title_text d)
  /\ forall k v, In (k, v) vs -> filled (ev_depr v) = None -> has_value body k (ev_value v) (filled (ev_desc v)).
Proof.
  intros pc documents r l r' stm H Hin. unfold generate_enums in H. apply bind_ok in H as (rf & r1 & H1 & H).
  apply mconcat_ok in H as (ls & H & ->).
  eapply (mmap_inv _ (fun _ => True)) with (Q := fun kv l => l = [] \/ l = [SClass (style_with sty_enum st (fst kv)) [EName "str"; EName "Enum"]
     (class_doc (fst (snd kv)) :: flat_map enum_member (snd (snd kv))) []]) in H as [_ F]; [|exact I|].
  - assert (Z : exists kv, In kv (enum_types s) /\ stm = SClass (style_with sty_enum st (fst kv)) [EName "str"; EName "Enum"]
     (class_doc (fst (snd kv)) :: flat_map enum_member (snd (snd kv))) []).
    { clear -F Hin. induction F as [|kv l es ls [->| ->] F IH]; [contradiction| |]; cbn [List.concat app] in Hin.
      - destruct (IH Hin) as (x & Hx & E). exists x. split; [now right|exact E].
      - destruct Hin as [<-|Hin]; [exists kv; split; [now left|reflexivity]|]. destruct (IH Hin) as (x & Hx & E). exists x. split; [now right|exact E]. }
    destruct Z as ([key [d vs]] & Hk & ->). cbn [fst snd]. exists key, d, vs. do 2 eexists. split; [|split; [reflexivity|split]].
    + unfold enum_types in Hk. apply in_flat_map in Hk as ([k t] & Ht & Hk). cbn [fst snd] in Hk. destruct t; try contradiction.
      destruct Hk as [Hk|[]]. injection Hk as -> -> ->. exact Ht.
    + unfold title_text. rewrite filled_truthy. destruct d as [[|y d]|]; reflexivity.
    + intros k v Hv Hd. apply in_split in Hv as (v1 & v2 & ->). rewrite flat_map_app. cbn [flat_map]. unfold has_value.
      exists (class_doc d :: flat_map enum_member v1). unfold enum_member at 2.
      assert (T : truthy (ev_depr v) = false) by (destruct (ev_depr v) as [[|]|]; [reflexivity|discriminate|reflexivity]). rewrite T.
      eexists. split; [reflexivity|]. rewrite filled_truthy. destruct (truthy (ev_desc v)) eqn:E.
      * destruct (ev_desc v); [reflexivity|discriminate].
      * cbn [app]. apply members_quiet.
  - intros [key [d vs]] ra y rb _ _ Hr. split; [exact I|]. cbn [fst snd] in *. destruct (enum_skipped _ _ _); [apply ret_ok in Hr as [-> _]; now left|].
    right. apply bind_ok in Hr as (n & r2 & Hn & Hr). apply ret_ok in Hr as [-> _]. unfold generate_enum, generate_in in Hn. minv. reflexivity.
Qed.

(** ** Wrappers of @oneOf inputs *)
Lemma wrapper_kept : forall pc key add k v r n cls bases body ks r',
  oneof_wrapper_class c st pc s key add (k, v) r = (Ok (n, SClass cls bases body ks), r') ->
  (forall t, filled (if_desc v) = Some t -> note body = Some t)
  /\ has_field body (style_with sty_node st k) (marked c None (if_depr v)) None (fun x => field_text x = filled (if_desc v)).
Proof.
  intros pc key add k v r n cls bases body ks r' H. unfold oneof_wrapper_class in H. apply bind_ok in H as (cn & r1 & H1 & H). cbn zeta in H.
  apply bind_ok in H as (a0 & r2 & H2 & H). apply bind_ok in H as (a & r3 & H3 & H). apply bind_ok in H as (x & r4 & H4 & H).
  apply bind_ok in H as (cfg & r5 & H5 & H). apply ret_ok in H as [H ->]. injection H as -> -> -> -> ->.
  split.
  - intros t T. destruct (if_desc v) as [[|y d]|]; try discriminate. now injection T as <-.
  - eexists [_], a, x, cfg. split; [reflexivity|]. split; [|split; [exact (config_quiet _ _ _ _ _ H5)|eapply input_value_text; exact H4]].
    exact (annotate_marks a0 None _ _ _ _ (input_plain _ _ _ _ _ _ H2) H3).
Qed.
End K.
