(** The operations plugin and a run with documents do not fail. *)
From Verif Require Import Base PyAst Gql Config Stylers Registry Utils Documents Recurse Referencer Enums Inputs Inline Print Fragments Operations Run Spec_Mro Spec_Mro2 Spec_Docs Spec_Refs Spec_Inline Spec_Valid Spec_ValidDoc
  P_Base P_Gql P_Monad P_Config P_Mro P_Documents P_Topo P_Inline P_Print P_InlineProps P_Refs P_Total P_Total2 P_Total3 P_Total4 P_Total5 P_Total6 P_Total7.
From Coq Require Import Permutation Lia.
Arguments register_import : simpl never.
Arguments add_forward : simpl never.
Arguments register_builtin : simpl never.
Arguments dkeys : simpl never.
Arguments fold_left : simpl never.
Notation is_scalar := Spec_Valid.is_scalar.
Notation is_input := Spec_Valid.is_input.
Notation is_enum := Spec_Valid.is_enum.

Section Operations.
Variable c : gconfig. Variable st : list styler. Variable s : schema. Variable d : document. Variable pc : ocfg. Variable doc_of : operation -> option string.
Variable ps : string -> bool -> string. Variable add : string -> res string.
Hypothesis V : valid_schema s.
Hypothesis VD : valid_document s d.
Hypothesis SD : supported_document s d ps add.
Hypothesis Str : is_scalar s "String" = true.
Variable ks ke ki : list string.
Hypothesis Kstr : In "String" ks.
Hypothesis Scal : forall k t f fd, In (k, t) (s_types s) -> In (f, fd) (fields_of t) -> is_scalar s (gty_name (fd_type fd)) = true -> In (gty_name (fd_type fd)) ks.
(** a variable type that can be referenced *)
Definition var_ok (n : string) : Prop := In n ks \/ (In n ki /\ style_inputtype_class st n <> "") \/ (In n ke /\ style_enum_class st n <> "").
Hypothesis Vars : o_create_arguments pc = true -> forall o v, In o (operations_of d) -> In v (op_vars o) -> var_ok (gty_name (v_type v)).

Lemma tot_any_input : forall r0 n, base ks ke ki r0 -> var_ok n -> tot r0 (reference_any_input st n "").
Proof.
  intros r0 n (B1 & B2 & B3 & _) H r S. pose proof S as (S1 & S2 & S3 & _). unfold reference_any_input, try_except.
  destruct (dget n (r_scalars r)) as [t|] eqn:Es.
  { destruct (tot_scalar r n) with (r := r) as (e & r1 & E & T); [unfold dmem; now rewrite Es|apply tsame_refl|]. rewrite E. exists e, r1. split; [reflexivity|]. eapply tsame_trans; eassumption. }
  assert (reference_scalar n r = (Err (Exn NoScalarFoundC n), r)) as -> by (unfold reference_scalar, bind, gets; rewrite Es; reflexivity). cbn [is_cls ecls]. change (is_cls NoScalarFoundC (Exn NoScalarFoundC n)) with true. cbn iota.
  assert (~ In n ks) as Nk. { intros X. apply B1 in X. unfold dmem in X. rewrite S1 in Es. now rewrite Es in X. }
  unfold reference_inputtype at 1. unfold bind at 1, gets at 1. destruct (dget n (r_inputs r)) as [cls|] eqn:Ei.
  - destruct (String.eqb_spec "" (style_inputtype_class st n)) as [X|X].
    + cbn [raise]. change (is_cls NoInputTypeFoundC (Exn NoInputTypeFoundC n)) with true. cbn iota. destruct H as [H|[(_ & H)|(H & H')]]; [contradiction|congruence|].
      unfold reference_enum. destruct (mem n built_in_keys) eqn:M.
      { destruct (tot_bind r0 (register_builtin n) (fun _ => add_forward "" ;; ret (estr n))) with (r := r) as (e & r1 & E & T); [apply tot_builtin; now apply mem_In|intros; apply tot_bind; [apply tot_forward|intros; apply tot_ret]|exact S|]. rewrite E. eauto. }
      unfold bind, gets. assert (dmem n (r_enums r) = true) as -> by (apply dmem_In; rewrite S2, B2; exact H). destruct (String.eqb_spec "" (style_enum_class st n)); [congruence|]. cbn. eauto.
    + cbn. eauto.
  - cbn [raise]. change (is_cls NoInputTypeFoundC (Exn NoInputTypeFoundC n)) with true. cbn iota. destruct H as [H|[(H & _)|(H & H')]]; [contradiction| |].
    { rewrite <- B3, <- S3 in H. apply dmem_In in H. unfold dmem in H. now rewrite Ei in H. }
    unfold reference_enum. destruct (mem n built_in_keys) eqn:M.
    { destruct (tot_bind r0 (register_builtin n) (fun _ => add_forward "" ;; ret (estr n))) with (r := r) as (e & r1 & E & T); [apply tot_builtin; now apply mem_In|intros; apply tot_bind; [apply tot_forward|intros; apply tot_ret]|exact S|]. rewrite E. eauto. }
    unfold bind, gets. assert (dmem n (r_enums r) = true) as -> by (apply dmem_In; rewrite S2, B2; exact H). destruct (String.eqb_spec "" (style_enum_class st n)); [congruence|]. cbn. eauto.
Qed.
Lemma tot_variable_type : forall r0 t o, base ks ke ki r0 -> var_ok (gty_name t) -> tot r0 (recurse_type_annotation st None t o).
Proof.
  intros r0. induction t as [n|t IH|t IH]; intros o B H; cbn [recurse_type_annotation].
  - apply tot_bind; [now apply tot_any_input|]. intros x. unfold opt_wrap. apply tot_if; [|apply tot_ret]. apply tot_bind; [apply tot_import|]. intros; apply tot_ret.
  - destruct o; repeat (apply tot_bind; [first [apply tot_import|now apply IH]|intros]); apply tot_ret.
  - now apply IH.
Qed.
Lemma tot_argument_field : forall r0 v, base ks ke ki r0 -> var_ok (gty_name (v_type v)) -> (forall x, v_default v = Some x -> plain_literal x = true) -> tot r0 (argument_field c st v).
Proof.
  intros r0 v B H Hd. unfold argument_field. cbn zeta. apply tot_bind; [now apply tot_variable_type|]. intros a. apply tot_bind.
  { apply tot_if; [|apply tot_ret]. apply tot_bind; [apply tot_import|]. intros; apply tot_ret. }
  intros b. apply tot_bind.
  { destruct (v_default v) as [x|]; [|apply tot_ret]. specialize (Hd x eq_refl). apply tot_bind; [|intros; apply tot_ret].
    assert (exists p, parse_value_node x = Ok p) as (p & E) by (destruct x; try discriminate; eexists; reflexivity). rewrite E. apply tot_ret. }
  intros x. apply tot_bind; [apply tot_metadata|]. intros e. apply tot_bind; [apply tot_if; [apply tot_ret|apply tot_import]|]. intros; apply tot_ret.
Qed.
Lemma tot_or_default : forall r0 b, tot r0 (bases_or_default c b). Proof. intros. apply tot_bases. Qed.
Lemma tot_arguments : forall r0 o n, base ks ke ki r0 -> In o (operations_of d) -> tot r0 (arguments_class c st pc o n).
Proof.
  intros r0 o n B Ho. unfold arguments_class. destruct (o_create_arguments pc) eqn:A; [|apply tot_ret]. apply tot_bind.
  { apply tot_mmap. intros v Hv. apply tot_argument_field; [exact B|now apply (Vars eq_refl o)|]. intros x Hx. eapply sd_defaults; eassumption. }
  intros fs. apply tot_bind; [apply tot_bind; [apply tot_import|]; intros; apply tot_ret|]. intros cfg. apply tot_bind; [apply tot_or_default|]. intros; apply tot_ret.
Qed.

Definition op_names (l : list operation) : list string := flat_map (fun o => match op_name o with Some n => [n] | None => [] end) l.
Definition oinv (pre : list operation) (r : reg) : Prop :=
  base ks ke ki r /\ (forall f, In f (fragments_of d) -> dget (fr_name f) (r_fragdocs r) = Some (print_fragment ps f)) /\ incl (dkeys (r_fragdocs r)) (map fr_name (fragments_of d))
  /\ (forall f, In f (fragments_of d) -> ready s d r (fr_name f)) /\ incl (dkeys (r_queries r)) (op_names pre) /\ incl (dkeys (r_muts r)) (op_names pre) /\ incl (dkeys (r_subs r)) (op_names pre).
Lemma oinv_same : forall pre r r', oinv pre r -> tsame r r' -> oinv pre r'.
Proof.
  intros pre r r' (A1 & A2 & A3 & A4 & A5 & A6 & A7) S. destruct (fside_eq _ _ S) as (_ & E & _). pose proof S as (_ & _ & _ & _ & _ & _ & X). unfold fside in X. injection X as _ _ _ _ _ _ Xq Xm Xs.
  unfold oinv. rewrite E, Xq, Xm, Xs. split; [now apply (base_same _ _ _ r)|]. repeat split; auto. intros f Hf. eapply ready_same; [exact S|auto].
Qed.
Lemma op_names_in : forall pre o post n, operations_of d = pre ++ o :: post -> op_name o = Some n -> ~ In n (op_names pre).
Proof.
  intros pre o post n E N H. pose proof (vd_operations s d VD) as ND. rewrite E in ND. apply NoDup_mid in ND. apply ND. rewrite N. unfold op_names in H. apply in_flat_map in H as (x & Hx & H).
  apply in_map_iff. exists x. split; [|exact Hx]. destruct (op_name x); [|destruct H]. destruct H as [<-|[]]. reflexivity.
Qed.
Lemma names_snoc : forall pre o n, op_name o = Some n -> op_names (pre ++ [o]) = op_names pre ++ [n].
Proof. intros pre o n H. unfold op_names. rewrite flat_map_app. cbn. rewrite H. reflexivity. Qed.
(** registering the operation *)
Lemma class_total : forall pre o post n r, operations_of d = pre ++ o :: post -> op_name o = Some n -> oinv pre r -> exists cb r', operation_class c st pc o n r = (Ok cb, r') /\ oinv (pre ++ [o]) r'.
Proof.
  intros pre o post n r E N (A1 & A2 & A3 & A4 & A5 & A6 & A7). pose proof (op_names_in _ _ _ _ E N) as Nn. pose proof (names_snoc pre o n N) as Sn.
  assert (incl (op_names pre) (op_names (pre ++ [o]))) as Ip by (rewrite Sn; intros x Hx; apply in_app_iff; now left).
  assert (forall (m : dict string) v, incl (dkeys m) (op_names pre) -> incl (dkeys (dset n v m)) (op_names (pre ++ [o]))) as Dk.
  { intros m v H x Hx. rewrite dkeys_dset in Hx. destruct (dmem n m); [apply Ip; auto|]. apply in_app_iff in Hx as [Hx|[<-|[]]]; [apply Ip; auto|]. rewrite Sn. apply in_app_iff. right. now left. }
  assert (forall r', oinv (pre ++ [o]) r' -> forall b (k : list expr -> string * list expr), exists cb r'', (let* x := bases_or_default c b in ret (k x)) r' = (Ok cb, r'') /\ oinv (pre ++ [o]) r'') as Rest.
  { intros r' O b k. destruct (tot_or_default r' b r' (tsame_refl _)) as (x & r2 & E2 & S2). exists (k x), r2. split; [eapply bind_run; [exact E2|reflexivity]|]. eapply oinv_same; eassumption. }
  unfold operation_class. destruct (op_kind o).
  - eapply (bind_exv _ _ _ (fun _ r' => oinv (pre ++ [o]) r')).
    { unfold generate_query. assert (~ In n (dkeys (r_queries r))) as X by (intros X; apply Nn, A5, X). rewrite (generate_in_run _ _ _ _ _ (dmem_no _ _ X)). eexists; eexists; split; [reflexivity|].
      split; [exact A1|]. split; [exact A2|]. split; [exact A3|]. split; [exact A4|]. cbn. split; [now apply Dk|]. split; intros x Hx; apply Ip; auto. }
    intros a r' O. now apply Rest.
  - eapply (bind_exv _ _ _ (fun _ r' => oinv (pre ++ [o]) r')).
    { unfold generate_mutation. assert (~ In n (dkeys (r_muts r))) as X by (intros X; apply Nn, A6, X). rewrite (generate_in_run _ _ _ _ _ (dmem_no _ _ X)). eexists; eexists; split; [reflexivity|].
      split; [exact A1|]. split; [exact A2|]. split; [exact A3|]. split; [exact A4|]. cbn. split; [intros x Hx; apply Ip; auto|]. split; [now apply Dk|]. intros x Hx; apply Ip; auto. }
    intros a r' O. now apply Rest.
  - eapply (bind_exv _ _ _ (fun _ r' => oinv (pre ++ [o]) r')).
    { unfold generate_subscription. assert (~ In n (dkeys (r_subs r))) as X by (intros X; apply Nn, A7, X). rewrite (generate_in_run _ _ _ _ _ (dmem_no _ _ X)). eexists; eexists; split; [reflexivity|].
      split; [exact A1|]. split; [exact A2|]. split; [exact A3|]. split; [exact A4|]. cbn. split; [intros x Hx; apply Ip; auto|]. split; [intros x Hx; apply Ip; auto|]. now apply Dk. }
    intros a r' O. now apply Rest.
Qed.
Lemma operation_step : forall pre o post r, operations_of d = pre ++ o :: post -> oinv pre r ->
  exists cs r', generate_operation c st s pc (print_operation ps) add doc_of o r = (Ok cs, r') /\ oinv (pre ++ [o]) r'.
Proof.
  intros pre o post r E O. assert (In o (operations_of d)) as Ho by (rewrite E; apply in_elt). destruct (sd_named s d ps add SD o Ho) as (n & N). destruct (vd_roots s d VD o Ho) as (root & R & Ob & Va).
  unfold generate_operation. rewrite N, R. eapply (bind_exv _ _ _ (fun a r1 => a = n /\ r1 = r)); [exists n, r; auto|]. intros ? ? (-> & ->).
  eapply (bind_exv _ _ _ (fun _ r1 => oinv (pre ++ [o]) r1)); [eapply class_total; eassumption|]. intros cb r1 O1.
  match goal with |- exists b r'', ?m r1 = _ /\ _ => assert (tot r1 m) as T; [|destruct (T r1 (tsame_refl _)) as (b & r2 & E2 & S2); exists b, r2; split; [exact E2|eapply oinv_same; eassumption]] end.
  pose proof O1 as (B & D1 & D2 & Re & _).
  assert (forall m, spread_in True (op_sels o) m -> ready s d r1 m) as Rs. { intros m Hm. destruct (valid_spreads s d _ _ Hm _ Va) as (f & F). apply the_fragment_in in F as (F & <-). auto. }
  assert (forall f, good c st s d r1 f) as Go. { intros f. apply good_all; [apply B|]. eapply base_scal; eassumption. }
  eapply tot_some; [reflexivity|]. cbn zeta. apply tot_bind.
  { apply tot_mfold. intros x acc Hx. destruct (sd_roots s d ps add SD o x root Ho R Hx) as ((g & ->) & Su). assert (valid_sel s d root (SelField g) = true) as Vg by (rewrite forallb_forall in Va; now apply Va). cbn [root_item].
    assert (forall m, spread_in True (sub_sels g) m -> ready s d r1 m) as Rg by (intros m Hm; apply Rs; eapply spread_sub; eassumption).
    destruct (String.eqb (fn_name g) "__typename") eqn:T.
    - eapply tot_some; [unfold get_field_def; rewrite T; reflexivity|]. apply tot_bind; [|intros; apply tot_ret]. cbn [valid_sel] in Vg. rewrite T in Vg. destruct g as [al nm args ds [sl|]]; [discriminate|].
      apply Go; auto. + cbn. unfold is_leaf. now rewrite Str. + intros _. cbn. now apply B.
    - destruct (valid_has_field s d _ g Vg T) as (t & fd & Gt & Gf). eapply tot_some; [eapply field_def_of; eassumption|]. apply tot_bind; [|intros; apply tot_ret].
      eapply good_field; eauto. eapply base_scal; eassumption. }
  intros rr. apply tot_bind.
  { assert (forall n a, tot r1 (register_operation_single n a)) as Ts by (intros; apply tot_modify; repeat split; auto). destruct (snd rr) as [|[|[] ?] []]; try apply tot_ret; apply Ts. }
  intros _. apply tot_bind.
  { apply tot_replace. intros m Hm. apply (reached_needs ps add d (r_fragdocs r1)) in Hm; [|exact (sd_text s d ps add SD)|exact D1| |exact (sd_operations s d ps add SD o Ho)].
    - assert (exists f, In f (fragments_of d) /\ fr_name f = m) as (f & Hf & <-).
      { assert (In m (map fr_name (fragments_of d))) as Hin; [|apply in_map_iff in Hin as (f & <- & Hf); eauto]. destruct Hm as [Hm|(g & Hg & Hm)].
        - destruct (valid_spreads s d _ _ Hm _ Va) as (f & F). apply the_fragment_in in F as (F & <-). now apply in_map.
        - clear Hg. induction Hm; [eapply (known s d VD); eassumption|auto]. }
      exists (print_fragment ps f), (print_fragment ps (with_typename f)). split; [now apply D1|]. now apply (sd_text s d ps add SD).
    - intros x Hx. destruct (dget x (r_fragdocs r1)) eqn:G; [|reflexivity]. exfalso. apply Hx, D2, dmem_In. unfold dmem. now rewrite G. }
  intros doc. apply tot_bind; [now apply tot_arguments|]. intros args. apply tot_bind; [apply tot_config|]. intros; apply tot_ret.
Qed.
Lemma operations_total : forall r, oinv [] r -> exists cs r', operations_plugin c st s pc (print_operation ps) add doc_of d r = (Ok cs, r') /\ oinv (operations_of d) r'.
Proof. intros r H. unfold operations_plugin. apply (mconcat_total _ oinv); [exact H|]. intros pre o post r1 E. now apply (operation_step pre o post). Qed.
End Operations.

(** ** The whole run *)
Lemma ops_in : forall d o, In o (operations_of d) -> In (DOp o) d.
Proof. intros d o H. unfold operations_of in H. apply in_flat_map in H as (x & Hx & H). destruct x; cbn in H; [destruct H as [<-|[]]; exact Hx|destruct H]. Qed.
Lemma documents_state : forall c st s ec ic fc oc doc_of d ps add,
  valid_schema s -> is_scalar s "String" = true -> plain_inputs s -> scalars_known s (known_scalars c) ->
  valid_document s d -> supported_document s d ps add ->
  (c_force_plugin_order c = true -> enums_kept s (fun _ => true) (underscored (ec_skip_underscore ec) (ec_skip_double_underscore ec))
    /\ enums_apart s (style_enum_class st) (map (style_inputtype_class st) (flat_map input_names (s_types s)))
    /\ (ec_skip_unreferenced ec = true -> ic_skip_unreferenced ic = true)) ->
  (o_create_arguments oc = true -> forall o v n, In o (operations_of d) -> In v (op_vars o) -> n = gty_name (v_type v) ->
    (is_scalar s n = true -> In n (known_scalars c))
    /\ (is_input s n = true -> (ic_skip_underscore ic && startswith "_" n) = false /\ style_inputtype_class st n <> "")
    /\ (is_enum s n = true -> underscored (ec_skip_underscore ec) (ec_skip_double_underscore ec) n = false /\ style_enum_class st n <> "")) ->
  exists ke ki l1 r1 l2 r2 l3 r3 l4 r4,
    enums_plugin c st ec s (Ok d) (init_reg c) = (Ok l1, r1) /\ inputs_plugin c st ic s (Ok d) r1 = (Ok l2, r2)
    /\ fragments_plugin c st s fc (print_fragment ps) add d r2 = (Ok l3, r3) /\ operations_plugin c st s oc (print_operation ps) add doc_of d r3 = (Ok l4, r4)
    /\ r_iffrag r2 = [] /\ oinv s d ps (known_scalars c) ke ki (operations_of d) r4
    /\ (forall n, is_enum s n = true -> underscored (ec_skip_underscore ec) (ec_skip_double_underscore ec) n = false ->
          (Spec_Refs.needs s (variable_type d) n \/ forall rf, create_reference_registry s d = Ok rf -> In n (rf_enums rf)) -> In n ke)
    /\ (forall n, is_input s n = true -> (ic_skip_underscore ic && startswith "_" n) = false -> Spec_Refs.needs s (variable_type d) n -> In n ki).
Proof.
  intros c st s ec ic fc oc doc_of d ps add V Str P Sc VD SD En Va.
  destruct (references_ok s d V VD) as (rf & Rf); [apply (sd_named s d ps add SD)|intros; eapply sd_roots; eassumption|apply (sd_fragments s d ps add SD)|].
  assert (forall b r, plugin_refs c b s (Ok d) r = (Ok (if b && truthy (c_documents c) then Some rf else None), r)) as R.
  { intros b r. unfold plugin_refs. destruct (b && truthy (c_documents c)); [|reflexivity]. unfold bind, lift. now rewrite Rf. }
  destruct (registry_C18 s d rf) as (Ri & Re & _); [split; [apply (vd_fragments s d VD)|apply (vd_operations s d VD)]|exact Rf|].
  set (rfe := if ec_skip_unreferenced ec && truthy (c_documents c) then Some rf else None). set (rfi := if ic_skip_unreferenced ic && truthy (c_documents c) then Some rf else None).
  assert (forall n, is_enum s n = true -> underscored (ec_skip_underscore ec) (ec_skip_double_underscore ec) n = false -> (rfe = None \/ Spec_Refs.needs s (variable_type d) n) -> enum_skipped ec rfe n = false) as Sk.
  { intros n Hn U H. unfold underscored in U. unfold enum_skipped. rewrite <- orb_assoc, U, orb_false_r. destruct H as [->|H]; [reflexivity|]. unfold rfe. destruct (_ && _); [|reflexivity].
    apply negb_false_iff, mem_In, Re; [exact H|]. unfold is_enum in Hn. unfold Spec_Refs.is_enum. destruct (get_type s n) as [[]|]; try discriminate. eauto. }
  destruct (enums_plugin_total c st s ec V rfe (Ok d) (R _) _ _ _ _ _ (init_tables c)) as (l1 & r1 & E1 & T1).
  set (ke := enum_names ec rfe (enum_types s)) in *.
  destruct (inputs_plugin_total c st s ic V P rfi (Ok d) (R _) (known_scalars c) ke) with (r := r1) as (l2 & r2 & E2 & ki & T2 & K2); [|exact T1|].
  { intros k t n x ki r (A1 & A2 & _) Hk Hn Hx Hr. split.
    - intros X. apply A1. eapply Sc; eassumption.
    - intros X. destruct (c_force_plugin_order c); [|now left]. right. destruct (En eq_refl) as (EK & EA & EI). destruct t as [| | | | |de fs ds]; try (now destruct Hx). pose proof (get_type_in s V _ _ Hk) as G. split.
      + apply dmem_In. rewrite A2. apply enum_names_in; [exact X|]. apply Sk; [exact X|eapply EK; [exact Hk|right; unfold is_input; now rewrite G|exact Hn|exact X]|].
        unfold rfe. destruct (ec_skip_unreferenced ec) eqn:Se; [|now left]. destruct (truthy (c_documents c)) eqn:Td; [|now left]. right.
        unfold rfi in Hr. rewrite (EI eq_refl), ?Td in Hr. cbn in Hr. apply negb_false_iff, mem_In, Ri in Hr as (Hr & _). cbn in Hn. apply in_map_iff in Hn as (kv & <- & Hkv). eapply needs_field; eassumption.
      + intros Y. apply (EA n X). rewrite Y. apply in_map, in_flat_map. eexists. split; [exact Hk|exact Hx]. }
  destruct (ordering_C01 d (vd_fragments s d VD)) as (l & El & Pl).
  assert (forall k t f fd, In (k, t) (s_types s) -> In (f, fd) (fields_of t) -> is_scalar s (gty_name (fd_type fd)) = true -> In (gty_name (fd_type fd)) (known_scalars c)) as Scal.
  { intros k t f fd Hk Hf Hs. eapply Sc; [exact Hk| |exact Hs]. apply in_app_iff. left. apply in_flat_map. exists (f, fd). split; [exact Hf|now left]. }
  assert (r_iffrag r2 = []) as I2. { destruct T2 as (_ & _ & _ & _ & _ & A4 & _). unfold fside in A4. injection A4 as B1 B2 B3 B4 B5 B6 B7 B8 B9. exact B4. }
  assert (forall n, is_enum s n = true -> underscored (ec_skip_underscore ec) (ec_skip_double_underscore ec) n = false ->
    (Spec_Refs.needs s (variable_type d) n \/ forall rf, create_reference_registry s d = Ok rf -> In n (rf_enums rf)) -> In n ke) as Ke.
  { intros n Hn U [Hd|Hd]; apply enum_names_in; auto. specialize (Hd rf Rf). unfold underscored in U. unfold enum_skipped. rewrite <- orb_assoc, U, orb_false_r. unfold rfe. destruct (_ && _); [|reflexivity]. now apply negb_false_iff, mem_In. }
  assert (forall n, is_input s n = true -> (ic_skip_underscore ic && startswith "_" n) = false -> Spec_Refs.needs s (variable_type d) n -> In n ki) as Ki.
  { intros n It U Nd. unfold is_input in It. destruct (get_type s n) as [[| | | | |de fs ds]|] eqn:G; try discriminate.
    assert (In (n, TInput de fs ds) (s_types s)) as Hin by (unfold get_type in G; now apply dget_Some_In in G).
    apply (K2 (n, InputDef de fs ds)); [now apply inputs_in|]. split; [|exact U]. unfold rfi. destruct (ic_skip_unreferenced ic && truthy (c_documents c)); [|reflexivity]. apply negb_false_iff, mem_In, Ri. split; [exact Nd|]. exists de, fs, ds. exact G. }
  destruct (fragments_total c st s d fc ps add VD SD (known_scalars c) ke ki Scal l El r2) as (l3 & r3 & E3 & (F1 & F2 & F3 & F4 & F5 & F6 & F7)).
  { destruct T2 as (A1 & A2 & A3 & _ & _ & A4 & A5). unfold fside in A4. injection A4 as B1 B2 B3 B4 B5 B6 B7 B8 B9. split; [repeat split; auto|]. rewrite B1, B2, B4, B7, B8, B9. repeat split; try (intros ? []). }
  destruct (operations_total c st s d oc doc_of ps add VD SD Str (known_scalars c) ke ki) with (r := r3) as (l4 & r4 & E4 & O4).
  - cbn. tauto.
  - exact Scal.
  - intros A o v Ho Hv. destruct (Va A o v _ Ho Hv eq_refl) as (V1 & V2 & V3). pose proof (vd_variables s d VD o v Ho Hv) as It. unfold input_type in It. rewrite !orb_true_iff in It.
    assert (Spec_Refs.needs s (variable_type d) (gty_name (v_type v))) as Nd by (apply needs_root; exists o, v; split; [now apply ops_in|auto]).
    destruct It as [[It|It]|It]; [left; auto|right; right|right; left].
    + destruct (V3 It) as (U & Ne). split; [|exact Ne]. apply Ke; auto.
    + destruct (V2 It) as (U & Ne). split; [|exact Ne]. now apply Ki.
  - split; [exact F1|]. injection F7 as Q1 Q2 Q3. rewrite Q1, Q2, Q3. repeat split; try (intros ? []).
    + intros f Hf. apply F4. eapply Permutation_in; [symmetry; exact Pl|exact Hf].
    + rewrite F3. intros x Hx. eapply Permutation_in; [apply Permutation_map; exact Pl|exact Hx].
    + intros f Hf. apply F6. eapply Permutation_in; [symmetry; exact Pl|exact Hf].
  - exists ke, ki, l1, r1, l2, r2, l3, r3, l4, r4. exact (conj E1 (conj E2 (conj E3 (conj E4 (conj I2 (conj O4 (conj Ke Ki))))))).
Qed.
Lemma documents_ast_total : forall c st s ec ic fc oc doc_of d ps add iter skip_forwards, (forall l x, In x (iter l) -> In x l) ->
  valid_schema s -> is_scalar s "String" = true -> plain_inputs s -> scalars_known s (known_scalars c) ->
  valid_document s d -> supported_document s d ps add ->
  (c_force_plugin_order c = true -> enums_kept s (fun _ => true) (underscored (ec_skip_underscore ec) (ec_skip_double_underscore ec))
    /\ enums_apart s (style_enum_class st) (map (style_inputtype_class st) (flat_map input_names (s_types s)))
    /\ (ec_skip_unreferenced ec = true -> ic_skip_unreferenced ic = true)) ->
  (o_create_arguments oc = true -> forall o v n, In o (operations_of d) -> In v (op_vars o) -> n = gty_name (v_type v) ->
    (is_scalar s n = true -> In n (known_scalars c))
    /\ (is_input s n = true -> (ic_skip_underscore ic && startswith "_" n) = false /\ style_inputtype_class st n <> "")
    /\ (is_enum s n = true -> underscored (ec_skip_underscore ec) (ec_skip_double_underscore ec) n = false /\ style_enum_class st n <> "")) ->
  exists l, generate_ast c iter [Plugin "EnumsPlugin" (enums_plugin c st ec s (Ok d)); Plugin "InputsPlugin" (inputs_plugin c st ic s (Ok d));
    Plugin "FragmentsPlugin" (fragments_plugin c st s fc (print_fragment ps) add d); Plugin "OperationsPlugin" (operations_plugin c st s oc (print_operation ps) add doc_of d)] skip_forwards = Ok l.
Proof.
  intros c st s ec ic fc oc doc_of d ps add iter sf I V Str P Sc VD SD En Va.
  destruct (documents_state c st s ec ic fc oc doc_of d ps add V Str P Sc VD SD En Va) as (ke & ki & l1 & r1 & l2 & r2 & l3 & r3 & l4 & r4 & E1 & E2 & E3 & E4 & _ & (O1 & _) & _).
  unfold generate_ast, run_plugins. cbn [pl_generate]. rewrite E1, E2, E3, E4. cbn. destruct (builtins_total iter r4 I) as (b & ->); [apply O1|]. eexists; reflexivity.
Qed.

(** ** A check for valid documents *)
Definition op_key (o : operation) : string := match op_name o with Some n => "n" +s+ n | None => "" end.
Definition valid_doc_b (s : schema) (d : document) (rank : string -> nat) : bool :=
  nodupb (map fr_name (fragments_of d)) && nodupb (map op_key (operations_of d))
  && forallb (fun f => forallb (fun n => Nat.ltb (rank n) (rank (fr_name f))) (flat_map spreads (fr_sels f))) (fragments_of d)
  && forallb (fun f => is_composite s (fr_on f) && forallb (valid_sel s d (fr_on f)) (fr_sels f)) (fragments_of d)
  && forallb (fun o => match root_type s (op_kind o) with Some root => is_object s root && forallb (valid_sel s d root) (op_sels o) | None => false end
       && forallb (fun v => input_type s (gty_name (v_type v))) (op_vars o)) (operations_of d).
Lemma valid_doc_ok : forall s d rank, valid_doc_b s d rank = true -> valid_document s d.
Proof.
  intros s d rank H. unfold valid_doc_b in H. rewrite !andb_true_iff, !forallb_forall in H. destruct H as ((((H1 & H2) & H3) & H4) & H5). split.
  - now apply nodupb_NoDup.
  - apply nodupb_NoDup in H2. clear - H2. induction (operations_of d) as [|o l IH]; [constructor|]. cbn in *. inversion H2; subst. constructor; [|auto]. intros X. apply H1. apply in_map_iff in X as (o' & E & X). apply in_map_iff. exists o'. split; [|exact X]. unfold op_key. now rewrite E.
  - assert (forall a b, depends_trans True d a b -> (rank b < rank a)%nat) as L; [|intros a H; apply L in H; lia].
    intros a b H. induction H as [a b (f & Hf & <- & Sp)|a b e _ IH1 _ IH2]; [|lia]. specialize (H3 f Hf). rewrite forallb_forall in H3. apply PeanoNat.Nat.ltb_lt, H3. now apply (spreads_list (fun x _ => x)).
  - intros f Hf. specialize (H4 f Hf). now apply andb_true_iff in H4.
  - intros o Ho. specialize (H5 o Ho). apply andb_true_iff in H5 as (H5 & _). destruct (root_type s (op_kind o)) as [root|]; [|discriminate]. apply andb_true_iff in H5. eauto.
  - intros o v Ho Hv. specialize (H5 o Ho). apply andb_true_iff in H5 as (_ & H5). rewrite forallb_forall in H5. auto.
Qed.
