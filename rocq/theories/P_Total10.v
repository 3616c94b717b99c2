(** A run with functions does not fail. *)
From Verif Require Import Base PyAst Gql Config Stylers Registry Utils Documents Recurse Referencer Enums Inputs Inline Print Fragments Operations Funcs Run Spec_Mro Spec_Mro2 Spec_Docs Spec_Refs Spec_Inline Spec_Valid Spec_ValidDoc Spec_ValidFuncs Spec_Funcs
  P_Base P_Gql P_Monad P_Config P_Annot P_Recurse P_Mro P_Documents P_Topo P_Inline P_Print P_InlineProps P_Refs P_Indep P_Funcs P_Funcs2 P_Return P_Total P_Total2 P_Total3 P_Total4 P_Total5 P_Total6 P_Total7 P_Total8 P_Total9.
Notation is_scalar := Spec_Valid.is_scalar.
Notation is_input := Spec_Valid.is_input.
Notation is_enum := Spec_Valid.is_enum.

Section Plugin.
Variable c : gconfig. Variable st : list styler. Variable s : schema. Variable pc : fcfg. Variable doc_of : operation -> option string.
Lemma functions_total : forall r0 ops,
  (forall o def, In o ops -> In def (definitions_for pc o) -> forall r, tsame r0 r -> r_single r = r_single r0 -> exists f r', generate_operation_func c st s pc doc_of o def r = (Ok f, r') /\ tsame r0 r') ->
  exists fs r', generate_functions c st s pc doc_of ops r0 = (Ok fs, r') /\ tsame r0 r'.
Proof.
  intros r0 ops H. set (I := fun r => tsame r0 r /\ r_single r = r_single r0).
  assert (forall o ds r, I r -> In o ops -> incl ds (definitions_for pc o) -> exists l r', mmap (generate_operation_func c st s pc doc_of o) ds r = (Ok l, r') /\ I r') as S1.
  { intros o ds r Hi Ho. revert r Hi. induction ds as [|def ds IH]; intros r Hi Hd; [exists [], r; now split|]. destruct (H o def Ho (Hd def (or_introl eq_refl)) r) as (f & r1 & H1 & S1); [apply Hi|apply Hi|].
    assert (I r1) as Hi1. { split; [exact S1|]. destruct (indep_func c st s pc doc_of o def) as [I1 _]. specialize (I1 r). rewrite H1 in I1. cbn in I1. destruct Hi as (_ & <-). now injection I1. }
    destruct (IH r1 Hi1) as (l & r2 & H2 & E2); [intros x Hx; apply Hd; now right|]. exists (f :: l), r2. split; [|exact E2]. cbn. unfold bind. now rewrite H1, H2. }
  assert (forall l r, incl l ops -> I r -> exists ls r', mmap (fun o => mmap (generate_operation_func c st s pc doc_of o) (definitions_for pc o)) l r = (Ok ls, r') /\ I r') as S2.
  { induction l as [|o l IH]; intros r Hl Hi; [exists [], r; now split|]. destruct (S1 o (definitions_for pc o) r Hi) as (x & r1 & H1 & E1); [apply Hl; now left|apply incl_refl|].
    destruct (IH r1) as (xs & r2 & H2 & E2); [intros y Hy; apply Hl; now right|exact E1|]. exists (x :: xs), r2. split; [|exact E2]. cbn. unfold bind. now rewrite H1, H2. }
  destruct (S2 ops r0 (incl_refl _)) as (ls & r' & Hr & E); [split; [apply tsame_refl|reflexivity]|]. exists (concat ls), r'. split; [|apply E]. unfold generate_functions, mconcat, bind. now rewrite Hr.
Qed.
Lemma heads : forall ops r fs r', generate_functions c st s pc doc_of ops r = (Ok fs, r') ->
  map function_head fs = flat_map (fun o => map (fun def => match op_name o with Some n => Some (d_async def, (if d_async def then f_prepend_async pc else f_prepend_sync pc) +s+ camel_to_snake n) | None => None end) (definitions_for pc o)) ops.
Proof.
  intros ops r fs r' H. apply plugin_functions in H as (F & -> & H). induction ops as [|o ops IH]; [reflexivity|]. cbn. rewrite map_app, IH by (intros; apply H; [now right|assumption]). f_equal.
  rewrite map_map. apply map_ext_in. intros def Hd. destruct (H o def (or_introl eq_refl) Hd) as (r1 & r2 & _ & Hf). apply func_parts in Hf as (n & doc & args & rt & N & _ & _ & _ & ->). rewrite N. reflexivity.
Qed.
End Plugin.

(** enums in the result of an operation are referenced *)
Lemma result_enum : forall s d rf o f root e, unique_names d -> create_reference_registry s d = Ok rf -> In o (operations_of d) -> op_sels o = [SelField f] ->
  root_type s (op_kind o) = Some root -> fn_sels f = None -> Spec_ValidDoc.field_type s root (fn_name f) = Some e -> fn_name f <> "__typename" -> is_enum s e = true -> In e (rf_enums rf).
Proof.
  intros s d rf o f root e U H Ho Hs R Fs Ft Nt He. destruct (registry_steps s d rf U H) as (a & _ & H2). clear H.
  assert (forall l x y, rfold (ref_operation s) l x = Ok y -> incl (rf_enums x) (rf_enums y)) as Mo.
  { induction l as [|p l IH]; intros x y E; cbn in E; [injection E as <-; apply incl_refl|]. destruct (ref_operation s p x) as [z|] eqn:Z; [|discriminate]. cbn in E. apply ref_operation_enums in Z as (Z & _). intros n Hn. apply (IH _ _ E). auto. }
  revert a H2. induction (operations_of d) as [|p l IH]; intros a E; [destruct Ho|]. cbn in E. destruct (ref_operation s p a) as [z|] eqn:Z; [|discriminate]. cbn in E. destruct Ho as [->|Ho]; [|eauto].
  apply (Mo _ _ _ E). apply ref_operation_enums in Z as (_ & Z). apply (Z root); auto.
  - unfold Spec_ValidDoc.field_type in Ft. destruct (get_type s root) as [t|] eqn:G; [|discriminate]. destruct (dget (fn_name f) (Spec_Valid.fields_of t)) as [fd|] eqn:Gf; [|discriminate]. injection Ft as <-.
    rewrite Hs. eapply sl_here; [now left|exact Nt|]. eapply field_def_of; [exact G|exact Gf|now apply String.eqb_neq].
  - unfold is_enum in He. unfold Spec_Refs.is_enum. destruct (get_type s e) as [[]|]; try discriminate. eauto.
  - rewrite Hs. constructor; [intros g sub [[= <-]|[]]; congruence|intros ? ? ? [X|[]]; discriminate].
  - rewrite Hs. intros x [<-|[]] [].
Qed.

Lemma impls_kept : forall c st s oc po add doc_of d r cs r', operations_plugin c st s oc po add doc_of d r = (Ok cs, r') -> impls_named st r -> impls_named st r'.
Proof.
  intros c st s oc po add doc_of d r cs r' H I. assert (r_iffrag r' = r_iffrag r) as E; [|unfold impls_named in *; now rewrite E].
  eapply (frame_iffrag st Kop); [cbn; intuition discriminate|eapply ev_ok; [|exact H]]. unfold operations_plugin. apply ev_mconcat. intros o _. apply ev_generate_operation.
Qed.
Lemma functions_ast_total : forall c st s ec ic fc oc pc doc_of doc_of' d ps add iter skip_forwards, (forall l x, In x (iter l) -> In x l) ->
  valid_schema s -> is_scalar s "String" = true -> plain_inputs s -> scalars_known s (known_scalars c) ->
  valid_document s d -> supported_document s d ps add ->
  (c_force_plugin_order c = true -> enums_kept s (fun _ => true) (underscored (ec_skip_underscore ec) (ec_skip_double_underscore ec))
    /\ enums_apart s (style_enum_class st) (map (style_inputtype_class st) (flat_map input_names (s_types s)))
    /\ (ec_skip_unreferenced ec = true -> ic_skip_unreferenced ic = true)) ->
  forall G, G = (fun o => In o (operations_of d) /\ exists def, In def (f_definitions pc) /\ d_kind def = op_kind o) ->
  (forall o v n, In o (operations_of d) -> o_create_arguments oc = true \/ G o -> In v (op_vars o) -> n = gty_name (v_type v) ->
    (is_scalar s n = true -> In n (known_scalars c))
    /\ (is_input s n = true -> (ic_skip_underscore ic && startswith "_" n) = false /\ style_inputtype_class st n <> "")
    /\ (is_enum s n = true -> underscored (ec_skip_underscore ec) (ec_skip_double_underscore ec) n = false /\ style_enum_class st n <> "")) ->
  supported_functions s d G (f_collapse_lonely pc) (f_expand_input_types pc) ->
  (forall o e, G o -> function_enum s (f_collapse_lonely pc) (f_expand_input_types pc) o e ->
    underscored (ec_skip_underscore ec) (ec_skip_double_underscore ec) e = false /\ ~ In e built_in_keys
    /\ style_enum_class st e <> "" /\ style_enum_class st e <> "SHOULD_NOT_BE_USED") ->
  (forall o n, G o -> op_name o = Some n -> Spec_Funcs.operation_class st (op_kind o) n <> "") ->
  (forall f, In f (fragments_of d) -> style_fragment_class st (fr_name f) <> "") ->
  exists pre fs post, generate_ast c iter [Plugin "EnumsPlugin" (enums_plugin c st ec s (Ok d)); Plugin "InputsPlugin" (inputs_plugin c st ic s (Ok d));
    Plugin "FragmentsPlugin" (fragments_plugin c st s fc (print_fragment ps) add d); Plugin "OperationsPlugin" (operations_plugin c st s oc (print_operation ps) add doc_of d);
    Plugin "FuncsPlugin" (funcs_plugin c st s pc doc_of' d)] skip_forwards = Ok (pre ++ fs ++ post)
  /\ map function_head fs = flat_map (fun o => map (fun def => option_map (fun n => (d_async def, (if d_async def then f_prepend_async pc else f_prepend_sync pc) +s+ camel_to_snake n)) (op_name o))
       (filter (fun def => optype_eqb (d_kind def) (op_kind o)) (f_definitions pc))) (operations_of d).
Proof.
  intros c st s ec ic fc oc pc doc_of doc_of' d ps add iter sf I V Str P Sc VD SD En G EG Va SF Ee Nc Nf.
  destruct (documents_state c st s ec ic fc oc doc_of d ps add V Str P Sc VD SD En) as (ke & ki & l1 & r1 & l2 & r2 & l3 & r3 & l4 & r4 & E1 & E2 & E3 & E4 & I2 & O4 & Ke & Ki).
  { intros A o v n Ho Hv Hn. eapply Va; eauto. }
  pose proof O4 as (B & _ & _ & Re & _).
  assert (impls_named st r4) as In4. { eapply impls_kept; [exact E4|]. eapply fragments_named; [exact E3|]. intros n m i x H. rewrite I2 in H. discriminate. }
  assert (forall o, In o (operations_of d) -> recorded_result st l4 r4 o) as Rec.
  { unfold operations_plugin, mconcat in E4. apply bind_ok in E4 as (yss & rx & E4 & Ex). apply ret_ok in Ex as [-> ->]. eapply operations_recorded; [apply (vd_operations s d VD)|exact E4]. }
  assert (forall o v, In o (operations_of d) -> In v (op_vars o) -> Spec_Refs.needs s (variable_type d) (gty_name (v_type v))) as Nd. { intros o v Ho Hv. apply needs_root. exists o, v. split; [now apply ops_in|auto]. }
  assert (unique_names d) as U by (split; [apply (vd_fragments s d VD)|apply (vd_operations s d VD)]).
  assert (forall o def, In o (operations_of d) -> In def (definitions_for (merged_config c pc) o) -> forall r, tsame r4 r -> r_single r = r_single r4 -> exists f r', generate_operation_func c st s (merged_config c pc) doc_of' o def r = (Ok f, r') /\ tsame r4 r') as F.
  { intros o def Ho Hdef. unfold definitions_for in Hdef. apply filter_In in Hdef as (Hdef & Kd). cbn in Hdef.
    assert (G o) as Go. { rewrite EG. split; [exact Ho|]. exists def. split; [exact Hdef|]. now destruct (d_kind def), (op_kind o). }
    destruct (sd_named s d ps add SD o Ho) as (n & N). destruct (vd_roots s d VD o Ho) as (root & R & Ob & Vs).
    apply (function_total c st s d (merged_config c pc) doc_of' V Str (known_scalars c) ke ki) with (n := n) (root := root) (cs := l4); auto.
    - cbn. tauto.
    - intros x Hx. eapply sd_roots; eassumption.
    - intros f Hf. eapply sf_arguments; eassumption.
    - intros v x Hv Hx. eapply sf_defaults; eassumption.
    - intros v Hv. destruct (Va o v _ Ho (or_intror Go) Hv eq_refl) as (V1 & V2 & V3). pose proof (vd_variables s d VD o v Ho Hv) as It. unfold input_type in It. rewrite !orb_true_iff in It.
      destruct It as [[It|It]|It]; [left; auto|right; right|right; left].
      + destruct (V3 It) as (U' & Ne). split; [|exact Ne]. apply Ke; eauto.
      + destruct (V2 It) as (U' & Ne). split; [|exact Ne]. eapply Ki; eauto.
    - intros v Hv Hx. eapply sf_expand; eassumption.
    - intros v k t f fd Hv Hx -> Gt Hf He. destruct (Ee o (gty_name (if_type fd)) Go) as (U' & Nb & N1 & N2). { split; [exact He|]. left. exists v, t, f, fd. auto. }
      split; [|auto]. apply Ke; [exact He|exact U'|]. left. destruct t as [| | | | |de fs ds]; try destruct Hf. change (gty_name (if_type fd)) with (gty_name (if_type (snd (f, fd)))). eapply needs_field; [eapply Nd; eassumption|exact Gt|exact Hf].
    - intros Co f t Es Nt Ft. apply andb_true_iff in Co as (Co & _). cbn in Co. split; [eapply sf_result; eassumption|]. intros He. destruct (Ee o t Go) as (U' & Nb & N1 & N2). { split; [exact He|]. right. split; [exact Co|]. exists f, root. auto. }
      split; [|auto]. apply Ke; [exact He|exact U'|]. right. intros rf Hrf. eapply result_enum; eauto.
      rewrite Es in Vs. cbn in Vs. rewrite (proj2 (String.eqb_neq _ _) Nt), Ft, andb_true_r in Vs. destruct f as [a m ar ds [sl|]]; [|reflexivity]. cbn in Vs. unfold is_composite, is_object, is_iface, is_union in Vs. unfold is_enum in He. destruct (get_type s t) as [[]|]; discriminate.
    - rewrite op_class_eq. auto.
    - intros f m ds Co Es Eb. assert (spread_in True (op_sels o) m) as Sp.
      { rewrite Es. assert (In (SelSpread m ds) (below_field f)) as Hb. { assert (In (SelSpread m ds) (besides_typename f)) as X by (rewrite Eb; now left). unfold besides_typename in X. now apply filter_In in X. }
        destruct f as [a k ar dd [sl|]]; [|destruct Hb]. cbn in Hb. eapply si_field; [now left|reflexivity|]. eapply si_here. exact Hb. }
      destruct (valid_spreads s d _ _ Sp _ Vs) as (g & Hg). apply the_fragment_in in Hg as (Hg & <-). auto. }
  destruct (functions_total _ _ _ _ _ _ _ F) as (fs & r5 & E5 & S5). pose proof (heads _ _ _ _ _ _ _ _ _ E5) as Hh.
  unfold generate_ast, run_plugins. cbn [pl_generate]. unfold funcs_plugin. rewrite E1, E2, E3, E4, E5. cbn [rbind].
  assert (incl (r_builtins r5) built_in_keys) as Bi. { apply S5, B. }
  destruct (builtins_total iter r5 I Bi) as (b & ->). cbn [rbind]. exists (generate_imports iter r5 ++ b ++ l1 ++ l2 ++ l3 ++ l4), fs, (if sf then [] else generate_forward_refs c r5). split; [|exact Hh].
  f_equal. cbn [app]. now rewrite !app_assoc.
Qed.
