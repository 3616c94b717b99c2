(** Names looked up by a module with enums, inputs, fragments and operations. *)
From Verif Require Import Base PyAst Gql Config Stylers Registry Utils Referencer Documents Enums Inputs Recurse Inline Fragments Operations Run
  Spec_Types Spec_Inputs Spec_Refs Spec_Docs Spec_Imports Spec_Scope Spec_Scope2 Spec_Mro Spec_Valid Spec_ValidDoc
  P_Base P_Gql P_Monad P_Types P_Inputs P_Inputs2 P_Inputs3 P_Imports P_Enums P_InputProps P_Topo P_Recurse P_InlineProps P_Modelled P_Modelled2 P_Refs
  P_Total7 P_Scope P_Scope2 P_Scope3 P_Scope4 P_Scope5 P_Scope6 P_Scope7 P_Scope8.
From Coq Require Import Permutation.
Arguments register_import : simpl never.
Arguments add_forward : simpl never.
Arguments register_builtin : simpl never.

(** ** the parts of a module *)
Lemma assemble : forall bi iter c r tree bs, incl simple_types bi -> set_order iter -> generate_builtins iter r = Ok bs -> given bi r "Enum" ->
  scoped (given bi r) tree -> (forall n, In n (r_fwd r) -> given bi r n \/ In n (binds tree)) ->
  scoped (fun n => In n bi) (generate_imports iter r ++ bs ++ tree ++ generate_forward_refs c r).
Proof.
  intros bi iter c r tree bs Hbi Hiter HB GE F3 F5. unfold generate_builtins in HB. destruct (rmap _ (iter (r_builtins r))) as [blocks|] eqn:HBL; [|discriminate]. cbn [rbind] in HB. injection HB as <-.
  destruct (rmap_in _ _ _ HBL) as [BL1 BL2]. clear HBL.
  pose proof (imports_are_imports iter r) as II. destruct (generate_imports_spec iter Hiter r) as [_ IS].
  set (imps := generate_imports iter r) in *. set (F := generate_forward_refs c r).
  assert (IB : forall d, In d (r_imports r) -> In (last_comp d) (binds imps)).
  { intros d Hd. eapply bindings_binds. apply IS. split; [exact Hd|reflexivity]. }
  assert (BB : forall l, In l blocks -> exists k, In k (r_builtins r) /\ built_in k = Some l).
  { intros l Hl. destruct (BL1 l Hl) as (k & Hk & E). exists k. split; [now apply (iter_In iter Hiter)|]. destruct (built_in k); [congruence|discriminate]. }
  assert (BN : forall k l, In k (r_builtins r) -> built_in k = Some l -> In l blocks).
  { intros k l Hk E. destruct (BL2 k) as (y & Hy & E'); [now apply (iter_In iter Hiter)|]. rewrite E in E'. injection E' as ->. exact Hy. }
  assert (GB : forall n, given bi r n -> In n bi \/ In n (binds (imps ++ concat blocks))).
  { intros n [Hn|[(d & Hd & <-)|(k & l & Hk & E & Hn)]]; [now left| |]; right; rewrite binds_app, in_app_iff; [left; now apply IB|].
    right. unfold binds in *. apply in_flat_map in Hn. destruct Hn as (x & Hx & Hn). apply in_flat_map. exists x. split; [|exact Hn].
    apply in_concat. exists l. split; [eapply BN; eassumption|exact Hx]. }
  assert (EN : In "Enum" bi \/ In "Enum" (binds imps)).
  { destruct GE as [Hn|[(d & Hd & E)|(k & l & Hk & E & Hn)]]; [now left|right; rewrite <- E; now apply IB|].
    exfalso. unfold built_in in E. repeat match type of E with (if ?b then _ else _) = _ => destruct b end; try discriminate; injection E as <-; cbn in Hn; intuition discriminate. }
  apply scoped_app. split; [now apply imports_scoped|]. apply scoped_app. split.
  - apply scoped_concat. intros l Hl. destruct (BB l Hl) as (k & _ & Ek). eapply built_in_blocks; [exact Ek|left; apply Hbi; cbn; tauto|exact EN].
  - apply scoped_app. split.
    + eapply scoped_mono; [|exact F3]. intros n Hn. destruct (GB n Hn) as [Y|Y]; [left; now left|]. rewrite binds_app, in_app_iff in Y. tauto.
    + assert (G : forall l (E : string -> Prop), (forall x n, In x l -> In n (runs x) -> E n) -> scoped E l).
      { induction l as [|x l IHl]; intros E HX; [exact I|]. split; [intros n; apply HX; now left|]. apply IHl. intros y n Hy Hn. left. eapply HX; [right; exact Hy|exact Hn]. }
      apply G. intros x n Hx Hn. unfold F, generate_forward_refs in Hx. apply in_map_iff in Hx. destruct Hx as (m & <- & Hm). assert (Hm' : In m (r_fwd r)) by (now apply str_sort_In). cbn in Hn. destruct Hn as [<-|[]].
      destruct (F5 m Hm') as [Y|Y]; [|now right]. destruct (GB m Y) as [Z|Z]; [left; left; now left|]. rewrite binds_app, in_app_iff in Z. tauto.
Qed.

(** ** the enums with a class *)
Lemma enums_registered : forall c st ec s docs r out r', enums_plugin c st ec s docs r = (Ok out, r') ->
  exists rf r1, plugin_refs c (ec_skip_unreferenced ec) s docs r1 = (Ok rf, r1) /\ forall e, Spec_Refs.is_enum s e -> enum_skipped ec rf e = false -> dmem e (r_enums r') = true.
Proof.
  intros c st ec s docs r out r' H. unfold enums_plugin in H. mb H u r1 H1. unfold generate_enums in H. mb H rf r2 H2.
  pose proof (plugin_refs_state _ _ _ _ _ _ _ H2); subst r2. exists rf, r1. split; [exact H2|].
  pose proof (mconcat_steps _ (fun pre _ r' => forall kv, In kv pre -> enum_skipped ec rf (fst kv) = false -> dmem (fst kv) (r_enums r') = true) _ _ _ _ H) as P. cbv beta in P.
  enough (Z : forall kv, In kv (enum_types s) -> enum_skipped ec rf (fst kv) = false -> dmem (fst kv) (r_enums r') = true).
  - intros e (dd & vs & He) HS. apply (Z (e, (dd, vs))); [|exact HS]. unfold enum_types. apply in_flat_map. exists (e, TEnum dd vs). split; [apply dget_Some_In; exact He|now left].
  - apply P; [intros kv []|]. clear H P. intros pre [k dv] post ys ra y rb E HP Hx kv Hkv HS. cbn [fst] in Hx.
    assert (MONO : forall k, dmem k (r_enums ra) = true -> dmem k (r_enums rb) = true).
    { destruct (enum_skipped ec rf k); [apply ret_ok in Hx; destruct Hx as [_ ->]; auto|]. mb Hx cn rc Hc. apply ret_ok in Hx. destruct Hx as [_ ->].
      unfold generate_enum in Hc. apply generate_in_spec in Hc. destruct Hc as (_ & _ & ->). intros k' Hk'. cbn. unfold dmem in *. rewrite dget_dset. destruct (String.eqb k' k); [reflexivity|exact Hk']. }
    apply in_app_or in Hkv. destruct Hkv as [Hkv|[<-|[]]]; [auto|]. cbn [fst] in *. rewrite HS in Hx. mb Hx cn rc Hc. apply ret_ok in Hx. destruct Hx as [_ ->].
    unfold generate_enum in Hc. apply generate_in_spec in Hc. destruct Hc as (_ & _ & ->). cbn. unfold dmem. rewrite dget_dset, String.eqb_refl. reflexivity.
Qed.
Lemma helper_mem : forall n, ~ In n helper_names -> mem n built_in_keys = false.
Proof. intros n H. destruct (mem n built_in_keys) eqn:E; [|reflexivity]. exfalso. apply H. apply mem_In in E. exact E. Qed.
Lemma enums_ok : forall c st ec s d r out r', enums_plugin c st ec s (Ok d) r = (Ok out, r') -> valid_document s d ->
  enums_available (ec_skip_underscore ec) (ec_skip_double_underscore ec) (skipping c (ec_skip_unreferenced ec)) s d ->
  forall e, Spec_Refs.is_enum s e -> document_selects s d e -> okE (r_enums r') e.
Proof.
  intros c st ec s d r out r' H VD (HA & HF) e He HS. destruct (enums_registered _ _ _ _ _ _ _ _ H) as (rf & r1 & HR & HM). destruct (HA e He HS) as (A1 & A2 & A3).
  split; [now apply helper_mem|]. apply HM; [exact He|]. unfold enum_skipped. rewrite !orb_false_iff. repeat split.
  - unfold plugin_refs, skipping in *. destruct (ec_skip_unreferenced ec && truthy (c_documents c)); [|apply ret_ok in HR; destruct HR as [-> _]; reflexivity].
    mb HR d' r2 H2. apply lift_ok in H2. destruct H2 as [[= <-] ->]. mb HR x r2 H2. apply lift_ok in H2. destruct H2 as [H2 ->]. apply ret_ok in HR. destruct HR as [-> _].
    apply negb_false_iff. apply mem_In. eapply registry_enums; [|exact (HF eq_refl)|exact H2|exact HS|exact He]. split; [apply (vd_fragments s d VD)|apply (vd_operations s d VD)].
  - destruct (ec_skip_underscore ec); [cbn; auto|reflexivity].
  - destruct (ec_skip_double_underscore ec); [cbn; auto|reflexivity].
Qed.

(** ** the state after the enum and the input plugin *)
Lemma inputs_state : forall bi c st ec ic s d t0 r0 t1 r X,
  incl simple_types bi -> (forall n x, dget n (r_scalars (init_reg c)) = Some x -> has_dot x = false -> In x bi) ->
  c_force_plugin_order c = true -> NoDup (dkeys (s_types s)) ->
  inputs_available (ic_skip_underscore ic) (skipping c (ic_skip_unreferenced ic)) s (Ok d) ->
  enums_plugin c st ec s (Ok d) (init_reg c) = (Ok t0, r0) -> inputs_plugin c st ic s (Ok d) r0 = (Ok t1, r) ->
  G st bi s (r_scalars (init_reg c)) d X (r_enums r0) (t0 ++ t1) [] r /\ given bi r "Enum" /\ (forall b, In b (ic_bases ic) -> given bi r (last_comp b))
  /\ forall n, Spec_Refs.is_input s n -> (skipping c (ic_skip_unreferenced ic) = true -> needs s (variable_type d) n) -> dmem n (r_inputs r) = true.
Proof.
  intros bi c st ec pc s d t0 r0 t1 r X Hbi Hsc Hforce ND HAV HE HI0. pose proof HI0 as HI.
  unfold inputs_plugin in HI. apply bind_ok in HI. destruct HI as (u & r1 & HI1 & HI).
  unfold generate_inputs in HI. apply bind_ok in HI. destruct HI as (rf & r2 & HI2 & HI).
  pose proof (plugin_refs_state _ _ _ _ _ _ _ HI2); subst r2. apply bind_ok in HI. destruct HI as (u2 & r3 & HI3 & HI).
  pose proof (plugin_refs_inputs _ _ _ _ _ _ HI2) as HRF.
  destruct (available_ok _ _ _ _ _ ND HRF HAV) as [Hmain Hmember].
  set (ok := fun n => ~ input_skipped (ic_skip_underscore pc) (refd rf) n) in *.
  destruct (enums_scope st bi Hbi s (r_scalars (init_reg c)) ok c ec (Ok d) t0 r0 eq_refl HE) as [J0 GE].
  assert (QI : forall l ra v rb, miter register_import l ra = (Ok v, rb) -> evolve st [KImp; KBui] ra rb).
  { intros l ra v rb HX. eapply ev_ok; [|exact HX]. ev_tac. }
  assert (J1 : J st bi pc s (r_scalars (init_reg c)) ok t0 r3).
  { apply J_bases; [|apply (bases_given bi r3 Hbi _ _ _ HI3)].
    eapply J_quiet; [eapply QI; exact HI3|]. eapply J_quiet; [eapply QI; exact HI1|]. exact J0. }
  destruct (loops_scope st bi Hbi c pc s (r_scalars (init_reg c)) Hsc Hforce ND rf ok t0 r3 r Hmain Hmember t1 J1 HI) as [JF CV].
  assert (VI : evolve st inputs_kinds r0 r) by (eapply ev_ok; [apply ev_inputs_plugin|exact HI0]).
  assert (VE : evolve st [KEnu; KImp] (init_reg c) r0) by (eapply ev_ok; [apply ev_enums_plugin|exact HE]).
  assert (FI : r_iffrag r = []).
  { rewrite (frame_iffrag _ _ _ _ (ltac:(cbn; intuition discriminate) : ~ In KIff inputs_kinds) VI). apply (frame_iffrag _ _ _ _ (ltac:(cbn; intuition discriminate) : ~ In KIff [KEnu; KImp]) VE). }
  assert (FU : r_ufrag r = []).
  { rewrite (frame_ufrag _ _ _ _ (ltac:(cbn; intuition discriminate) : ~ In KUff inputs_kinds) VI). apply (frame_ufrag _ _ _ _ (ltac:(cbn; intuition discriminate) : ~ In KUff [KEnu; KImp]) VE). }
  destruct JF as [[F1 F2] F0 F3 F4 F5 FD F6]. split; [|split; [|split; [exact F0|]]].
  - split; rewrite ?FI, ?FU; auto.
    + eapply frame_enums; [|exact VI]. cbn; intuition discriminate.
    + eapply scoped_mono; [|exact F3]. auto.
    + intros n Hn. right. destruct (F5 n Hn) as (b & body & dd & Hin). unfold binds. apply in_flat_map. eexists. split; [exact Hin|]. now left.
    + intros f [].
    + intros f m i k [=].
    + intros f m [=].
    + intros f m i k [=].
  - eapply given_rle; [eapply evolve_rle; exact VI|exact GE].
  - intros n (dd & ff & di & Hn) HN. destruct (CV n (InputDef dd ff di)) as (P & _).
    + unfold schema_inputs. apply in_flat_map. exists (n, TInput dd ff di). split; [apply dget_Some_In; exact Hn|now left].
    + intros [NW|[NU NS]].
      * apply NW. unfold referenced_inputs in HRF. destruct (skipping c (ic_skip_unreferenced pc)) eqn:SK.
        -- destruct HRF as (d0 & l & [= <-] & Er & HL). rewrite Er. intros l' [= <-]. apply HL; [|split; [auto|do 3 eexists; exact Hn]]. apply (proj2 HAV eq_refl _ eq_refl).
        -- rewrite HRF. intros l' [=].
      * rewrite (proj1 HAV NU n) in NS; [discriminate|]. do 3 eexists; exact Hn.
    + unfold present, dmem in *. now destruct (dget n (r_inputs r)).
Qed.

Section Client.
Variables (bi : list string) (c : gconfig) (st : list styler) (ec : enums_config) (ic : inputs_config) (fc : frcfg) (oc : ocfg) (s : schema) (d : document).
Variables (print_fragment : fragment -> string) (print_operation : operation -> string) (add : string -> res string) (doc_of : operation -> option string).
Hypothesis Hbi : incl simple_types bi.
Hypothesis Hsc : forall n x, dget n (r_scalars (init_reg c)) = Some x -> has_dot x = false -> In x bi.
Hypothesis Hforce : c_force_plugin_order c = true.
Hypothesis ND : NoDup (dkeys (s_types s)).
Hypothesis HAV : inputs_available (ic_skip_underscore ic) (skipping c (ic_skip_unreferenced ic)) s (Ok d).
Hypothesis VD : valid_document s d.
Hypothesis Hin : forall f n, In f (fragments_of d) -> spread_in True (fr_sels f) n -> spread_in False (fr_sels f) n.
Hypothesis HEA : enums_available (ec_skip_underscore ec) (ec_skip_double_underscore ec) (skipping c (ec_skip_unreferenced ec)) s d.
Hypothesis HS : ~ Spec_Refs.is_enum s "String".
Hypothesis HU : unions_plain s d.
Hypothesis HM : members_named s d (style_fragment_class st).
Hypothesis HV : o_create_arguments oc = true -> variables_plain d.
Definition needs_Field : Prop := c_create_catchall c = false \/ (o_create_arguments oc = true /\ optional_variable d).
Hypothesis HF : needs_Field -> imports_field s d.
Hypothesis HB : incl (c_object_bases c) (ic_bases ic) \/ (exists fr, In (DFrag fr) d /\ object_type s (fr_on fr)) \/ (exists o, In (DOp o) d /\ kind_bases oc o = []).
Let X (n : string) : Prop := (exists b, In b (c_object_bases c) /\ last_comp b = n) \/ (n = "Field" /\ needs_Field).
Lemma client_state : forall t0 r0 t1 r1 t2 r2 t3 r,
  enums_plugin c st ec s (Ok d) (init_reg c) = (Ok t0, r0) -> inputs_plugin c st ic s (Ok d) r0 = (Ok t1, r1) ->
  fragments_plugin c st s fc print_fragment add d r1 = (Ok t2, r2) -> operations_plugin c st s oc print_operation add doc_of d r2 = (Ok t3, r) ->
  exists done, G st bi s (r_scalars (init_reg c)) d X (r_enums r0) ((t0 ++ t1 ++ t2) ++ t3) done r /\ given bi r "Enum" /\ (forall n, X n -> given bi r n)
  /\ forall n, Spec_Refs.is_input s n -> (skipping c (ic_skip_unreferenced ic) = true -> needs s (variable_type d) n) -> dmem n (r_inputs r) = true.
Proof.
  intros t0 r0 t1 r1 t2 r2 t3 r H0 H1 H2 H3.
  destruct (inputs_state bi c st ec ic s d t0 r0 t1 r1 X Hbi Hsc Hforce ND HAV H0 H1) as (G1 & E1 & B1 & P1).
  assert (XO : forall b, In b (c_object_bases c) -> X (last_comp b)) by (intros b Hb; left; eauto).
  assert (XF : c_create_catchall c = false -> X "Field") by (intros E; right; split; [reflexivity|now left]).
  assert (HE : forall e, Spec_Refs.is_enum s e -> document_selects s d e -> okE (r_enums r0) e) by (eapply enums_ok; eassumption).
  destruct (ordering_C01 d (vd_fragments s d VD)) as (l & El & Pl).
  destruct (fragments_step st bi Hbi c s _ Hsc d VD Hin HU HM X XO XF (r_enums r0) HE fc print_fragment add l El _ _ _ _ G1 H2) as (G2 & L2 & I2).
  assert (HV1 : o_create_arguments oc = true -> forall o v, In (DOp o) d -> In v (op_vars o) -> mem (gty_name (v_type v)) built_in_keys = false).
  { intros EC o v Ho Hv. apply helper_mem. eapply HV; eassumption. }
  assert (HV2 : o_create_arguments oc = true -> forall o v, In (DOp o) d -> In v (op_vars o) -> is_nonnull (v_type v) = false \/ v_default v <> None -> X "Field").
  { intros EC o v Ho Hv HN. right. split; [reflexivity|]. right. split; [exact EC|]. exists o, v. auto. }
  destruct (operations_step st bi Hbi c s _ Hsc d VD HU X XO XF (r_enums r0) HE add l El oc print_operation doc_of HV1 HV2 HS _ _ _ _ G2 H3) as (G3 & L3 & I3).
  exists (map fr_name l). rewrite <- app_assoc in G3. rewrite <- app_assoc. rewrite <- app_assoc in G3. rewrite <- app_assoc. split; [exact G3|].
  split; [eapply given_rle; [exact L3|]; eapply given_rle; [exact L2|exact E1]|].
  split; [|intros n Hn HX; specialize (P1 n Hn HX); unfold dmem in *; destruct (dget n (r_inputs r1)) as [k|] eqn:EK; [|discriminate]; rewrite (rle_inputs _ _ L3 _ _ (rle_inputs _ _ L2 _ _ EK)); reflexivity]. intros n [(b & Hb & <-)|(-> & NF)].
  - destruct HB as [HI|[(fr & Hfr & HO)|(o & Ho & EK)]].
    + eapply given_rle; [exact L3|]. eapply given_rle; [exact L2|]. apply B1, HI, Hb.
    + eapply given_rle; [exact L3|]. eapply I2; [|exact HO|exact Hb]. eapply Permutation_in; [symmetry; exact Pl|]. now apply fragments_in.
    + eapply I3; eassumption.
  - destruct (HF NF) as [(o & root & f & fd & Ho & HX)|(fr & Hfr & HO)].
    + eapply I3; [exact Ho|]. eauto.
    + eapply given_rle; [exact L3|]. eapply I2; [|exact HO]. eapply Permutation_in; [symmetry; exact Pl|]. now apply fragments_in.
Qed.
Theorem client_scope : forall iter a b e f t, set_order iter ->
  generate_ast c iter [Plugin a (enums_plugin c st ec s (Ok d)); Plugin b (inputs_plugin c st ic s (Ok d));
    Plugin e (fragments_plugin c st s fc print_fragment add d); Plugin f (operations_plugin c st s oc print_operation add doc_of d)] false = Ok t ->
  scoped (fun n => In n bi) t.
Proof.
  intros iter a b e f t Hiter H. unfold generate_ast in H. cbn [run_plugins pl_generate pl_name] in H.
  destruct (enums_plugin c st ec s (Ok d) (init_reg c)) as [[t0|] r0] eqn:H0; [|discriminate].
  destruct (inputs_plugin c st ic s (Ok d) r0) as [[t1|] r1] eqn:H1; [|discriminate].
  destruct (fragments_plugin c st s fc print_fragment add d r1) as [[t2|] r2] eqn:H2; [|discriminate].
  destruct (operations_plugin c st s oc print_operation add doc_of d r2) as [[t3|] r3] eqn:H3; [|discriminate].
  cbn [rbind app] in H. destruct (generate_builtins iter r3) as [bs|] eqn:HBS; [|discriminate]. cbn [rbind] in H. injection H as <-.
  destruct (client_state _ _ _ _ _ _ _ _ H0 H1 H2 H3) as (done & GF & GE & GX & _).
  pose proof (assemble bi iter c r3 (t0 ++ t1 ++ t2 ++ t3) bs Hbi Hiter HBS GE) as Z. repeat rewrite <- app_assoc in Z. repeat rewrite <- app_assoc in GF. repeat rewrite <- app_assoc. apply Z.
  - eapply scoped_mono; [|apply (g_scope _ _ _ _ _ _ _ _ _ _ GF)]. intros n [Y|Y]; auto.
  - intros n Hn. destruct (g_fwd _ _ _ _ _ _ _ _ _ _ GF n Hn) as [Y|Y]; auto.
Qed.
End Client.
