(** The classes of a client module read what a server answers. *)
From Verif Require Import Base PyAst Gql Config Stylers Registry Utils Documents Recurse Enums Inputs Fragments Operations Run
  Spec_Types Spec_Refs Spec_Docs Spec_Imports Spec_Scope Spec_Scope2 Spec_Mro2 Spec_Fields Spec_Selection Spec_Dispatch Spec_Valid Spec_ValidDoc Spec_Funcs Spec_Response
  P_Base P_Gql P_Monad P_Types P_Imports P_Recurse P_InlineProps P_Fields P_Selection P_Modelled P_Dispatch P_Modelled2 P_Inputs P_InputProps P_Total7 P_Scope P_Scope5 P_Scope6 P_Scope8 P_Scope9 P_Response.
From Coq Require Import Permutation.

Section Client.
Variables (c : gconfig) (st : list styler) (s : schema) (d : document) (t : list stmt) (py : string -> data -> Prop) (sc : dict string).
Notation cls := (style_fragment_class st).
Notation attr := (generate_node_name st).
Hypothesis NDS : NoDup (dkeys (s_types s)).
Hypothesis NDT : NoDup (owned t).
Hypothesis NE : ~ In "Enum" (owned t).
Notation outer := (P_Response.outer t).
Hypothesis HBo : forall b, In b (c_object_bases c) -> outer b.
Hypothesis HBi : forall l b, c_interface_bases c = Some l -> In b l -> outer b.
Hypothesis HBa : forall n l b, dget n (c_additional_bases c) = Some l -> In b l -> outer b.
Hypothesis HX : oc_extra (c_options c) <> Some "forbid".
Hypothesis Hsc : forall n p x, dget n sc = Some p -> ~ In (last_comp p) (owned t) /\ py (last_comp p) (RScalar n x).
Hypothesis HC : covariant s.
Hypothesis HUO : forall n i, Spec_Mro2.is_union s n = true -> In i (possible s n) -> Spec_Mro2.is_object s i = true.
Hypothesis VD : valid_document s d.
Hypothesis Hin : forall f n, In f (fragments_of d) -> spread_in True (fr_sels f) n -> spread_in False (fr_sels f) n.
Hypothesis RD : readable_document s d attr cls.
Notation okE := (P_Response.okE st s t py).
Hypothesis HE : forall e, Spec_Refs.is_enum s e -> document_selects s d e -> okE e.
Notation fragok := (P_Response.fragok st s d t py).
Notation takes := (P_Response.takes s d t py).
Variable pc : frcfg.
Variable print_fragment : fragment -> string.
Variable add : string -> res string.
Hypothesis HFb : forall b, In b (fr_bases pc) \/ In b (fr_object_bases pc) -> outer b.
Variable l : list fragment.
Hypothesis El : ordered_fragments d = Ok l.
Record St (pre : list fragment) (r : reg) : Prop := {
  st_scalars : r_scalars r = sc;
  st_frags : forall f fr, In f (map fr_name pre) -> the_fragment d f = Some fr -> fragok r f fr;
  st_iface : forall g m, dget g (r_iffrag r) = Some m -> In g (map fr_name pre);
  st_union : forall g m, dget g (r_ufrag r) = Some m -> In g (map fr_name pre) }.
Lemma fragok_other : forall r r' f fr, (dget f (r_frags r') = dget f (r_frags r)) -> (dget f (r_fragtypes r') = dget f (r_fragtypes r)) ->
  (dget f (r_iffrag r') = dget f (r_iffrag r)) -> (dget f (r_ufrag r') = dget f (r_ufrag r)) -> fragok r f fr -> fragok r' f fr.
Proof. intros r r' f fr F1 F2 F3 F4 [A1 A2 A3 A4 A5 A6]. split; rewrite ?F1, ?F2, ?F3, ?F4; assumption. Qed.
Lemma evolve_frame : forall K r r', ~ In KSca K -> ~ In KFra K -> ~ In KFty K -> ~ In KIff K -> ~ In KUff K -> evolve st K r r' ->
  r_scalars r' = r_scalars r /\ r_frags r' = r_frags r /\ r_fragtypes r' = r_fragtypes r /\ r_iffrag r' = r_iffrag r /\ r_ufrag r' = r_ufrag r.
Proof.
  intros K r r' K1 K2 K3 K4 K5 E. split; [eapply frame_scalars; eassumption|]. split; [eapply frame_frags; eassumption|]. split; [eapply frame_fragtypes; eassumption|].
  split; [eapply frame_iffrag; eassumption|eapply frame_ufrag; eassumption].
Qed.
Lemma St_regok : forall pre r, St pre r -> P_Response.regok st s d t py sc (fun f => In f (map fr_name pre)) r.
Proof. intros pre r [A1 A2 A3 A4]. split; assumption. Qed.
Lemma fragment_step : forall pre f post r out r', l = pre ++ f :: post -> St pre r -> generate_fragment c st s pc print_fragment add f r = (Ok out, r') -> incl out t -> St (pre ++ [f]) r'.
Proof.
  intros pre f post r out r' E HS H HI. unfold generate_fragment in H. mb H ty r0 H0. apply from_opt_ok in H0. destruct H0 as [ET ->].
  mb H name r1 H1. mb H u r2 H2. mb H u' r3 H3.
  unfold generate_fragment_class in H1. apply generate_in_spec in H1. destruct H1 as (NF & -> & ->).
  unfold register_fragment_document in H2. mg H2 m. mb H2 u0 r4 H4. apply massert_ok in H4. destruct H4 as [_ ->]. apply modify_ok in H2. destruct H2 as [_ ->].
  unfold register_fragment_type in H3. apply modify_ok in H3. destruct H3 as [_ ->].
  match type of H with _ ?r = _ => set (r3 := r) in * end.
  assert (Hf : In f (fragments_of d)) by (eapply Permutation_in; [eapply perm; eassumption|]; rewrite E; apply in_elt).
  assert (TFf : the_fragment d (fr_name f) = Some f) by (apply the_fragment_of; [apply (vd_fragments s d VD)|exact Hf]).
  destruct HS as [S1 S2 S3 S4].
  assert (ND : ~ In (fr_name f) (map fr_name pre)).
  { intros HIn. destruct (S2 _ _ HIn TFf) as [A1 _ _ _ _ _]. congruence. }
  assert (DF : dget (fr_name f) (r_frags r3) = Some (cls (fr_name f))) by (cbn; rewrite dget_dset, String.eqb_refl; reflexivity).
  assert (FT : dget (fr_name f) (r_fragtypes r3) = Some (fr_on f)) by (cbn; rewrite dget_dset, String.eqb_refl; reflexivity).
  assert (S0 : St pre r3).
  { split; [exact S1| |exact S3|exact S4]. intros g fr Hg TF. eapply fragok_other; [| | | |eapply S2; eassumption]; try reflexivity; cbn; rewrite dget_dset; destruct (String.eqb_spec g (fr_name f)) as [Eg|]; try reflexivity; exfalso; apply ND; now rewrite <- Eg. }
  assert (RO := St_regok _ _ S0). clear S1 S2 S3 S4. destruct S0 as [S1 S2 S3 S4].
  assert (NI : dget (fr_name f) (r_iffrag r3) = None) by (destruct (dget (fr_name f) (r_iffrag r3)) as [m'|] eqn:EI; [exfalso; apply ND; eapply S3; exact EI|reflexivity]).
  assert (NU : dget (fr_name f) (r_ufrag r3) = None) by (destruct (dget (fr_name f) (r_ufrag r3)) as [m'|] eqn:EI; [exfalso; apply ND; eapply S4; exact EI|reflexivity]).
  assert (HQ : Q s okE (fun _ => True) (fun g => In g (map fr_name pre)) (fr_on f) (fr_sels f)).
  { split; [|intros; exact I|].
    - intros e He HN. apply HE; [exact HN|]. right. exists f. split; [now apply in_fragments|exact He].
    - intros g Hg. eapply earlier; eassumption. }
  assert (HD : forall g, In g (map fr_name pre) -> exists fr, the_fragment d g = Some fr).
  { intros g Hg. apply in_map_iff in Hg as (fr & <- & Hfr). exists fr. apply the_fragment_of; [apply (vd_fragments s d VD)|]. eapply Permutation_in; [eapply perm; eassumption|]. rewrite E. apply in_or_app. now left. }
  assert (HR := rdd_fragment _ _ _ _ RD f Hf).
  clearbody r3.
  assert (IN : forall g, In g (map fr_name (pre ++ [f])) -> In g (map fr_name pre) \/ g = fr_name f).
  { intros g. rewrite map_app, in_app_iff. intros [Hg|[Hg|[]]]; auto. }
  assert (IN' : forall g, In g (map fr_name pre) \/ g = fr_name f -> In g (map fr_name (pre ++ [f]))) by (intros g Hg; rewrite map_app, in_app_iff; cbn; destruct Hg; auto).
  assert (FR : forall rx ry, evolve st Ksel rx ry -> r_scalars ry = r_scalars rx /\ r_frags ry = r_frags rx /\ r_fragtypes ry = r_fragtypes rx /\ r_iffrag ry = r_iffrag rx /\ r_ufrag ry = r_ufrag rx).
  { intros rx ry V. eapply evolve_frame; [..|exact V]; cbn; intuition discriminate. }
  destruct ty as [| |dd is fs ds|dd is fs|dd ms|]; try discriminate.
  - assert (V : evolve st Ksel r3 r') by (eapply ev_ok; [apply ev_object_fragment|exact H]). destruct (FR _ _ V) as (F1 & F2 & F3 & F4 & F5).
    pose proof (object_fragment_takes c st s d t py sc NDS NDT NE HBo HBi HBa HX Hsc HC _ HD HUO pc print_fragment add HFb _ _ _ _ _ _ _ _ _ _ ET HQ HR RO H HI) as TK.
    split; [congruence| |rewrite F4; intros g m' Hm; apply IN'; left; eauto|rewrite F5; intros g m' Hm; apply IN'; left; eauto].
    intros g fr Hg TF. destruct (IN g Hg) as [Hg'| ->].
    + eapply fragok_other; [| | | |apply (S2 g fr Hg' TF)]; congruence.
    + assert (fr = f) as -> by congruence. split; rewrite ?F2, ?F3, ?F4, ?F5; auto; unfold is_iface, Spec_Mro2.is_union; rewrite ET; discriminate.
  - destruct (interface_fragment_takes c st s d t py sc NDS NDT NE HBo HBi HBa HX Hsc HC _ HD HUO pc print_fragment add _ _ _ _ _ _ _ _ ET HQ HR RO H HI) as (ra & V & -> & TK). destruct (FR _ _ V) as (F1 & F2 & F3 & F4 & F5).
    split; [cbn; congruence| |cbn; rewrite F4; intros g m' Hm|cbn; rewrite F5; intros g m' Hm; apply IN'; left; eauto].
    2:{ rewrite dget_dset in Hm. destruct (String.eqb_spec g (fr_name f)) as [->|]; apply IN'; eauto. }
    intros g fr Hg TF. destruct (IN g Hg) as [Hg'| ->].
    + eapply fragok_other; [| | | |apply (S2 g fr Hg' TF)]; cbn; try congruence. rewrite F4, dget_dset. destruct (String.eqb_spec g (fr_name f)) as [Eg|]; [exfalso; apply ND; now rewrite <- Eg|reflexivity].
    + assert (fr = f) as -> by congruence. split; cbn; rewrite ?F2, ?F3, ?F4, ?F5; auto; unfold is_iface, Spec_Mro2.is_union, Spec_Mro2.is_object; rewrite ET; try discriminate.
      * intros _. rewrite dget_dset, String.eqb_refl. eexists. split; [reflexivity|]. destruct (dset_keys (fun i => cls (fr_name f) +s+ i) (possible s (fr_on f)) []) as [K1 K2]. split.
        -- intros i Hi. split; [apply K2; now left|auto].
        -- intros i k Hk. destruct (K1 _ _ Hk) as [[]|K]; exact K.
      * split; [discriminate|auto].
  - destruct (union_fragment_takes c st s d t py sc NDS NDT NE HBo HBi HBa HX Hsc HC _ HD HUO pc print_fragment add HFb _ _ _ _ _ _ _ ET HQ HR RO (fun i dirs m g dirs' => rdd_union _ _ _ _ RD f i dirs m g dirs' Hf (ltac:(unfold Spec_Mro2.is_union; now rewrite ET))) H HI) as (ra & V & V' & TK & AL).
    destruct (FR _ _ V) as (F1 & F2 & F3 & F4 & F5). destruct (FR _ _ V') as (G1 & G2 & G3 & G4 & G5). cbn in G1, G2, G3, G4, G5.
    split; [congruence| |rewrite G4, F4; intros g m' Hm; apply IN'; left; eauto|rewrite G5, F5; intros g m' Hm].
    2:{ rewrite dget_dset in Hm. destruct (String.eqb_spec g (fr_name f)) as [->|]; apply IN'; eauto. }
    intros g fr Hg TF. destruct (IN g Hg) as [Hg'| ->].
    + eapply fragok_other; [| | | |apply (S2 g fr Hg' TF)]; try congruence. rewrite G5, F5, dget_dset. destruct (String.eqb_spec g (fr_name f)) as [Eg|]; [exfalso; apply ND; now rewrite <- Eg|reflexivity].
    + assert (fr = f) as -> by congruence. split; rewrite ?G2, ?G3, ?G4, ?G5, ?F2, ?F3, ?F4, ?F5; auto; unfold is_iface, Spec_Mro2.is_union, Spec_Mro2.is_object; rewrite ET; try discriminate.
      * intros _. split; [exact NI|]. rewrite dget_dset, String.eqb_refl. eexists. split; [reflexivity|]. destruct (dset_keys (fun i => cls (fr_name f) +s+ i) (possible s (fr_on f)) []) as [K1 K2]. split; [exact TK|]. split; [|exact AL].
        intros i k Hk. destruct (K1 _ _ Hk) as [[]|K]; exact K.
      * split; [auto|discriminate].
Qed.
Lemma fragments_step : forall r out r', St [] r -> fragments_plugin c st s pc print_fragment add d r = (Ok out, r') -> incl out t -> St l r'.
Proof.
  intros r out r' HS H HI. unfold fragments_plugin in H. rewrite El in H. mb H l' r0 H0. apply lift_ok in H0. destruct H0 as [[= <-] ->].
  pose proof (mconcat_steps _ (fun pre ys r' => incl ys t -> St pre r') _ _ _ _ H) as P. cbv beta in P. apply P; [auto| |exact HI].
  intros pre f post ys r1 y r2 E A Hx HIy. eapply fragment_step; [exact E|apply A; eapply incl_tran; [apply incl_appl, incl_refl|exact HIy]|exact Hx|eapply incl_tran; [apply incl_appr, incl_refl|exact HIy]].
Qed.
Lemma operations_reads : forall oc print_operation doc_of r out r',
  (forall b, In b (o_query_bases oc) \/ In b (o_mutation_bases oc) \/ In b (o_subscription_bases oc) -> outer b) ->
  St l r -> operations_plugin c st s oc print_operation add doc_of d r = (Ok out, r') -> incl out t ->
  forall o name v, In o (operations_of d) -> op_name o = Some name -> response s d o v -> reads t py (EName (Spec_Funcs.operation_class st (op_kind o) name)) v.
Proof.
  intros oc print_operation doc_of r out r' HB HS H HI o name v Ho EN (root & kvs & ER & -> & SY & CF).
  assert (HD : forall g, In g (map fr_name l) -> exists fr, the_fragment d g = Some fr).
  { intros g Hg. apply in_map_iff in Hg as (fr & <- & Hfr). exists fr. apply the_fragment_of; [apply (vd_fragments s d VD)|]. eapply Permutation_in; [eapply perm; eassumption|exact Hfr]. }
  unfold operations_plugin in H.
  pose proof (mconcat_steps _ (fun pre ys r' => incl ys t -> St l r' /\ forall o name root, In o pre -> op_name o = Some name -> root_type s (op_kind o) = Some root -> takes (Spec_Funcs.operation_class st (op_kind o) name) root (op_sels o)) _ _ _ _ H) as P. cbv beta in P.
  enough (Z : St l r' /\ forall o name root, In o (operations_of d) -> op_name o = Some name -> root_type s (op_kind o) = Some root -> takes (Spec_Funcs.operation_class st (op_kind o) name) root (op_sels o)).
  { destruct Z as [_ K]. eapply reads_class; [eapply K; eassumption|]. split; assumption. }
  apply P; [| |exact HI].
  - intros _. split; [exact HS|]. intros ? ? ? [].
  - clear o name root kvs Ho EN ER SY CF H HS P. intros pre o post ys r1 y r2 E A Hx HIy.
    destruct A as [HS K]; [eapply incl_tran; [apply incl_appl, incl_refl|exact HIy]|].
    assert (Ho : In o (operations_of d)) by (rewrite E; apply in_elt). split.
    + pose proof (ev_ok _ _ _ _ _ _ (ev_generate_operation c st s add oc print_operation doc_of o) Hx) as V.
      destruct (evolve_frame Kop _ _ (ltac:(cbn; intuition discriminate)) (ltac:(cbn; intuition discriminate)) (ltac:(cbn; intuition discriminate)) (ltac:(cbn; intuition discriminate)) (ltac:(cbn; intuition discriminate)) V) as (F1 & F2 & F3 & F4 & F5).
      destruct HS as [S1 S2 S3 S4]. split; [congruence| |now rewrite F4|now rewrite F5]. intros g fr Hg TF. eapply fragok_other; [| | | |eapply S2; eassumption]; congruence.
    + intros o' name root Ho' EN ER. apply in_app_or in Ho' as [Ho'|[<-|[]]]; [eauto|].
      eapply (operation_reads c st s d t py sc NDS NDT NE HBo HBi HBa HX Hsc HC _ HD HUO); [exact HB|exact EN|exact ER| |eapply rdd_operation; eassumption|intros g Hg; eapply rdd_root; eassumption|apply St_regok; exact HS|exact Hx|eapply incl_tran; [apply incl_appr, incl_refl|exact HIy]].
      split; [|intros; exact I|].
      * intros e He HN. apply HE; [exact HN|]. left. exists o, root. split; [now apply in_operations|]. auto.
      * intros g Hg. destruct (vd_roots s d VD o Ho) as (root' & ER' & _ & Vs). destruct (valid_spreads s d _ _ Hg _ Vs) as (fr & TF). eapply all_fragments; eassumption.
Qed.
End Client.
Lemma enums_emitted : forall c st ec s docs r out r', enums_plugin c st ec s docs r = (Ok out, r') ->
  exists rf r1, plugin_refs c (ec_skip_unreferenced ec) s docs r1 = (Ok rf, r1) /\ forall e desc vs, get_type s e = Some (TEnum desc vs) -> enum_skipped ec rf e = false ->
    In (SClass (style_enum_class st e) [EName "str"; EName "Enum"] (class_doc desc :: flat_map Enums.enum_member vs) []) out.
Proof.
  intros c st ec s docs r out r' H. unfold enums_plugin in H. mb H u r1 H1. unfold generate_enums in H. mb H rf r2 H2.
  pose proof (P_Enums.plugin_refs_state _ _ _ _ _ _ _ H2); subst r2. exists rf, r1. split; [exact H2|].
  pose proof (mconcat_steps _ (fun pre ys _ => forall e desc vs, In (e, (desc, vs)) pre -> enum_skipped ec rf e = false ->
    In (SClass (style_enum_class st e) [EName "str"; EName "Enum"] (class_doc desc :: flat_map Enums.enum_member vs) []) ys) _ _ _ _ H) as P. cbv beta in P.
  enough (Z : forall e desc vs, In (e, (desc, vs)) (enum_types s) -> enum_skipped ec rf e = false ->
    In (SClass (style_enum_class st e) [EName "str"; EName "Enum"] (class_doc desc :: flat_map Enums.enum_member vs) []) out).
  - intros e desc vs He HS. apply Z; [|exact HS]. unfold enum_types. apply in_flat_map. exists (e, TEnum desc vs). split; [apply dget_Some_In; exact He|now left].
  - apply P; [intros e desc vs []|]. clear H P. intros pre [k [dv kv]] post ys ra y rb E HP Hx e desc vs Hkv HS. cbn [fst snd] in Hx. apply in_or_app.
    apply in_app_or in Hkv. destruct Hkv as [Hkv|[[= -> -> ->]|[]]]; [left; auto|right]. rewrite HS in Hx. mb Hx cn rc Hc. apply ret_ok in Hx. destruct Hx as [-> _].
    unfold generate_enum in Hc. apply generate_in_spec in Hc. destruct Hc as (_ & -> & _). now left.
Qed.
Lemma enum_kept : forall c ec s d rf r1, plugin_refs c (ec_skip_unreferenced ec) s (Ok d) r1 = (Ok rf, r1) -> valid_document s d ->
  enums_available (ec_skip_underscore ec) (ec_skip_double_underscore ec) (skipping c (ec_skip_unreferenced ec)) s d ->
  forall e, Spec_Refs.is_enum s e -> document_selects s d e -> mem e built_in_keys = false /\ enum_skipped ec rf e = false.
Proof.
  intros c ec s d rf r1 HR VD (HA & HF) e He HS. destruct (HA e He HS) as (A1 & A2 & A3).
  split; [now apply helper_mem|]. unfold enum_skipped. rewrite !orb_false_iff. repeat split.
  - unfold plugin_refs, skipping in *. destruct (ec_skip_unreferenced ec && truthy (c_documents c)); [|apply ret_ok in HR; destruct HR as [-> _]; reflexivity].
    mb HR d' r2 H2. apply lift_ok in H2. destruct H2 as [[= <-] ->]. mb HR x r2 H2. apply lift_ok in H2. destruct H2 as [H2 ->]. apply ret_ok in HR. destruct HR as [-> _].
    apply negb_false_iff. apply mem_In. eapply P_Refs.registry_enums; [|exact (HF eq_refl)|exact H2|exact HS|exact He]. split; [apply (vd_fragments s d VD)|apply (vd_operations s d VD)].
  - destruct (ec_skip_underscore ec); [cbn; auto|reflexivity].
  - destruct (ec_skip_double_underscore ec); [cbn; auto|reflexivity].
Qed.
Theorem client_reads : forall c st ec ic fc oc s d print_fragment print_operation add doc_of py,
  NoDup (dkeys (s_types s)) -> valid_unions s -> covariant s -> enum_values_named s -> valid_document s d ->
  (forall fr n, In fr (fragments_of d) -> spread_in True (fr_sels fr) n -> spread_in False (fr_sels fr) n) ->
  enums_available (ec_skip_underscore ec) (ec_skip_double_underscore ec) (skipping c (ec_skip_unreferenced ec)) s d ->
  readable_document s d (generate_node_name st) (style_fragment_class st) ->
  oc_extra (c_options c) <> Some "forbid" ->
  forall iter a b e f t,
  generate_ast c iter [Plugin a (enums_plugin c st ec s (Ok d)); Plugin b (inputs_plugin c st ic s (Ok d));
    Plugin e (fragments_plugin c st s fc print_fragment add d); Plugin f (operations_plugin c st s oc print_operation add doc_of d)] false = Ok t ->
  NoDup (owned t) -> ~ In "Enum" (owned t) ->
  (forall b, configured_base c (fr_bases fc ++ fr_object_bases fc ++ o_query_bases oc ++ o_mutation_bases oc ++ o_subscription_bases oc) b -> ~ In (last_comp b) (owned t) /\ last_comp b <> "Enum") ->
  (forall n p x, dget n (r_scalars (init_reg c)) = Some p -> ~ In (last_comp p) (owned t) /\ py (last_comp p) (RScalar n x)) ->
  forall o name v, In o (operations_of d) -> op_name o = Some name -> response s d o v ->
  reads t py (EName (Spec_Funcs.operation_class st (op_kind o) name)) v.
Proof.
  intros c st ec ic fc oc s d print_fragment print_operation add doc_of py NDS [_ HU] HC HEV VD Hin HEA RD HX iter a b e f t H NDT NE HB Hsc.
  unfold generate_ast in H. cbn [run_plugins pl_generate pl_name] in H.
  destruct (enums_plugin c st ec s (Ok d) (init_reg c)) as [[t0|] r0] eqn:H0; [|discriminate].
  destruct (inputs_plugin c st ic s (Ok d) r0) as [[t1|] r1] eqn:H1; [|discriminate].
  destruct (fragments_plugin c st s fc print_fragment add d r1) as [[t2|] r2] eqn:H2; [|discriminate].
  destruct (operations_plugin c st s oc print_operation add doc_of d r2) as [[t3|] r3] eqn:H3; [|discriminate].
  cbn [rbind app] in H. destruct (generate_builtins iter r3) as [bs|] eqn:HBS; [|discriminate]. cbn [rbind] in H. injection H as Et.
  assert (I0 : incl t0 t) by (rewrite <- Et; intros x Hx; rewrite !in_app_iff; tauto).
  assert (I2 : incl t2 t) by (rewrite <- Et; intros x Hx; rewrite !in_app_iff; tauto).
  assert (I3 : incl t3 t) by (rewrite <- Et; intros x Hx; rewrite !in_app_iff; tauto).
  clear Et HBS bs.
  assert (VI : evolve st inputs_kinds r0 r1) by (eapply ev_ok; [apply ev_inputs_plugin|exact H1]).
  assert (VE : evolve st [KEnu; KImp] (init_reg c) r0) by (eapply ev_ok; [apply ev_enums_plugin|exact H0]).
  assert (S0 : St st s d t py (r_scalars (init_reg c)) [] r1).
  { destruct (evolve_frame st inputs_kinds _ _ (ltac:(cbn; intuition discriminate)) (ltac:(cbn; intuition discriminate)) (ltac:(cbn; intuition discriminate)) (ltac:(cbn; intuition discriminate)) (ltac:(cbn; intuition discriminate)) VI) as (F1 & F2 & F3 & F4 & F5).
    destruct (evolve_frame st [KEnu; KImp] _ _ (ltac:(cbn; intuition discriminate)) (ltac:(cbn; intuition discriminate)) (ltac:(cbn; intuition discriminate)) (ltac:(cbn; intuition discriminate)) (ltac:(cbn; intuition discriminate)) VE) as (G1 & G2 & G3 & G4 & G5).
    split; [congruence|intros g fr []| |]; rewrite ?F4, ?F5, ?G4, ?G5; discriminate. }
  destruct (P_Topo.ordering_C01 d (vd_fragments s d VD)) as (l & El & Pl).
  assert (HE : forall e, Spec_Refs.is_enum s e -> document_selects s d e -> P_Response.okE st s t py e).
  { destruct (enums_emitted _ _ _ _ _ _ _ _ H0) as (rf & ry & HR & EM). intros n HN HS. destruct (enum_kept _ _ _ _ _ _ HR VD HEA n HN HS) as [B1 B2]. split; [exact B1|].
    intros desc vs v HT Hv. specialize (EM _ _ _ HT B2). eapply rd_enum; [exists []; apply I0; exact EM|right; now left|].
    unfold dkeys in Hv. apply in_map_iff in Hv as ([k ev] & <- & Hv). cbn [fst]. exists k. right. apply in_flat_map. exists (k, ev). split; [exact Hv|]. left. cbn. now rewrite (HEV _ _ _ _ _ HT Hv). }
  assert (HBo : forall b, In b (c_object_bases c) -> P_Response.outer t b) by (intros b' Hb; apply HB; now left).
  assert (HBi : forall l b, c_interface_bases c = Some l -> In b l -> P_Response.outer t b) by (intros l' b' E Hb; apply HB; right; left; eauto).
  assert (HBa : forall n l b, dget n (c_additional_bases c) = Some l -> In b l -> P_Response.outer t b) by (intros n l' b' E Hb; apply HB; right; right; left; eauto).
  assert (HFb : forall b, In b (fr_bases fc) \/ In b (fr_object_bases fc) -> P_Response.outer t b) by (intros b' Hb; apply HB; right; right; right; rewrite !in_app_iff; tauto).
  assert (HOb : forall b, In b (o_query_bases oc) \/ In b (o_mutation_bases oc) \/ In b (o_subscription_bases oc) -> P_Response.outer t b) by (intros b' Hb; apply HB; right; right; right; rewrite !in_app_iff; tauto).
  assert (HUO : forall n i, Spec_Mro2.is_union s n = true -> In i (possible s n) -> Spec_Mro2.is_object s i = true).
  { intros n i HN Hi. unfold Spec_Mro2.is_union in HN. unfold possible in Hi. destruct (get_type s n) as [[]|] eqn:HT; try discriminate. eapply HU; eassumption. }
  intros o name v.
  pose proof (fragments_step c st s d t py (r_scalars (init_reg c)) NDS NDT NE HBo HBi HBa HX Hsc HC HUO VD Hin RD HE fc print_fragment add HFb l El r1 t2 r2 S0 H2 I2) as S2.
  eapply (operations_reads c st s d t py (r_scalars (init_reg c))) with (l := l); eassumption.
Qed.
