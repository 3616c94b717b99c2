(** Arguments classes serialise to the valid variable values. *)
From Verif Require Import Base PyAst Gql Config Stylers Registry Utils Documents Referencer Enums Inputs Inline Recurse Fragments Operations Run
  PySem Spec_Config Spec_Types Spec_Inputs Spec_Refs Spec_Scope Spec_Dispatch Spec_Names Spec_Pydantic Spec_Fields Spec_Annot Spec_Classes Spec_Response Spec_Values Spec_Variables
  P_Base P_Monad P_Annot P_Inputs P_Inputs3 P_InputProps P_Fields P_Recurse P_Selection P_InlineProps P_Enums P_Refs P_Freeze P_Args P_Classes P_Response2 P_Scope5 P_Total7 P_Values P_Values2.

(** ** lists and tuples are serialised alike *)
Lemma retup : forall t py leaf tup tup' ty x v, inhab tup leaf ty x -> dumps t py x v ->
  exists x', inhab tup' leaf ty x' /\ dumps t py x' v /\ (x = JNull <-> x' = JNull).
Proof.
  intros t py leaf tup tup'. induction ty as [n|ty IH|ty IH]; intros x v Hx Hd; cbn [inhab] in *.
  - exists x. split; [exact Hx|]. split; [exact Hd|tauto].
  - destruct Hx as [->|(l & -> & Hl)].
    + exists JNull. split; [now left|]. split; [exact Hd|tauto].
    + inversion Hd as [|b l' vs HA| | | | |]; subst. 
      assert (Z : exists l', (forall y, In y l' -> inhab tup' leaf ty y) /\ dumps_all t py l' vs).
      { clear Hd. induction HA as [|y w l vs Hy HA IHA].
        - exists []. split; [intros y []|constructor].
        - destruct IHA as (l' & H1 & H2); [intros z Hz; apply Hl; now right|]. destruct (IH _ _ (Hl _ (or_introl eq_refl)) Hy) as (y' & Hy' & Hd' & _).
          exists (y' :: l'). split; [intros z [<-|Hz]; auto|now constructor]. }
      destruct Z as (l' & H1 & H2). exists (JSeq tup' l'). split; [right; eauto|]. split; [now constructor|split; discriminate].
  - destruct Hx as [Hn Hx]. destruct (IH _ _ Hx Hd) as (x' & Hx' & Hd' & HN). exists x'. split; [|auto]. split; [|exact Hx']. intros E. apply Hn. now apply HN.
Qed.
Lemma inhab_ext : forall tup (l1 l2 : string -> string -> Prop) ty, (forall k, l1 (gty_name ty) k <-> l2 (gty_name ty) k) -> forall x, inhab tup l1 ty x <-> inhab tup l2 ty x.
Proof.
  intros tup l1 l2. induction ty as [n|ty IH|ty IH]; intros H x; cbn [inhab gty_name] in *.
  - split; (intros [Hx|(k & Hk & Hx)]; [now left|right; exists k; split; [now apply H|exact Hx]]).
  - split; (intros [Hx|(l & -> & Hl)]; [now left|right; exists l; split; [reflexivity|]]); intros y Hy; apply (IH H); auto.
  - now rewrite (IH H).
Qed.

(** ** The Arguments class of an operation *)
Definition Kfr : list kind := [KImp; KFwd; KBui; KObj; KIfa; KFra; KQry; KMut; KSub; KDoc; KFty; KIff; KUff; KSin].
Lemma fragments_same : forall c st s pc pf add d, ev st Kfr (fragments_plugin c st s pc pf add d).
Proof.
  intros c st s pc pf add d. unfold fragments_plugin. apply ev_bind; [apply ev_lift|]. intros l. apply ev_mconcat. intros f _.
  unfold generate_fragment, Kfr. apply ev_bind; [apply ev_from_opt|]. intros t. apply ev_bind; [ev_leaf|]. intros n. apply ev_bind; [ev_leaf|]. intros _. apply ev_bind; [ev_leaf|]. intros _.
  destruct t; first [apply ev_raise|eapply ev_incl; [|first [apply ev_object_fragment|apply ev_interface_fragment|apply ev_union_fragment]]; intros k; cbn; tauto].
Qed.
Lemma argument_class : forall c st v r stm r', Spec_Annot.named st (gty_name (v_type v)) -> argument_field c st v r = (Ok stm, r') -> exists k, class_for st r (gty_name (v_type v)) k.
Proof.
  intros c st v r stm r' HN H. unfold argument_field in H. cbn zeta in H. apply bind_ok in H as (a & r1 & H1 & _).
  destruct (type_annotation_eq st (v_type v) true r HN) as (r2 & _ & HT). destruct (any_input_result st r (gty_name (v_type v))) eqn:E; [|congruence].
  destruct (any_input_class _ _ _ _ E) as (k & Hk & _). eauto.
Qed.
Lemma argument_classes : forall c st vs r fs r', Forall (fun v => Spec_Annot.named st (gty_name (v_type v))) vs ->
  mmap (argument_field c st) vs r = (Ok fs, r') -> forall v, In v vs -> exists k, class_for st r (gty_name (v_type v)) k.
Proof.
  intros c st vs r fs r' HN H. rewrite Forall_forall in HN.
  eapply (mmap_inv _ (same_maps r)) with (Q := fun v x => exists k, class_for st r (gty_name (v_type v)) k) in H as [_ F].
  - clear HN. induction F as [|v x vs fs Hv F IH]; intros w Hw; cbn in Hw; [contradiction|destruct Hw as [<-|Hw]; auto].
  - apply same_refl.
  - intros v r1 x r2 Hv Hs Hx. split.
    + eapply same_trans; [exact Hs|]. eapply (evolve_same st Ksel); [nosca|nosca|nosca|]. eapply ev_ok; [|exact Hx]. unfold argument_field. ev_go. eapply ev_incl; [|apply ev_type_annotation]. incl_dec.
    + apply argument_class in Hx as (k & Hk); [|now apply HN]. exists k. now apply (class_for_same st r r1).
Qed.
Lemma config_binds : forall k c n r l r', generate_pydantic_config k c n r = (Ok l, r') -> forall x, In x (binds l) -> x = "model_config" \/ x = "Config".
Proof.
  intros k c n r l r' H x Hx. unfold generate_pydantic_config in H. destruct (String.eqb _ _).
  - unfold generate_config_dict in H. cbn zeta in H. destruct (_ ++ _); [apply ret_ok in H as [-> _]; contradiction|]. mb H u r1 H1. apply ret_ok in H as [-> _]. cbn in Hx. intuition.
  - apply ret_ok in H as [-> _]. unfold generate_config_class_pydantic in Hx. cbn zeta in Hx. destruct (_ ++ _); [contradiction|]. cbn in Hx. intuition.
Qed.
Lemma operation_arguments : forall c st s pc po add doc_of o name r l r', Forall (fun v => Spec_Annot.named st (gty_name (v_type v))) (op_vars o) ->
  o_create_arguments pc = true -> op_name o = Some name ->
  generate_operation c st s pc po add doc_of o r = (Ok l, r') ->
  exists bases body abases abody, In (SClass (Spec_Funcs.operation_class st (op_kind o) name) bases body []) l /\ nested body "Arguments" abases abody
    /\ Forall2 (argument_ok (class_for st r) st) (op_vars o) (class_fields abody)
    /\ (forall v, In v (op_vars o) -> exists k, class_for st r (gty_name (v_type v)) k)
    /\ abases = map (fun b => EName (last_comp b)) (match o_arguments_bases pc with [] => c_object_bases c | _ => o_arguments_bases pc end)
    /\ ~ In ("extra", CStr "allow") (config_entries abody).
Proof.
  intros c st s pc po add doc_of o name r l r' HN HA EN H.
  unfold generate_operation in H. cbn zeta in H.
  mb H nm r0 H0. apply from_opt_ok in H0 as [E0 ->]. rewrite EN in E0. injection E0 as <-. mb H cb r2 H2. mb H rt r3 H3. apply from_opt_ok in H3 as [ER ->]. mb H acc r4 H4. mb H u r5 H5. mb H dc r6 H6. mb H args r7 H7. mb H cfg r8 H8.
  apply ret_ok in H as [-> _].
  assert (K1 : fst cb = Spec_Funcs.operation_class st (op_kind o) name).
  { clear - H2. unfold Operations.operation_class, bases_or_default, Spec_Funcs.operation_class in *. destruct (op_kind o); mb H2 k rc Hc; mb H2 es rd Hd; apply ret_ok in H2 as [-> _]; apply generate_in_spec in Hc as (_ & -> & _); reflexivity. }
  assert (E2 : evolve st Kop r r2).
  { eapply ev_ok; [|exact H2]. unfold Operations.operation_class, bases_or_default, Kop. ev_go. }
  assert (S2 : same_maps r r2) by (eapply evolve_same; [| | |exact E2]; cbn; intuition discriminate).
  apply (root_items c st s add) in H4 as [_ S4].
  assert (E5 : evolve st Kop r4 r5).
  { eapply ev_ok; [|exact H5]. unfold Kop. destruct (snd acc) as [|[|[] ?] [|]]; ev_go. }
  assert (E6 : evolve st Kop r5 r6).
  { eapply ev_ok; [|exact H6]. unfold Kop. eapply ev_incl; [|apply ev_replace]. intros ? []. }
  assert (S6 : same_maps r r6).
  { eapply same_trans; [exact S2|]. eapply same_trans; [exact S4|].
    eapply same_trans; (eapply evolve_same; [| | |eassumption]; cbn; intuition discriminate). }
  unfold arguments_class in H7. rewrite HA in H7. mb H7 afs ra Ha. mb H7 ac rb Hb. mb H7 ab rc Hc. apply ret_ok in H7 as [-> _].
  unfold bases_or_default in Hc. apply import_bases_spec in Hc.
  assert (EA : exists e, ac = [SAssign (EName "model_config") (ECall (EName "ConfigDict") [] [(Some "populate_by_name", e)])]).
  { unfold generate_arguments_config in Hb. mb Hb u' rd Hd. apply ret_ok in Hb as [-> _]. eauto. }
  destruct EA as (ae & ->).
  pose proof (argument_fields_ok _ _ _ _ _ _ HN Ha) as FA. pose proof (argument_classes _ _ _ _ _ _ HN Ha) as FC.
  assert (SA : forall x, In x afs -> exists n a v, x = SAnn n a v).
  { clear - Ha. eapply (mmap_inv _ (fun _ => True)) with (Q := fun v x => exists n a v, x = SAnn n a v) in Ha as [_ F]; [|exact I|].
    { induction F as [|x y l l' Hy F IH]; intros z Hz; [contradiction|]. destruct Hz as [<-|Hz]; auto. }
    intros x r1 y r2 _ _ Hy. split; [exact I|]. unfold argument_field in Hy. cbn zeta in Hy. mb Hy q1 s1 Q1. mb Hy q2 s2 Q2. mb Hy q3 s3 Q3. mb Hy q4 s4 Q4. mb Hy q5 s5 Q5. apply ret_ok in Hy as [-> _]. eauto. }
  exists (snd cb). do 3 eexists. split; [apply in_or_app; right; left; rewrite <- K1; reflexivity|]. split; [|split; [|split; [|split]]].
  - exists ([docstring (if truthy (if o_extract_documentation pc then doc_of o else None) then opt_str (if o_extract_documentation pc then doc_of o else None) else "No documentation found for this operation.")] ++ List.concat (snd acc)).
    do 2 eexists. split; [rewrite <- app_assoc; reflexivity|]. cbn [app binds flat_map]. intros Hi. cbn in Hi. destruct Hi as [Hi|Hi]; [discriminate|].
    destruct (config_binds _ _ _ _ _ _ H8 _ Hi); discriminate.
  - unfold class_fields. cbn [flat_map app]. fold (class_fields (afs ++ [SAssign (EName "model_config") (ECall (EName "ConfigDict") [] [(Some "populate_by_name", ae)])])). rewrite class_fields_app, app_nil_r.
    clear - FA S6. induction FA; constructor; [|assumption]. eapply argument_ok_same; eassumption.
  - intros v Hv. destruct (FC v Hv) as (k & Hk). exists k. now apply (class_for_same st r r6).
  - exact Hc.
  - intros Hx. unfold config_entries in Hx. cbn [flat_map app] in Hx. change (config_entries_of (docstring ("Arguments for " +s+ name +s+ " "))) with (@nil (string * const)) in Hx.
    cbn [app] in Hx. rewrite flat_map_app in Hx. apply in_app_or in Hx as [Hx|Hx].
    + apply in_flat_map in Hx as (y & Hy & Hx). destruct (SA _ Hy) as (n & a & v & ->). contradiction.
    + cbn in Hx. destruct ae; cbn in Hx; intuition discriminate.
Qed.

(** ** The registry when the operations are generated *)
Definition sure (c : gconfig) (st : list styler) (s : schema) (r : reg) : Prop :=
  r_scalars r = r_scalars (init_reg c) /\ names_styled st r
  /\ (forall n k, dget n (r_inputs r) = Some k -> In n (input_names s)) /\ (forall n k, dget n (r_enums r) = Some k -> In n (enum_names s)).
Lemma sure_same : forall c st s K r r', evolve st K r r' -> ~ In KSca K -> ~ In KInp K -> ~ In KEnu K -> sure c st s r -> sure c st s r'.
Proof.
  intros c st s K r r' V H1 H2 H3 (A & B & C & D). unfold sure. rewrite (frame_scalars _ _ _ _ H1 V), (frame_inputs _ _ _ _ H2 V), (frame_enums _ _ _ _ H3 V).
  repeat split; auto; apply (names_styled_evolve _ _ _ _ V B).
Qed.
Lemma sure_start : forall c st ec ic s docs t0 r0 t1 r1, enums_plugin c st ec s docs (init_reg c) = (Ok t0, r0) -> inputs_plugin c st ic s docs r0 = (Ok t1, r1) -> sure c st s r1.
Proof.
  intros c st ec ic s docs t0 r0 t1 r1 H0 H1.
  assert (VE : evolve st [KEnu; KImp] (init_reg c) r0) by (eapply ev_ok; [apply ev_enums_plugin|exact H0]).
  assert (VI : evolve st inputs_kinds r0 r1) by (eapply ev_ok; [apply ev_inputs_plugin|exact H1]).
  destruct (enums_named _ _ _ _ _ _ _ _ H0) as (ks & EK & _ & _ & FK). destruct (inputs_named _ _ _ _ _ _ _ _ H1) as (ks' & EK' & _ & _ & FK').
  assert (EI : r_inputs r0 = r_inputs (init_reg c)) by (eapply (frame_inputs st [KEnu; KImp]); [cbn; intuition discriminate|exact VE]).
  assert (EE : r_enums r1 = r_enums r0) by (eapply (frame_enums st inputs_kinds); [cbn; intuition discriminate|exact VI]).
  split; [|split; [|split]].
  - etransitivity; [eapply (frame_scalars st inputs_kinds); [cbn; intuition discriminate|exact VI]|]. eapply (frame_scalars st [KEnu; KImp]); [cbn; intuition discriminate|exact VE].
  - eapply names_styled_evolve; [exact VI|]. eapply names_styled_evolve; [exact VE|apply names_styled_init].
  - intros n k Hk. apply dget_Some_In in Hk. apply (in_map fst) in Hk. fold (dkeys (r_inputs r1)) in Hk. rewrite EK', EI in Hk. cbn in Hk. rewrite Forall_forall in FK'. now apply FK'.
  - intros n k Hk. rewrite EE in Hk. apply dget_Some_In in Hk. apply (in_map fst) in Hk. fold (dkeys (r_enums r0)) in Hk. rewrite EK in Hk. cbn in Hk. rewrite Forall_forall in FK. now apply FK.
Qed.
(** the class an annotation names is that of the type *)
Lemma sure_leaf : forall c st s r b1 b2 vars v, NoDup (dkeys (s_types s)) -> no_helper_enum s -> modelled_variables s st b1 b2 (fun n => exists p, dget n (r_scalars (init_reg c)) = Some p) vars ->
  In v vars -> sure c st s r -> (exists k, class_for st r (gty_name (v_type v)) k) ->
  forall k, class_for st r (gty_name (v_type v)) k <-> input_leaf s (r_scalars (init_reg c)) st (gty_name (v_type v)) k.
Proof.
  intros c st s r b1 b2 vars v NDS HB MV Hv (ES & (NI & NE & _) & RI & RE) HEX.
  assert (TO : forall k, class_for st r (gty_name (v_type v)) k -> input_leaf s (r_scalars (init_reg c)) st (gty_name (v_type v)) k).
  { pose proof (mv_input_side _ _ _ _ _ _ MV v Hv) as (td & G & K). pose proof (mv_scalars _ _ _ _ _ _ MV v Hv) as HS. pose proof (mv_enums _ _ _ _ _ _ MV v Hv) as HE. pose proof (mv_inputs _ _ _ _ _ _ MV v Hv) as HI.
    set (n := gty_name (v_type v)) in *. unfold input_leaf. rewrite G. destruct td as [dd|dd vs| | | |dd fs dirs]; try contradiction.
    - destruct (HS (ex_intro _ dd G)) as (p & Hp). intros k Hk. rewrite <- ES in Hp. destruct Hk as [p' E|k' E _|E|k' E]; rewrite Hp in E; try discriminate E.
      injection E as <-. exists p. split; [now rewrite <- ES|reflexivity].
    - destruct (HE (ex_intro _ dd (ex_intro _ vs G))) as (E1 & _ & _ & E2 & E3). intros k Hk. unfold enum_type_class. rewrite E1.
      destruct Hk as [p' E|k' E E'|E E' Hb|k' E E' _ _].
      + exfalso. apply E2. exists p'. now rewrite <- ES.
      + exfalso. apply E3. eapply RI; exact E'.
      + exfalso. pose proof (HB _ _ _ G) as NB. unfold introspection_enum in E1. apply orb_false_iff in E1 as [E4 E5]. cbn in Hb. destruct Hb as [Hb|[Hb|Hb]]; [rewrite <- Hb in E4; discriminate|rewrite <- Hb in E5; discriminate|]. apply NB. cbn. tauto.
      + reflexivity.
    - destruct (HI (ex_intro _ dd (ex_intro _ fs (ex_intro _ dirs G)))) as (E1 & E2). intros k Hk. destruct Hk as [p' E|k' E E'|E E' Hb|k' E E' _ H3].
      + exfalso. apply E1. exists p'. now rewrite <- ES.
      + now apply NI.
      + contradiction.
      + exfalso. apply RE in H3. apply in_flat_map in H3 as ([n' td] & Hn & H3). cbn [fst snd] in H3. destruct td; try contradiction. destruct H3 as [<-|[]].
        apply (dget_In_NoDup n' _ _ NDS) in Hn. unfold get_type in G. congruence. }
  intros k. split; [apply TO|]. intros Hl. destruct HEX as (k0 & Hk0). pose proof (TO _ Hk0) as Hl0. assert (k = k0) as ->; [|exact Hk0].
  clear - Hl Hl0. unfold input_leaf in *. destruct (get_type s _) as [[]|]; try contradiction; try congruence. destruct Hl as (p & E & ->), Hl0 as (p' & E' & ->). congruence.
Qed.

Theorem variable_values : forall c st ec ic fc oc s d pf po add doc_of py sc iter a b e f rest skip t,
  NoDup (dkeys (s_types s)) -> no_helper_enum s -> enum_values_named s -> unique_names d ->
  modelled_inputs s st (ic_skip_underscore ic) (ec_skip_underscore ec) (ec_skip_double_underscore ec) (fun n => exists p, dget n (r_scalars (init_reg c)) = Some p) ->
  generate_ast c iter (Plugin a (enums_plugin c st ec s (Ok d)) :: Plugin b (inputs_plugin c st ic s (Ok d))
    :: Plugin e (fragments_plugin c st s fc pf add d) :: Plugin f (operations_plugin c st s oc po add doc_of d) :: rest) skip = Ok t ->
  NoDup (owned t) -> o_create_arguments oc = true ->
  (forall b, configured_base c (ic_bases ic ++ o_arguments_bases oc) b -> ~ In (last_comp b) (owned t) /\ last_comp b <> "Enum") ->
  (forall n p, dget n (r_scalars (init_reg c)) = Some p -> ~ In (last_comp p) (owned t) /\ (forall v, py (last_comp p) v <-> sc n v) /\ ~ sc n RNull) ->
  forall o name, In o (operations_of d) -> op_name o = Some name ->
  modelled_variables s st (ec_skip_underscore ec) (ec_skip_double_underscore ec) (fun n => exists p, dget n (r_scalars (init_reg c)) = Some p) (op_vars o) ->
  exists bases body abases abody, Spec_Response.class_of t (Spec_Funcs.operation_class st (op_kind o) name) bases body /\ nested body "Arguments" abases abody
    /\ (forall kvs, valid_variables s sc (op_vars o) kvs -> sends t py abases abody kvs)
    /\ (defaults_nullable s -> variable_defaults_nullable (op_vars o) -> (forall m, is_input s m -> ~ extra_allowed c m) ->
         forall kvs, sends t py abases abody kvs -> valid_variables s sc (op_vars o) kvs).
Proof.
  intros c st ec ic fc oc s d pf po add doc_of py sc iter a b e f rest skip t NDS HB HEV UN MI H NDT HA Hbases KS o name Ho EN MV.
  set (typed := fun n => exists p, dget n (r_scalars (init_reg c)) = Some p) in *.
  set (G0 := fun n => field_type s n \/ exists v, In v (op_vars o) /\ n = gty_name (v_type v)).
  assert (KV : forall v, In v (op_vars o) -> keeps c ec ic s d G0 (gty_name (v_type v))).
  { intros v Hv. split; [|right; right; eauto]. intros _. apply needs_root. exists o, v. split; [now apply P_Mro5.in_operations|auto]. }
  assert (HBI : forall b, configured_base c (ic_bases ic) b -> ~ In (last_comp b) (owned t) /\ last_comp b <> "Enum").
  { intros b' [X|[X|[X|X]]]; apply Hbases; unfold configured_base; rewrite ?in_app_iff; tauto. }
  pose proof (fun ty => kept_values c st ec ic s d py sc G0 iter a b _ skip t NDS HB HEV UN MI H NDT HBI KS (fun n Hn => or_introl Hn)
    (fun n He Hn => match Hn with or_introl Hf => mi_enums _ _ _ _ _ _ MI n He Hf
       | or_intror Hv => match Hv with ex_intro _ v (conj Hv E) => ltac:(rewrite E in He |- *; destruct (mv_enums _ _ _ _ _ _ MV v Hv He) as (X & Y & Z & _); auto) end end)
    (fun n He Hn => match Hn with or_introl Hf => mi_scalars _ _ _ _ _ _ MI n He Hf
       | or_intror Hv => match Hv with ex_intro _ v (conj Hv E) => ltac:(rewrite E in He |- *; exact (mv_scalars _ _ _ _ _ _ MV v Hv He)) end end) ty) as KEPT.
  unfold generate_ast in H. cbn [run_plugins pl_generate pl_name] in H.
  destruct (enums_plugin c st ec s (Ok d) (init_reg c)) as [[t0|] r0] eqn:H0; [|discriminate].
  destruct (inputs_plugin c st ic s (Ok d) r0) as [[t1|] r1] eqn:H1; [|discriminate].
  destruct (fragments_plugin c st s fc pf add d r1) as [[t2|] r2] eqn:H2; [|discriminate].
  destruct (operations_plugin c st s oc po add doc_of d r2) as [[t3|] r3] eqn:H3; [|discriminate].
  destruct (run_plugins rest r3 _) as [[tree rr]|] eqn:HR; [|discriminate]. cbn [rbind] in H.
  destruct (generate_builtins iter rr) as [bs|] eqn:HBS; [|discriminate]. cbn [rbind] in H. injection H as Et.
  destruct (run_plugins_prefix _ _ _ _ HR) as (post0 & EP). cbn [fst app] in EP. subst tree.
  assert (I3 : incl t3 t) by (rewrite <- Et; intros x Hx; rewrite !in_app_iff; tauto).
  clear Et HBS HR bs post0.
  assert (SU : sure c st s r2).
  { eapply (sure_same c st s Kfr); [eapply ev_ok; [apply fragments_same|exact H2]|cbn; intuition discriminate|cbn; intuition discriminate|cbn; intuition discriminate|]. eapply sure_start; eassumption. }
  assert (NM : Forall (fun v => Spec_Annot.named st (gty_name (v_type v))) (op_vars o)) by (apply Forall_forall; apply (mv_named _ _ _ _ _ _ MV)).
  assert (Z : exists r l r', sure c st s r /\ generate_operation c st s oc po add doc_of o r = (Ok l, r') /\ incl l t3).
  { unfold operations_plugin in H3.
    pose proof (P_Scope8.mconcat_steps _ (fun pre ys r => sure c st s r /\ forall o, In o pre -> exists r l r', sure c st s r /\ generate_operation c st s oc po add doc_of o r = (Ok l, r') /\ incl l ys) _ _ _ _ H3) as P. cbv beta in P.
    destruct P as [_ P]; [split; [exact SU|intros ? []]| |exact (P o Ho)].
    intros pre o' post ys ra y rb _ [SA PA] Hy. split.
    - eapply (sure_same c st s Kop); [eapply ev_ok; [apply ev_generate_operation|exact Hy]|cbn; intuition discriminate|cbn; intuition discriminate|cbn; intuition discriminate|exact SA].
    - intros o2 Ho2. apply in_app_or in Ho2 as [Ho2|[<-|[]]].
      + destruct (PA _ Ho2) as (r & l & r' & X & Y & W). exists r, l, r'. split; [exact X|]. split; [exact Y|]. intros z Hz. apply in_or_app. left. auto.
      + exists ra, y, rb. split; [exact SA|]. split; [exact Hy|]. intros z Hz. apply in_or_app. now right. }
  destruct Z as (r & l & r' & SR & HG & HL).
  destruct (operation_arguments _ _ _ _ _ _ _ _ _ _ _ _ NM HA EN HG) as (bases & body & abases & abody & Hin & HN & FA & FC & EB & NX).
  exists bases, body, abases, abody. split; [exists []; apply I3, HL, Hin|]. split; [exact HN|].
  assert (LEAF : forall v, In v (op_vars o) -> forall x, inhab false (class_for st r) (v_type v) x <-> inhab false (input_leaf s (r_scalars (init_reg c)) st) (v_type v) x).
  { intros v Hv. apply inhab_ext. eapply sure_leaf; eauto. }
  assert (OUT : forall x, In x abases -> exists p, x = EName p /\ ~ In p (owned t)).
  { rewrite EB. intros x Hx. apply in_map_iff in Hx as (b' & <- & Hb). eexists. split; [reflexivity|]. apply Hbases. unfold configured_base. rewrite in_app_iff. destruct (o_arguments_bases oc); auto. }
  assert (EN2 : map (fun g : string * expr * option expr => fst (fst g)) (class_fields abody) = map (fun v => style_with sty_parameter st (v_name v)) (op_vars o)).
  { clear - FA. induction FA as [|x y l m FO F IH]; [reflexivity|]. cbn. rewrite IH. f_equal. apply (ao_name _ _ _ _ FO). }
  assert (NDF : NoDup (map (fun g : string * expr * option expr => fst (fst g)) (class_fields abody))) by (rewrite EN2; apply (mv_attributes _ _ _ _ _ _ MV)).
  assert (MF : forall g, In g (class_fields abody) -> model_field (fst (fst g))).
  { intros g Hg. destruct (Forall2_r _ _ _ _ FA Hg) as (v & Hv & FO). rewrite (ao_name _ _ _ _ FO). now apply (mv_fields _ _ _ _ _ _ MV). }
  assert (NF : forall g, nested_field t abases abody g <-> In g (class_fields abody)).
  { intros g. split.
    - intros Hg. destruct Hg as [n g HL' _|b' g Hb _ HF]; [eapply last_field_inv; exact HL'|]. exfalso. destruct (OUT _ Hb) as (p & [= <-] & NP). inversion HF; subst; apply NP; eapply class_owned; eassumption.
    - intros Hg. apply (nf_own t abases abody (fst (fst g))); [now apply last_field_in|]. apply (MF _ Hg). }
  assert (NXT : ~ nested_extra t abases abody).
  { intros [X|(b' & Hb & X)]; [exact (NX X)|]. destruct (OUT _ Hb) as (p & [= <-] & NP). inversion X; subst; apply NP; eapply class_owned; eassumption. }
  assert (NDV : NoDup (map v_name (op_vars o))).
  { pose proof (mv_attributes _ _ _ _ _ _ MV) as ND. rewrite <- (map_map v_name (fun x => style_with sty_parameter st x)) in ND. now apply NoDup_map_inv in ND. }
  split.
  - intros kvs (ND & HK & HV & HM). split; [|split; [exact ND|split]].
    + intros n an v Hn. destruct (MF _ Hn) as [P1 P2]. split; [exact P2|]. intros P. contradiction.
    + intros k v Hv. left. destruct (HK _ _ Hv) as (x & Hx & <-). destruct (Forall2_l _ _ _ _ FA Hx) as ([[n an] val] & Hin2 & FO). exists n, an, val.
      split; [now apply NF|]. split; [apply (ao_wire _ _ _ _ FO)|]. destruct (proj1 (KEPT (v_type x) (KV _ Hx)) v (HV _ _ _ Hv Hx eq_refl)) as (y & Hy & Hd).
      destruct (retup _ _ _ _ false _ _ _ Hy Hd) as (y' & Hy' & Hd' & _). econstructor; [|exact Hd']. apply (ao_type _ _ _ _ FO). left. now apply LEAF.
    + intros n an val Hf Hno. apply NF in Hf. destruct (Forall2_r _ _ _ _ FA Hf) as (x & Hx & FO). apply (ao_omit _ _ _ _ FO). pose proof (ao_wire _ _ _ _ FO) as W. unfold wire in W. cbn [fst snd] in W. rewrite W in Hno.
      unfold omittable. destruct (HM _ Hx Hno); auto.
  - intros HD HDV HX kvs (_ & ND & HK & HM).
    assert (KEY : forall k v, In (k, v) kvs -> exists x, In x (op_vars o) /\ v_name x = k /\ valid_input s sc (v_type x) v).
    { intros k v Hv. destruct (HK _ _ Hv) as [(n & an & val & Hf & W & HH)|X]; [|contradiction]. apply NF in Hf. destruct (Forall2_r _ _ _ _ FA Hf) as (x & Hx & FO).
      exists x. split; [exact Hx|]. pose proof (ao_wire _ _ _ _ FO) as W'. unfold wire in W'. cbn [fst snd] in W'. split; [congruence|].
      destruct HH as [an y v Hac Hd]. apply (ao_type _ _ _ _ FO) in Hac. assert (Hi : inhab false (input_leaf s (r_scalars (init_reg c)) st) (v_type x) y).
      { destruct Hac as [Hac|[-> Hom]]; [now apply (LEAF x Hx)|]. apply inhab_null'. destruct Hom as [Hom|Hom]; [apply HDV; assumption|exact Hom]. }
      destruct (retup _ _ _ _ (tuple_for_inputs c) _ _ _ Hi Hd) as (y' & Hy' & Hd' & _). apply (proj2 (KEPT (v_type x) (KV _ Hx)) HD HX y' v Hy' Hd'). }
    split; [exact ND|]. split; [|split].
    + intros k v Hv. destruct (KEY _ _ Hv) as (x & Hx & E & _). eauto.
    + intros k v x Hv Hx E. destruct (KEY _ _ Hv) as (x' & Hx' & E' & HV). assert (x = x'); [|now subst].
      clear - NDV Hx Hx' E E'. rewrite <- E' in E. clear E'. induction (op_vars o) as [|z l IH]; [contradiction|]. cbn in NDV. inversion NDV as [|? ? N1 N2]; subst.
      destruct Hx as [->|Hx], Hx' as [->|Hx']; auto; exfalso; apply N1; [rewrite E|rewrite <- E]; now apply in_map.
    + intros x Hx Hno. destruct (Forall2_l _ _ _ _ FA Hx) as ([[n an] val] & Hin2 & FO). pose proof (ao_wire _ _ _ _ FO) as W'. unfold wire in W'. cbn [fst snd] in W'.
      specialize (HM n an val (proj2 (NF _) Hin2)). rewrite W' in HM. specialize (HM Hno). apply (ao_omit _ _ _ _ FO) in HM. destruct HM; auto.
Qed.
