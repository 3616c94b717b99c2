(** Names looked up by a server scaffold: classes and the plugin. *)
From Verif Require Import Base PyAst Gql Config Stylers Registry Utils Recurse Objects Strawberry Run
  Spec_Types Spec_Inputs Spec_Imports Spec_Scope Spec_Scaffold Spec_Syntax3 Spec_Scope3 P_Base P_Monad P_Types P_Inputs P_Imports P_Scope P_Scope2 P_Scope4 P_Mro2 P_Scaffold P_Scope11.
Arguments register_import : simpl never.

(** ** [scoped_paths] *)
Lemma paths_mono : forall l (E E' : string -> Prop), (forall n, E n -> E' n) -> scoped_paths E l -> scoped_paths E' l.
Proof.
  induction l as [|x l IH]; intros E E' HE H; [exact I|]. destruct H as [H1 H2]. split.
  - intros n Hn. destruct (H1 n Hn); auto.
  - eapply IH; [|exact H2]. cbn. intros n [Hn|Hn]; auto.
Qed.
Lemma paths_app : forall a b (E : string -> Prop),
  scoped_paths E (a ++ b) <-> scoped_paths E a /\ scoped_paths (fun n => E n \/ In n (binds a)) b.
Proof.
  induction a as [|x a IH]; intros b E; cbn [app scoped_paths].
  - split; [intros H; split; [exact I|]|intros [_ H]]; (eapply paths_mono; [|exact H]); cbn; tauto.
  - rewrite IH. split.
    + intros (H1 & H2 & H3). split; [auto|]. eapply paths_mono; [|exact H3]. cbn. intros n; rewrite in_app_iff; tauto.
    + intros ((H1 & H2) & H3). split; [auto|]. split; [exact H2|]. eapply paths_mono; [|exact H3]. cbn. intros n; rewrite in_app_iff; tauto.
Qed.
Lemma scoped_paths_of : forall l (E : string -> Prop), scoped E l -> scoped_paths E l.
Proof. induction l as [|x l IH]; intros E H; [exact I|]. destruct H as [H1 H2]. split; [auto|now apply IH]. Qed.

Lemma evolve_nil : forall st r r', evolve st [] r r' -> r' = r.
Proof. intros st r r' H. apply (evolve_inv st [] (fun x => x = r)) in H; [exact H| |reflexivity]. intros k a b []. Qed.

Section Plugin.
Variables (bi : list string) (c : gconfig) (st : list styler) (s : schema) (ds : list directivedef) (ap : string -> list directive) (pc : sbcfg).
Hypothesis Hbi : incl simple_types bi.
Hypothesis Hnone : In "None" bi.
Hypothesis Hdirs : directives_declared s ds ap pc.
Hypothesis Hproper : interfaces_proper s.
Hypothesis Hbases : forall b, In b (sb_inputtype_bases pc) -> In (last_comp b) bi.
Notation given := (given bi).
Definition quotable (n : string) : Prop :=
  exists k t m, In (k, t) (s_types s) /\ generated pc k t /\ reaches s t m /\ target_of st s m n.

Record ok (tree : list stmt) (r : reg) : Prop := Good {
  o_inv : forall key cls, inv bi st (binds tree) key cls r;
  o_enums : forall k n, dget k (r_enums r) = Some n -> In n (binds tree);
  o_inputs : forall k n, dget k (r_inputs r) = Some n -> In n (binds tree);
  o_objects : forall k n, dget k (r_objects r) = Some n -> In n (binds tree);
  o_ifaces : forall k n, dget k (r_iface_base r) = Some n -> In n (binds tree);
  o_fwd : forall n, In n (r_fwd r) -> In n (binds tree);
  o_scoped : scoped_paths (given r) tree;
  o_builtins : forall k, In k (r_builtins r) -> exists n t, In (n, t) (s_types s) /\ generated pc n t /\ reaches s t k;
  o_quotes : forall name bases body decs x n, In (SClass name bases body decs) tree -> In x body -> In n (member_quotes x) -> given r n \/ quotable n }.

(** a class was made *)
Definition made (B : list string) (key cls : string) (W : string -> Prop) (r r' : reg) (y : list stmt) : Prop :=
  inv bi st B key cls r' /\ rle r r' /\ (forall n, In n (r_fwd r') -> In n (r_fwd r) \/ n = cls)
  /\ (forall k, In k (r_builtins r') -> In k (r_builtins r) \/ W k)
  /\ exists bases body decs, y = [SClass cls bases body decs] /\ covers bi B r' (runs (SClass cls bases body decs))
     /\ quotes_ok bi st s W r' (flat_map member_quotes body).
Lemma ok_made : forall tree key cls (W : string -> Prop) r r' y,
  (forall m, W m -> exists n t, In (n, t) (s_types s) /\ generated pc n t /\ reaches s t m) ->
  ok tree r -> made (binds tree) key cls W r r' y -> ok (tree ++ y) r'.
Proof.
  intros tree key cls W r r' y HW O (I1 & L & F & U & bases & body & decs & -> & C & Q).
  assert (E : forall n, In n (binds tree) \/ n = cls -> In n (binds (tree ++ [SClass cls bases body decs]))).
  { intros n Hn. rewrite binds_app, in_app_iff. cbn. destruct Hn as [Hn|<-]; auto. }
  assert (Oe : forall k n, dget k (r_enums r') = Some n -> In n (binds (tree ++ [SClass cls bases body decs]))) by (intros k n H; apply E, (i_enums _ _ _ _ _ _ I1 _ _ H)).
  assert (Oi : forall k n, dget k (r_inputs r') = Some n -> In n (binds (tree ++ [SClass cls bases body decs]))) by (intros k n H; apply E, (i_inputs _ _ _ _ _ _ I1 _ _ H)).
  assert (Oo : forall k n, dget k (r_objects r') = Some n -> In n (binds (tree ++ [SClass cls bases body decs]))) by (intros k n H; apply E, (i_objects _ _ _ _ _ _ I1 _ _ H)).
  assert (Of : forall k n, dget k (r_iface_base r') = Some n -> In n (binds (tree ++ [SClass cls bases body decs]))) by (intros k n H; apply E; destruct (i_ifaces _ _ _ _ _ _ I1 _ _ H) as [K|[_ K]]; auto).
  split; auto.
  - intros k0 c0. split; eauto.
    + intros k t H D. destruct (i_scalars _ _ _ _ _ _ I1 _ _ H D); auto.
    + exact (i_styled _ _ _ _ _ _ I1).
    + exact (i_strawberry _ _ _ _ _ _ I1).
  - intros n Hn. apply E. destruct (F n Hn) as [K|K]; [left; now apply (o_fwd _ _ O)|now right].
  - apply paths_app. split; [eapply paths_mono; [|exact (o_scoped _ _ O)]; intros n; now apply given_rle|]. split; [|exact I].
    intros n Hn. exact (C n Hn).
  - intros k Hk. destruct (U k Hk) as [K|K]; [exact (o_builtins _ _ O k K)|auto].
  - intros name b bo de x n Hin Hx Hn. apply in_app_iff in Hin as [Hin|[Hin|[]]].
    + destruct (o_quotes _ _ O _ _ _ _ _ _ Hin Hx Hn) as [K|K]; [left; eapply given_rle; eassumption|now right].
    + injection Hin as -> -> -> ->. destruct (Q n) as [K|(m & K & T)]; [apply in_flat_map; eauto|now left|]. right.
      destruct (HW m K) as (k & t & H1 & H2 & H3). exists k, t, m. auto.
Qed.
(** nothing was made *)
Lemma ok_still : forall tree r r', ok tree r -> evolve st [KImp] r r' -> ok tree r'.
Proof.
  intros tree r r' O E. assert (L : rle r r') by (eapply evolve_rle; exact E).
  assert (N : forall k, In k [KEnu; KInp; KObj; KIfa; KSca; KFwd; KBui] -> ~ In k [KImp]) by (cbn; intuition (subst; discriminate)).
  assert (Ee := frame_enums _ _ _ _ (N KEnu ltac:(cbn; tauto)) E). assert (Ei := frame_inputs _ _ _ _ (N KInp ltac:(cbn; tauto)) E).
  assert (Eo := frame_objects _ _ _ _ (N KObj ltac:(cbn; tauto)) E). assert (Ef := frame_iface _ _ _ _ (N KIfa ltac:(cbn; tauto)) E).
  assert (Es := frame_scalars _ _ _ _ (N KSca ltac:(cbn; tauto)) E). assert (Ew := frame_fwd _ _ _ _ (N KFwd ltac:(cbn; tauto)) E).
  assert (Eb := frame_builtins _ _ _ _ (N KBui ltac:(cbn; tauto)) E).
  destruct O as [O1 O2 O3 O4 O5 O6 O7 O8 O9]. split; rewrite ?Ee, ?Ei, ?Eo, ?Ef, ?Ew, ?Eb; auto.
  - intros key cls. destruct (O1 key cls) as [I1 I2 I3 I4 I5 I6 I7]. split; rewrite ?Ee, ?Ei, ?Eo, ?Ef, ?Es; auto.
    + eapply names_styled_evolve; eassumption.
    + eapply given_rle; eassumption.
  - eapply paths_mono; [|exact O7]. intros n. now apply given_rle.
  - intros name b bo de x n Hin Hx Hn. destruct (O9 _ _ _ _ _ _ Hin Hx Hn) as [K|K]; [left; eapply given_rle; eassumption|now right].
Qed.

(** the declared directives are bound *)
Definition have_directives (tree : list stmt) : Prop :=
  forall d, In d ds -> sb_directives pc = true -> ~ In (dd_name d) (sb_builtin_directives pc) -> hidden pc (dd_name d) = false -> In (dd_name d) (binds tree).
Lemma have_app : forall a b, have_directives a -> have_directives (a ++ b).
Proof. intros a b H d H1 H2 H3 H4. rewrite binds_app. apply in_app_iff. left. now apply H. Qed.
Lemma declared_ok : forall tree l, have_directives tree -> declared ds pc l -> dirs_ok pc (binds tree) l.
Proof.
  intros tree l HH HD d Hd. destruct (in_dec String.string_dec (dir_name d) (sb_builtin_directives pc)) as [K|K]; [now left|]. right.
  destruct (HD d Hd) as [X|(X1 & X2 & (dd & X3 & X4) & X5)]; [contradiction|]. split; [|exact X5]. rewrite <- X4 in *. now apply HH.
Qed.

(** ** One class of each sort *)
Lemma move_facts : forall cls W r r', move st cls W r r' -> rle r r' /\ (forall n, In n (r_fwd r') -> In n (r_fwd r) \/ n = cls)
  /\ (forall k, In k (r_builtins r') -> In k (r_builtins r) \/ W k).
Proof. intros cls W r r' M. split; [eapply move_rle; exact M|]. destruct M as [S U]. split; [exact (step_fwd _ _ _ _ S)|exact U]. Qed.
Ltac same_facts := split; [|split; [intros; now left|intros; now left]].

Lemma directive_made : forall tree d r y r', ok tree r -> given r "Location" -> directive_class c st s pc d r = (Ok y, r') ->
  (y = [] /\ r' = r) \/ made (binds tree) "" (dd_name d) (fun _ => False) r r' y.
Proof.
  intros tree d r y r' O GL H. unfold directive_class in H. destruct (skipped pc (dd_name d)); [apply ret_ok in H; left; tauto|right].
  assert (I := o_inv _ _ O "" (dd_name d)). set (W := fun _ : string => False).
  apply bind_ok in H as (fs & r1 & H1 & H). apply bind_ok in H as (cf & r2 & H2 & H). apply ret_ok in H as [-> ->].
  destruct (at_mconcat bi st s (binds tree) "" (dd_name d) W _ _ (fun x ra _ Ia => directive_arg_at bi st s Hbi _ _ _ W ra x Ia) r I _ _ H1) as [M1 B1].
  destruct (config_at bi c st s Hbi (binds tree) "" (dd_name d) W r1 _ _ _ _ H2) as [M2 B2].
  assert (M := move_trans _ _ _ _ _ _ M1 M2). destruct (move_facts _ _ _ _ M) as (L & F & U).
  split; [eapply move_inv; [exact M|exact I]|]. split; [exact L|]. split; [exact F|]. split; [exact U|]. do 3 eexists. split; [reflexivity|].
  assert (B3 : body_ok bi st s (binds tree) W r2 ((match fs with [] => [SPass] | _ => fs end) ++ cf)).
  { apply body_app; [|exact B2]. destruct fs; [split; [apply covers_nil|apply quotes_nil]|]. eapply body_rle; [eapply move_rle; exact M2|exact B1]. }
  destruct B3 as [B3 B4]. split; [|exact B4]. cbn [runs flat_map app loads]. apply covers_cons; [|apply covers_app; split; [|exact B3]].
  - eapply strawberry_known; [eapply move_inv; [exact M|exact I]|reflexivity].
  - intros n Hn. rewrite app_nil_r in Hn. cbn in Hn. rewrite app_nil_r in Hn. apply in_flat_map in Hn as (e & He & Hn). apply in_map_iff in He as (l & <- & _). destruct Hn as [<-|[]].
    left. left. eapply given_rle; [exact L|exact GL].
Qed.
Lemma decorate_covers : forall B r n kws, known bi B r n -> covers bi B r (kws_loads kws) -> covers bi B r (flat_map loads [decorate n kws]).
Proof.
  intros B r n kws K C. cbn. rewrite app_nil_r. unfold decorate. destruct kws as [|k l]; cbn [loads flat_map app]; (apply covers_cons; [exact K|]); [apply covers_nil|exact C].
Qed.
Lemma enum_made : forall tree key d vs r y r', ok tree r -> have_directives tree -> declared ds pc (ap key) -> generate_enum_class st ap pc key d vs r = (Ok y, r') ->
  (y = [] /\ r' = r) \/ made (binds tree) key (style_enum_class st key) (fun _ => False) r r' y.
Proof.
  intros tree key d vs r y r' O HH HD H. unfold generate_enum_class in H. set (cls := style_enum_class st key). set (W := fun _ : string => False).
  apply bind_ok in H as (kws & r1 & H1 & H). destruct (dirkws_at bi st pc (binds tree) cls W r _ (declared_ok _ _ HH HD) _ _ H1) as [_ K1].
  assert (E1 : r1 = r). { apply (evolve_nil st). eapply ev_ok; [apply (ev_dirkws st pc)|exact H1]. }
  subst r1. destruct (skipped pc key); [apply ret_ok in H; left; tauto|right]. assert (I := o_inv _ _ O key cls).
  apply bind_ok in H as (cn & r2 & H2 & H). cbn zeta in H. apply bind_ok in H as (u & r3 & H3 & H). apply ret_ok in H as [-> ->].
  assert (E2 : evolve st [KEnu] r r2) by (eapply ev_ok; [|exact H2]; ev_tac). assert (S2 := names_styled_evolve _ _ _ _ E2 (i_styled _ _ _ _ _ _ I)).
  unfold generate_enum in H2. apply generate_in_spec in H2 as (D & -> & ->).
  assert (I2 : inv bi st (binds tree) key cls (with_enums (dset key cls (r_enums r)) r)).
  { destruct I as [I1 I2 I3 I4 I5 I6 I7]. split; auto. intros k n Hk. cbn in Hk. rewrite dget_dset in Hk. destruct (String.eqb k key); [injection Hk as <-; now right|left; exact (o_enums _ _ O _ _ Hk)]. }
  destruct (at_import bi st Hbi (binds tree) key cls W _ _ _ _ H3) as [M3 K3].
  assert (L2 := evolve_rle _ _ _ _ E2). destruct (move_facts _ _ _ _ M3) as (L3 & F3 & U3).
  assert (L : rle r r3) by (eapply rle_trans; eassumption).
  split; [eapply move_inv; eassumption|]. split; [exact L|]. split; [exact F3|]. split; [exact U3|]. do 3 eexists. split; [reflexivity|].
  assert (BO : body_ok bi st s (binds tree) W r3 (class_docs d ++ flat_map sb_enum_member vs)).
  { apply body_app; [apply docs_body|]. clear. induction vs as [|v vs IH]; [apply body_nil|]. cbn [flat_map]. apply body_app; [|exact IH].
    unfold sb_enum_member; cbn zeta. match goal with |- context [docstring (opt_str ?x)] => destruct (truthy x) end; split; try apply covers_nil; apply quotes_nil. }
  assert (B2 : body_ok bi st s (binds tree) W r3 (match class_docs d ++ flat_map sb_enum_member vs with [] => [SPass] | _ => class_docs d ++ flat_map sb_enum_member vs end)).
  { destruct (class_docs d ++ _); [split; [apply covers_nil|apply quotes_nil]|exact BO]. }
  destruct B2 as [B2 B3]. split; [|exact B3]. cbn [runs]. apply covers_app. split; [apply covers_cons; [exact K3|apply covers_nil]|]. apply covers_app. split; [|exact B2].
  apply decorate_covers; [eapply strawberry_known; [eapply move_inv; [exact M3|exact I2]|reflexivity]|eapply covers_rle; eassumption].
Qed.
Lemma input_made : forall tree key t r y r', ok tree r -> have_directives tree -> declared ds pc (id_dirs t) -> input_class c st s pc key t r = (Ok y, r') ->
  (y = [] /\ r' = r) \/ ((sb_skip_underscore pc && startswith "_" key) = false
    /\ made (binds tree) key (style_inputtype_class st key) (reaches s (TInput (id_desc t) (id_fields t) (id_dirs t))) r r' y).
Proof.
  intros tree key t r y r' O HH HD H. unfold input_class in H. destruct (sb_skip_underscore pc && startswith "_" key) eqn:SK; [apply ret_ok in H; left; tauto|right]. split; [reflexivity|].
  set (cls := style_inputtype_class st key). set (W := reaches s (TInput (id_desc t) (id_fields t) (id_dirs t))). assert (I := o_inv _ _ O key cls).
  apply bind_ok in H as (kws & r1 & H1 & H). destruct (dirkws_at bi st pc (binds tree) cls W r _ (declared_ok _ _ HH HD) _ _ H1) as [_ K1].
  assert (E1 : r1 = r). { apply (evolve_nil st). eapply ev_ok; [apply (ev_dirkws st pc)|exact H1]. }
  subst r1. cbn zeta in H. apply bind_ok in H as (add & r2 & H2 & H). destruct (additional_at bi c st Hbi (binds tree) key cls W r key I _ _ H2) as [M2 K2].
  assert (EV2 : evolve st [KImp] r r2) by (eapply ev_ok; [|exact H2]; ev_tac). assert (O2 := ok_still _ _ _ O EV2). assert (I2 := o_inv _ _ O2 key cls).
  apply bind_ok in H as (cn & r3 & H3 & H). apply bind_ok in H as (fs & r4 & H4 & H). apply bind_ok in H as (cf & r5 & H5 & H). apply ret_ok in H as [-> ->].
  assert (E3 : evolve st [KInp] r2 r3) by (eapply ev_ok; [|exact H3]; ev_tac). assert (S3 := names_styled_evolve _ _ _ _ E3 (i_styled _ _ _ _ _ _ I2)).
  unfold generate_inputtype in H3. apply generate_in_spec in H3 as (D & -> & ->).
  assert (I3 : inv bi st (binds tree) key cls (with_inputs (dset key cls (r_inputs r2)) r2)).
  { destruct I2 as [J1 J2 J3 J4 J5 J6 J7]. split; auto. intros k n Hk. cbn in Hk. rewrite dget_dset in Hk. destruct (String.eqb k key); [injection Hk as <-; now right|left; exact (o_inputs _ _ O2 _ _ Hk)]. }
  destruct (at_mconcat bi st s (binds tree) key cls W (input_field c st s cls) (id_fields t)) with (r := with_inputs (dset key cls (r_inputs r2)) r2) (a := fs) (r' := r4) as [M4 B4]; [|exact I3|exact H4|].
  { intros [k f] ra Hx Ia. apply (input_field_at bi c st s Hbi (binds tree) key cls W ra (k, f) Ia). left. right. exists (id_desc t), (id_fields t), (id_dirs t), k, f. cbn. auto. }
  destruct (config_at bi c st s Hbi (binds tree) key cls W r4 _ _ _ _ H5) as [M5 B5].
  assert (M := move_trans _ _ _ _ _ _ M4 M5). destruct (move_facts _ _ _ _ M) as (L & F & U).
  assert (L2 := evolve_rle _ _ _ _ EV2). assert (L3 := evolve_rle _ _ _ _ E3). assert (L25 : rle r2 r5) by (eapply rle_trans; eassumption). assert (L05 : rle r r5) by (eapply rle_trans; eassumption).
  assert (I5 := move_inv _ _ _ _ _ _ _ _ M I3).
  split; [exact I5|]. split; [exact L05|].
  assert (Fw : r_fwd r2 = r_fwd r) by (eapply frame_fwd; [|exact EV2]; cbn; intuition discriminate).
  assert (Bw : r_builtins r2 = r_builtins r) by (eapply frame_builtins; [|exact EV2]; cbn; intuition discriminate).
  split; [rewrite <- Fw; exact F|]. split; [rewrite <- Bw; exact U|]. do 3 eexists. split; [reflexivity|].
  assert (BO : body_ok bi st s (binds tree) W r5 (class_docs (id_desc t) ++ fs ++ cf)).
  { apply body_app; [apply docs_body|]. apply body_app; [|exact B5]. eapply body_rle; [eapply move_rle; exact M5|exact B4]. }
  destruct BO as [B6 B7]. split; [|exact B7]. cbn [runs]. apply covers_app. split.
  - rewrite flat_map_app. apply covers_app. split; [eapply covers_rle; [exact L25|exact K2]|]. intros n Hn. apply in_flat_map in Hn as (e & He & Hn). apply in_map_iff in He as (b & <- & Hb).
    destruct Hn as [<-|[]]. left. left. left. now apply Hbases.
  - apply covers_app. split; [|exact B6]. apply decorate_covers; [eapply strawberry_known; [exact I5|reflexivity]|].
    rewrite kws_app. apply covers_app. split; [eapply covers_rle; [exact L05|exact K1]|]. destruct (is_oneof_input_type _); intros ? [].
Qed.
Lemma type_made : forall tree key t r y r', ok tree r -> have_directives tree -> In (key, t) (s_types s) ->
  is_interface_def t = true \/ is_object_def t = true -> type_class c st s ap pc (key, t) r = (Ok y, r') ->
  (y = [] /\ evolve st [KImp] r r') \/ (hidden pc key = false /\ exists cls, made (binds tree) key cls (reaches s t) r r' y).
Proof.
  intros tree key t r y r' O HH Hin Hk H. cbn [type_class] in H. apply bind_ok in H as (add & r2 & H2 & H).
  assert (EV2 : evolve st [KImp] r r2) by (eapply ev_ok; [|exact H2]; ev_tac). assert (O2 := ok_still _ _ _ O EV2).
  destruct (skipped pc key) eqn:SK; [apply ret_ok in H as [-> ->]; now left|right]. split; [exact SK|].
  set (cls := if is_interface_def t then style_interface_class st key else style_objecttype_class st key). exists cls. set (W := reaches s t).
  destruct (Hdirs _ _ Hin) as [HD HF].
  assert (I := o_inv _ _ O key cls). destruct (additional_at bi c st Hbi (binds tree) key cls W r key I _ _ H2) as [_ K2].
  apply bind_ok in H as (kws & r3 & H3 & H).
  destruct (dirkws_at bi st pc (binds tree) cls W r2 _ (declared_ok _ _ HH HD) _ _ H3) as [_ K3].
  assert (E3 : r3 = r2). { apply (evolve_nil st). eapply ev_ok; [apply (ev_dirkws st pc)|exact H3]. }
  subst r3. apply bind_ok in H as (cn & r3 & H4 & H).
  assert (I3 : cn = cls /\ inv bi st (binds tree) key cls r3 /\ rle r2 r3 /\ r_fwd r3 = r_fwd r2 /\ r_builtins r3 = r_builtins r2).
  { assert (I2 := o_inv _ _ O2 key cls). destruct (is_interface_def t) eqn:T.
    - assert (E4 : evolve st [KIfa] r2 r3) by (eapply ev_ok; [|exact H4]; ev_tac). assert (S4 := names_styled_evolve _ _ _ _ E4 (i_styled _ _ _ _ _ _ I2)).
      apply generate_interface_reg in H4 as (-> & D & Ei). cbv iota in Ei.
      assert (N : forall k, In k [KEnu; KInp; KObj; KSca; KFwd; KBui] -> ~ In k [KIfa]) by (cbn; intuition (subst; discriminate)).
      split; [reflexivity|]. split; [|split; [eapply evolve_rle; exact E4|split; [eapply frame_fwd; [|exact E4]|eapply frame_builtins; [|exact E4]]; apply N; cbn; tauto]].
      destruct I2 as [J1 J2 J3 J4 J5 J6 J7]. split; auto.
      + rewrite (frame_enums _ _ _ _ (N KEnu ltac:(cbn; tauto)) E4). exact J1.
      + rewrite (frame_inputs _ _ _ _ (N KInp ltac:(cbn; tauto)) E4). exact J2.
      + rewrite (frame_objects _ _ _ _ (N KObj ltac:(cbn; tauto)) E4). exact J3.
      + intros k n Hn. rewrite Ei, dget_dset in Hn. destruct (String.eqb_spec k key); [injection Hn as <-; right; auto|left; exact (o_ifaces _ _ O2 _ _ Hn)].
      + rewrite (frame_scalars _ _ _ _ (N KSca ltac:(cbn; tauto)) E4). exact J5.
      + eapply given_rle; [eapply evolve_rle; exact E4|exact J7].
    - assert (E4 : evolve st [KObj] r2 r3) by (eapply ev_ok; [|exact H4]; ev_tac). assert (S4 := names_styled_evolve _ _ _ _ E4 (i_styled _ _ _ _ _ _ I2)).
      assert (L4 := evolve_rle _ _ _ _ E4). unfold generate_objecttype in H4. apply generate_in_spec in H4 as (D & -> & ->).
      split; [reflexivity|]. split; [|split; [exact L4|split; reflexivity]].
      destruct I2 as [J1 J2 J3 J4 J5 J6 J7]. split; auto. intros k n Hn. cbn in Hn. rewrite dget_dset in Hn. destruct (String.eqb k key); [injection Hn as <-; right; auto|left; exact (o_objects _ _ O2 _ _ Hn)]. }
  destruct I3 as (-> & I3 & L3 & F3 & U3).
  apply bind_ok in H as (ib & r4 & H5 & H). apply bind_ok in H as (fs & r5 & H6 & H). apply bind_ok in H as (cf & r6 & H7 & H). apply ret_ok in H as [-> ->].
  assert (NI : ~ In key (type_interfaces t)). { specialize (Hproper _ _ Hin). now destruct t. }
  destruct (interfaces_at bi st s (binds tree) key cls W r3 _ I3 NI _ _ H5) as [M4 K4]. assert (I4 := move_inv _ _ _ _ _ _ _ _ M4 I3).
  assert (TF : type_fields t = fields_of t) by now destruct t.
  destruct (at_mconcat bi st s (binds tree) key cls W (type_field c st s pc key cls) (type_fields t)) with (r := r4) (a := fs) (r' := r5) as [M5 B5]; [|exact I4|exact H6|].
  { intros [k f] ra Hx Ia. rewrite TF in Hx. apply (type_field_at bi c st s pc Hbi (binds tree) key cls W); auto.
    - left. left. exists k, f. auto.
    - intros d ms m' Gm Hm'. right. exists (gty_name (fd_type f)), d, ms. split; [left; exists k, f; auto|auto].
    - intros a Ha. left. left. exists k, f. split; [exact Hx|]. right. exists a. auto.
    - apply declared_ok; [exact HH|]. now apply (HF k f). }
  destruct (config_at bi c st s Hbi (binds tree) key cls W r5 _ _ _ _ H7) as [M6 B6].
  assert (M46 := move_trans _ _ _ _ _ _ M5 M6). assert (M := move_trans _ _ _ _ _ _ M4 M46). destruct (move_facts _ _ _ _ M) as (L & F & U).
  assert (L2 := evolve_rle _ _ _ _ EV2). assert (L26 : rle r2 r6) by (eapply rle_trans; eassumption). assert (L06 : rle r r6) by (eapply rle_trans; eassumption).
  assert (I6 := move_inv _ _ _ _ _ _ _ _ M I3). split; [exact I6|]. split; [exact L06|].
  assert (Fw : r_fwd r2 = r_fwd r) by (eapply frame_fwd; [|exact EV2]; cbn; intuition discriminate).
  assert (Bw : r_builtins r2 = r_builtins r) by (eapply frame_builtins; [|exact EV2]; cbn; intuition discriminate).
  split; [rewrite <- Fw, <- F3; exact F|]. split; [rewrite <- Bw, <- U3; exact U|]. do 3 eexists. split; [reflexivity|].
  assert (BO : body_ok bi st s (binds tree) W r6 (class_docs (type_desc t) ++ fs ++ cf)).
  { apply body_app; [apply docs_body|]. apply body_app; [|exact B6]. eapply body_rle; [eapply move_rle; exact M6|exact B5]. }
  destruct BO as [B7 B8]. split; [|exact B8]. cbn [runs]. apply covers_app. split.
  - rewrite flat_map_app. apply covers_app. split; [eapply covers_rle; [exact L26|exact K2]|]. eapply covers_rle; [eapply move_rle; exact M46|exact K4].
  - apply covers_app. split; [|exact B7]. apply decorate_covers; [|eapply covers_rle; [exact L26|exact K3]]. eapply strawberry_known; [exact I6|]. now destruct (is_interface_def t).
Qed.

(** ** The phases *)
Lemma part_binds : forall x p n, part_of x = Some (p, n) -> In n (bound_by x).
Proof.
  intros x p n H. unfold part_of in H. destruct x; try discriminate.
  - destruct target; try discriminate. destruct (part_named _); [|discriminate]. injection H as _ <-. now left.
  - destruct decorators as [|d l]; try discriminate. destruct l; try discriminate. destruct (part_named (head_name d)); [|discriminate]. injection H as _ <-. now left.
Qed.
Lemma parts_binds : forall p names l, map part_of l = map (tag p) names -> forall n, In n names -> In n (binds l).
Proof.
  intros p names. induction names as [|m names IH]; intros l H n Hn; [contradiction|]. destruct l as [|x l]; [discriminate|]. cbn in H. injection H as H1 H2.
  cbn. apply in_app_iff. destruct Hn as [<-|Hn]; [left; eapply part_binds; exact H1|right; eapply IH; eassumption].
Qed.
Lemma given_evolve : forall K r r' n, evolve st K r r' -> given r n -> given r' n.
Proof. intros K r r' n E. eapply given_rle, evolve_rle, E. Qed.
Lemma import_still : forall tree r n u r', ok tree r -> register_import n r = (Ok u, r') -> ok tree r' /\ given r' (last_comp n).
Proof.
  intros tree r n u r' O H. split; [eapply ok_still; [exact O|]; eapply ev_ok; [|exact H]; apply ev_register_import|exact (import_given bi Hbi _ _ _ _ H)].
Qed.
Lemma directives_ok : forall r l r', ok [] r -> generate_directives c st s ds pc r = (Ok l, r') -> ok l r' /\ have_directives l.
Proof.
  intros r l r' O H. split.
  - unfold generate_directives in H. destruct (filter _ ds) as [|d0 l0]; [apply ret_ok in H as [-> ->]; exact O|]. revert H. generalize (d0 :: l0). intros l1 H.
    apply bind_ok in H as (u & r1 & H1 & H). destruct (import_still _ _ _ _ _ O H1) as [O1 G1].
    eapply (mconcat_fold _ (fun acc ra => ok acc ra /\ given ra "Location")) in H; [exact (proj1 H)|split; [exact O1|exact G1]|].
    intros d acc ra y rb _ [Oa Ga] Hy. assert (Gb : given rb "Location") by (eapply given_evolve; [eapply ev_ok; [apply (ev_directive_class c st s ap pc)|exact Hy]|exact Ga]).
    split; [|exact Gb]. destruct (directive_made _ _ _ _ _ Oa Ga Hy) as [[-> ->]|M]; [now rewrite app_nil_r|]. eapply ok_made; [|exact Oa|exact M]. intros m [].
  - intros d Hd _ NB HI. eapply parts_binds; [eapply (directives_parts c st s ds pc); exact H|]. cbn [wanted]. apply in_flat_map. exists d. split; [exact Hd|].
    destruct (mem (dd_name d) (sb_builtin_directives pc)) eqn:E; [apply mem_In in E; contradiction|]. unfold hidden in HI. rewrite HI. now left.
Qed.
Lemma scalar_made : forall tree k d r y r', ok tree r -> have_directives tree -> In (k, TScalar d) (s_types s) -> given r "NewType" ->
  scalar_assign ap pc (k, d) r = (Ok y, r') -> ok (tree ++ y) r'.
Proof.
  intros tree k d r y r' O HH Hin GN H. cbn [scalar_assign] in H. destruct (Hdirs _ _ Hin) as [HD _].
  apply bind_ok in H as (kws & r1 & H1 & H). destruct (dirkws_at bi st pc (binds tree) "" (fun _ => False) r _ (declared_ok _ _ HH HD) _ _ H1) as [_ K1].
  assert (E1 : r1 = r). { apply (evolve_nil st). eapply ev_ok; [apply (ev_dirkws st pc)|exact H1]. }
  subst r1. apply bind_ok in H as (u & r2 & H2 & H). apply ret_ok in H as [-> ->]. unfold register_scalar, modify in H2. injection H2 as _ <-.
  match goal with |- ok (tree ++ ?y) _ => set (y0 := y) end.
  assert (E : forall n, In n (binds tree) \/ n = k -> In n (binds (tree ++ y0))).
  { intros n Hn. rewrite binds_app, in_app_iff. cbn. destruct Hn as [Hn|<-]; auto. }
  assert (G : forall n, given r n -> given (with_scalars (dset k k (r_scalars r)) r) n) by (intros n Gn; exact Gn).
  destruct O as [O1 O2 O3 O4 O5 O6 O7 O8 O9]. split; cbn [r_enums r_inputs r_objects r_iface_base r_fwd r_builtins with_scalars]; eauto.
  - intros key cls. destruct (O1 key cls) as [I1 I2 I3 I4 I5 I6 I7]. split; cbn [r_enums r_inputs r_objects r_iface_base r_scalars with_scalars]; auto.
    + intros k' n Hn. destruct (I1 _ _ Hn); auto.
    + intros k' n Hn. destruct (I2 _ _ Hn); auto.
    + intros k' n Hn. destruct (I3 _ _ Hn); auto.
    + intros k' n Hn. destruct (I4 _ _ Hn); auto.
    + intros k' t Ht D. rewrite dget_dset in Ht. destruct (String.eqb k' k); [injection Ht as <-; right; apply E; now right|]. destruct (I5 _ _ Ht D); auto.
  - apply paths_app. split; [exact O7|]. split; [|exact I]. unfold y0. cbn [runs loads flat_map app].
    assert (C : covers bi (binds tree) r ("strawberry.scalar" :: "NewType" :: "str" :: kws_loads (kws ++ opt_keyword "description" d ++ [kw "serialize" identity_lambda; kw "parse_value" identity_lambda]))).
    { apply covers_cons; [eapply strawberry_known; [exact (O1 "" "")|reflexivity]|]. apply covers_cons; [left; left; exact GN|].
      apply covers_cons; [left; left; left; apply Hbi; cbn; tauto|]. rewrite !kws_app, opt_keyword_loads. apply covers_app. split; [exact K1|intros ? []]. }
    intros n Hn. exact (C n Hn).
  - intros name b bo de x n Hx. apply in_app_iff in Hx as [Hx|[Hx|[]]]; [eauto|discriminate].
Qed.
Lemma scalars_ok : forall tree r l r', ok tree r -> have_directives tree -> generate_scalars s ap pc r = (Ok l, r') -> ok (tree ++ l) r'.
Proof.
  intros tree r l r' O HH H. unfold generate_scalars in H. apply bind_ok in H as (u & r1 & H1 & H).
  assert (S : ok tree r1 /\ (scalar_types s pc = [] \/ given r1 "NewType")).
  { destruct (scalar_types s pc); [apply ret_ok in H1 as [_ ->]; auto|]. destruct (import_still _ _ _ _ _ O H1); auto. }
  destruct S as [O1 [E|G]]; [rewrite E in H; apply ret_ok in H as [-> ->]; now rewrite app_nil_r|].
  eapply (mconcat_fold _ (fun acc ra => ok (tree ++ acc) ra /\ given ra "NewType")) in H; [exact (proj1 H)|rewrite app_nil_r; auto|].
  intros [k d] acc ra y rb Hx [Oa Ga] Hy. split.
  - rewrite app_assoc. eapply scalar_made; [exact Oa|now apply have_app| |exact Ga|exact Hy]. unfold scalar_types in Hx. apply in_flat_map in Hx as ([k' t] & Hx & Hy'). cbn [fst snd] in Hy'.
    destruct t; try contradiction. destruct (mem k' _); [contradiction|]. destruct Hy' as [[= <- <-]|[]]. exact Hx.
  - eapply given_evolve; [eapply ev_ok with (K := [KSca; KImp]); [|exact Hy]|exact Ga]. unfold scalar_assign. ev_tac. apply (ev_dirkws_incl st pc).
Qed.
Lemma enums_ok : forall tree r l r', ok tree r -> have_directives tree -> sb_enums pc = true -> generate_enums st s ap pc r = (Ok l, r') ->
  ok (tree ++ l) r' /\ ((exists e d vs, In (e, TEnum d vs) (s_types s) /\ hidden pc e = false) -> given r' "Enum").
Proof.
  intros tree r l r' O HH _ H. assert (PT := enums_parts st s ds ap pc _ _ _ H). unfold generate_enums in H.
  eapply (mconcat_fold _ (fun acc ra => ok (tree ++ acc) ra /\ (acc <> [] -> given ra "Enum"))) in H.
  - destruct H as [H1 H2]. split; [exact H1|]. intros (e & d & vs & He & Hh). apply H2. intros ->. cbn in PT. symmetry in PT. apply map_eq_nil in PT.
    assert (X : In (style_enum_class st e) []) by (rewrite <- PT; cbn [wanted]; apply in_flat_map; exists (e, TEnum d vs); split; [exact He|]; cbn [fst snd]; unfold hidden in Hh; rewrite Hh; now left). destruct X.
  - rewrite app_nil_r. split; [exact O|congruence].
  - intros [k t] acc ra y rb Hx [Oa Ga] Hy. cbn [fst snd] in Hy. destruct t; try (apply ret_ok in Hy as [-> ->]; rewrite app_nil_r; auto).
    destruct (Hdirs _ _ Hx) as [HD _]. rewrite app_assoc.
    assert (HA := have_app _ acc HH). destruct (enum_made _ _ _ _ _ _ _ Oa HA HD Hy) as [[-> ->]|M]; [rewrite !app_nil_r; auto|]. split.
    + eapply ok_made; [|exact Oa|exact M]. intros m [].
    + intros _. unfold generate_enum_class in Hy. apply bind_ok in Hy as (kws & r1 & H1 & Hy). destruct (skipped pc k).
      { apply ret_ok in Hy as [-> _]. destruct M as (_ & _ & _ & _ & b & bo & de & E & _). discriminate. }
      apply bind_ok in Hy as (cn & r2 & H2 & Hy). cbn zeta in Hy. apply bind_ok in Hy as (u & r3 & H3 & Hy). apply ret_ok in Hy as [_ ->]. exact (import_given bi Hbi _ _ _ _ H3).
Qed.
Lemma inputs_ok : forall tree r l r', ok tree r -> have_directives tree -> sb_inputs pc = true -> generate_inputs c st s pc r = (Ok l, r') -> ok (tree ++ l) r'.
Proof.
  intros tree r l r' O HH ON H. unfold generate_inputs in H.
  eapply (mconcat_fold _ (fun acc ra => ok (tree ++ acc) ra)) in H; [exact H|now rewrite app_nil_r|].
  intros [k t] acc ra y rb Hx Oa Hy. cbn [fst snd] in Hy. destruct t; try (apply ret_ok in Hy as [-> ->]; rewrite app_nil_r; auto).
  destruct (Hdirs _ _ Hx) as [HD _]. rewrite app_assoc. assert (HA := have_app _ acc HH).
  destruct (input_made _ _ _ _ _ _ Oa HA (HD : declared ds pc (id_dirs (InputDef desc fields dirs))) Hy) as [[-> ->]|[NS M]]; [rewrite !app_nil_r; auto|]. eapply ok_made; [|exact Oa|exact M].
  intros m Hm. cbn [id_desc id_fields id_dirs] in Hm. do 2 eexists. split; [exact Hx|]. split; [split; assumption|exact Hm].
Qed.
Lemma types_ok : forall tree r l r', ok tree r -> have_directives tree -> sb_types pc = true -> generate_types c st s ap pc r = (Ok l, r') -> ok (tree ++ l) r'.
Proof.
  intros tree r l r' O HH ON H. unfold generate_types in H. apply bind_ok in H as (u & r1 & H1 & H). destruct (import_still _ _ _ _ _ O H1) as [O1 _].
  eapply (mconcat_fold _ (fun acc ra => ok (tree ++ acc) ra)) in H; [exact H|now rewrite app_nil_r|].
  intros [k t] acc ra y rb Hx Oa Hy. apply in_sorted in Hx as [Hx Hk]. cbn [snd] in Hk. rewrite app_assoc. assert (HA := have_app _ acc HH).
  destruct (type_made _ _ _ _ _ _ Oa HA Hx Hk Hy) as [[-> E]|(NS & cls & M)]; [rewrite !app_nil_r; eapply ok_still; eassumption|]. eapply ok_made; [|exact Oa|exact M].
  intros m Hm. exists k, t. split; [exact Hx|]. split; [|exact Hm]. destruct t; cbn in Hk; try (destruct Hk; discriminate); cbn; auto.
Qed.
Hypothesis Hsc : forall k t, dget k (r_scalars (init_reg c)) = Some t -> has_dot t = false -> In t bi.
Lemma plugin_ok : forall l r', strawberry_plugin c st s ds ap pc (init_reg c) = (Ok l, r') ->
  ok l r' /\ (sb_enums pc = true -> (exists e d vs, In (e, TEnum d vs) (s_types s) /\ hidden pc e = false) -> given r' "Enum").
Proof.
  intros l r' H. unfold strawberry_plugin in H. apply bind_ok in H as (u & r0 & H0 & H).
  apply bind_ok in H as (d & r1 & H1 & H). apply bind_ok in H as (sc & r2 & H2 & H). apply bind_ok in H as (e & r3 & H3 & H).
  apply bind_ok in H as (i & r4 & H4 & H). apply bind_ok in H as (t & r5 & H5 & H). apply ret_ok in H as [-> ->].
  assert (E0 : evolve st [KImp] (init_reg c) r0) by (eapply ev_ok; [|exact H0]; apply ev_register_import).
  assert (O0 : ok [] r0).
  { assert (N : forall k, In k [KEnu; KInp; KObj; KIfa; KSca; KFwd; KBui] -> ~ In k [KImp]) by (cbn; intuition (subst; discriminate)).
    assert (Ee := frame_enums _ _ _ _ (N KEnu ltac:(cbn; tauto)) E0). assert (Ei := frame_inputs _ _ _ _ (N KInp ltac:(cbn; tauto)) E0).
    assert (Eo := frame_objects _ _ _ _ (N KObj ltac:(cbn; tauto)) E0). assert (Ef := frame_iface _ _ _ _ (N KIfa ltac:(cbn; tauto)) E0).
    assert (Es := frame_scalars _ _ _ _ (N KSca ltac:(cbn; tauto)) E0). assert (Ew := frame_fwd _ _ _ _ (N KFwd ltac:(cbn; tauto)) E0).
    assert (Eb := frame_builtins _ _ _ _ (N KBui ltac:(cbn; tauto)) E0).
    split; rewrite ?Ee, ?Ei, ?Eo, ?Ef, ?Ew, ?Eb; try (intros k n X; discriminate X); try solve [intros ? []]; try exact I.
    - intros key cls. split; rewrite ?Ee, ?Ei, ?Eo, ?Ef, ?Es; try (intros k n X; discriminate X).
      + intros k t0 Ht D. left. eapply Hsc; eassumption.
      + eapply names_styled_evolve; [exact E0|apply names_styled_init].
      + exact (import_given bi Hbi _ _ _ _ H0).
    - intros name b bo de x n []. }
  assert (S1 : ok d r1 /\ have_directives d).
  { destruct (sb_directives pc) eqn:SD; [now apply directives_ok in H1|]. apply ret_ok in H1 as [-> ->]. split; [exact O0|]. intros x _ X. congruence. }
  destruct S1 as [O1 D1].
  assert (O2 : ok (d ++ sc) r2) by (destruct (sb_directives pc); [eapply scalars_ok; eassumption|apply ret_ok in H2 as [-> ->]; now rewrite app_nil_r]).
  assert (D2 := have_app _ sc D1).
  assert (O3 : ok ((d ++ sc) ++ e) r3 /\ (sb_enums pc = true -> (exists e d vs, In (e, TEnum d vs) (s_types s) /\ hidden pc e = false) -> given r3 "Enum")).
  { destruct (sb_enums pc) eqn:SE; [destruct (enums_ok _ _ _ _ O2 D2 SE H3) as [X Y]; split; [exact X|auto]|]. apply ret_ok in H3 as [-> ->]. rewrite app_nil_r. split; [exact O2|discriminate]. }
  destruct O3 as [O3 G3]. assert (D3 := have_app _ e D2).
  assert (O4 : ok (((d ++ sc) ++ e) ++ i) r4) by (destruct (sb_inputs pc) eqn:SI; [eapply inputs_ok; eassumption|apply ret_ok in H4 as [-> ->]; now rewrite app_nil_r]).
  assert (D4 := have_app _ i D3).
  assert (O5 : ok ((((d ++ sc) ++ e) ++ i) ++ t) r5) by (destruct (sb_types pc) eqn:SI; [eapply types_ok; eassumption|apply ret_ok in H5 as [-> ->]; now rewrite app_nil_r]).
  rewrite <- !app_assoc in O5. split; [exact O5|]. intros X Y. specialize (G3 X Y).
  eapply given_evolve; [eapply ev_ok with (K := Ktyp); [|exact H5]; destruct (sb_types pc); [apply (ev_types c st s ap pc)|ev_tac]|].
  eapply given_evolve; [eapply ev_ok with (K := Kinp); [|exact H4]; destruct (sb_inputs pc); [apply (ev_inputs c st s ap pc)|ev_tac]|]. exact G3.
Qed.
End Plugin.
