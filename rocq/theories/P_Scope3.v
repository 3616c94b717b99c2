(** Names looked up by the enum and input part of a module: the loops of the plugin. *)
From Verif Require Import Base PyAst Gql Config Stylers Registry Utils Referencer Enums Inputs
  Spec_Types Spec_Inputs Spec_Refs Spec_Imports Spec_Scope P_Base P_Monad P_Types P_Inputs P_Inputs2 P_Inputs3 P_Imports P_Scope P_Scope2.

Section Loops.
Variables (st : list styler) (bi : list string).
Hypothesis Hbi : incl simple_types bi.
Variables (c : gconfig) (pc : inputs_config) (s : schema) (sc : dict string) (rf : option refs).
Hypothesis Hsc : forall n t, dget n sc = Some t -> has_dot t = false -> In t bi.
Hypothesis Hforce : c_force_plugin_order c = true.
Hypothesis ND : NoDup (dkeys (s_types s)).
(** the input types whose classes may be quoted *)
Variable ok : string -> Prop.
Definition fields_ok (t : inputdef) : Prop :=
  forall kv, In kv (id_fields t) -> is_input s (gty_name (if_type (snd kv))) -> ok (gty_name (if_type (snd kv))).
Hypothesis Hmain : forall key t, In (key, t) (schema_inputs s) -> ~ input_skipped (ic_skip_underscore pc) (refd rf) key -> fields_ok t.
Hypothesis Hmember : forall key t, In (key, t) (schema_inputs s) -> union_member (refd rf) t -> fields_ok t.
Notation cls n := (style_inputtype_class st n).
Notation given := (given bi).
Notation step := (step st).
Notation covers := (covers bi).
Notation quotes_ok := (quotes_ok bi).
Notation ready := (ready st sc).

Definition ok_target (n : string) : Prop := exists key, ok key /\ is_input s key /\ n = cls key.
Definition definition (x : stmt) : Prop :=
  match x with SClass _ _ _ _ | SFunc _ _ _ _ _ _ | SAssign _ _ => True | _ => False end.
Record J (tree : list stmt) (r : reg) : Prop := {
  j_ready : ready r;
  j_base : forall b, In b (ic_bases pc) -> given r (last_comp b);
  j_scope : scoped (given r) tree;
  j_reg : forall n, registered r n -> In n (binds tree);
  j_fwd : forall n, In n (r_fwd r) -> exists b body d, In (SClass n b body d) tree;
  j_defs : Forall definition tree;
  j_cls : forall name b body d n, In (SClass name b body d) tree -> In n (class_quotes body) ->
            In name (r_fwd r) /\ (given r n \/ ok_target n) }.

Lemma quiet_step : forall p r r', evolve st [KImp; KBui] r r' -> step p r r'.
Proof.
  intros p r r' E. split; [eapply evolve_incl; [|exact E]; intros k; cbn; tauto|].
  intros n. rewrite (frame_fwd _ _ _ _ (ltac:(cbn; intuition discriminate) : ~ In KFwd [KImp; KBui]) E). auto.
Qed.
Lemma quiet_fwd : forall r r', evolve st [KImp; KBui] r r' -> r_fwd r' = r_fwd r.
Proof. intros r r' E. eapply frame_fwd; [|exact E]; cbn; intuition discriminate. Qed.
Lemma ok_given : forall r r' n, rle r r' -> given r n \/ ok_target n -> given r' n \/ ok_target n.
Proof. intros r r' n HR [H|H]; [left; eapply given_rle; eassumption|now right]. Qed.
Lemma J_quiet : forall tree r r', evolve st [KImp; KBui] r r' -> J tree r -> J tree r'.
Proof.
  intros tree r r' E [J1 J2 J3 J4 J5 JD J6]. pose proof (quiet_step "" _ _ E) as S. pose proof (step_rle _ _ _ _ S) as R. split.
  - eapply ready_step; eassumption.
  - intros b Hb. eapply given_rle; [exact R|auto].
  - eapply scoped_mono; [|exact J3]. intros n. apply given_rle, R.
  - intros n. unfold registered. rewrite (step_inputs _ _ _ _ S), (step_enums _ _ _ _ S). apply J4.
  - intros n. rewrite (quiet_fwd _ _ E). apply J5.
  - exact JD.
  - intros. rewrite (quiet_fwd _ _ E). destruct (J6 name b body d n) as [A B]; auto. split; [exact A|eapply ok_given; eassumption].
Qed.
(** registering a class *)
Lemma registered_new : forall key name r r1, generate_inputtype st key r = (Ok name, r1) ->
  name = cls key /\ (forall n, registered r1 n -> n = name \/ registered r n) /\ rle r r1 /\ r_fwd r1 = r_fwd r
  /\ (ready r -> ready r1).
Proof.
  intros key name r r1 H. pose proof (ev_ok _ _ _ _ _ _ (ev_generate_inputtype st key) H) as E.
  apply generate_in_spec in H. destruct H as (HN & -> & ->). split; [reflexivity|]. split; [|split; [|split]].
  - intros n [(k & Hk)|(k & Hk)]; [|right; right; exists k; exact Hk]. cbn [r_inputs with_inputs] in Hk. rewrite dget_dset in Hk.
    destruct (String.eqb k key); [left; congruence|right; left; eauto].
  - eapply evolve_rle; exact E.
  - reflexivity.
  - intros [A B]. split; [eapply names_styled_evolve; eassumption|exact B].
Qed.
Lemma J_class : forall tree r key name r1 r2 b body d T,
  J tree r -> generate_inputtype st key r = (Ok name, r1) -> step name r1 r2 ->
  covers r2 name (runs (SClass name b body d)) -> quotes_ok r2 name T (class_quotes body) -> (forall x, T x -> ok_target x) ->
  J (tree ++ [SClass name b body d]) r2.
Proof.
  intros tree r key name r1 r2 b body d T [J1 J2 J3 J4 J5 JD J6] HN S HC HQ HT.
  destruct (registered_new _ _ _ _ HN) as (-> & RN & R1 & F1 & RD).
  pose proof (rle_trans _ _ _ R1 (step_rle _ _ _ _ S)) as R.
  assert (RG : forall n, registered r2 n -> n = cls key \/ registered r n).
  { intros n. unfold registered. rewrite (step_inputs _ _ _ _ S), (step_enums _ _ _ _ S). apply RN. }
  split.
  - eapply ready_step; [exact S|auto].
  - intros x Hx. eapply given_rle; [exact R|auto].
  - apply scoped_snoc; [eapply scoped_mono; [|exact J3]; intros n; apply given_rle, R|].
    intros n Hn. destruct (HC n Hn) as [H|[Hne H]]; [now left|]. right. destruct (RG n H); [contradiction|auto].
  - intros n Hn. rewrite binds_app, in_app_iff. cbn. destruct (RG n Hn); auto.
  - intros n Hn. destruct (step_fwd _ _ _ _ S n Hn) as [H| ->].
    + rewrite F1 in H. destruct (J5 n H) as (b' & body' & d' & Hin). do 3 eexists. apply in_or_app. left; exact Hin.
    + do 3 eexists. apply in_or_app. right; left; reflexivity.
  - apply Forall_app. split; [exact JD|]. repeat constructor.
  - intros nm b' body' d' n Hin Hq. apply in_app_or in Hin. destruct Hin as [Hin|[[= <- <- <- <-]|[]]].
    + destruct (J6 nm b' body' d' n) as [A B]; auto. split; [now apply (rle_fwd _ _ R)|eapply ok_given; eassumption].
    + destruct (HQ n Hq) as [A [B|B]]; auto.
Qed.
Lemma J_alias : forall tree r key name r1 r2 e,
  J tree r -> generate_inputtype st key r = (Ok name, r1) -> evolve st [KImp; KBui] r1 r2 ->
  (forall n, In n (loads e) -> given r2 n \/ In n (binds tree)) ->
  J (tree ++ [SAssign (EName name) e]) r2.
Proof.
  intros tree r key name r1 r2 e [J1 J2 J3 J4 J5 JD J6] HN E HL.
  destruct (registered_new _ _ _ _ HN) as (-> & RN & R1 & F1 & RD).
  pose proof (quiet_step "" _ _ E) as S. pose proof (rle_trans _ _ _ R1 (step_rle _ _ _ _ S)) as R.
  split.
  - eapply ready_step; [exact S|auto].
  - intros x Hx. eapply given_rle; [exact R|auto].
  - apply scoped_snoc; [eapply scoped_mono; [|exact J3]; intros n; apply given_rle, R|exact HL].
  - intros n. unfold registered. rewrite (step_inputs _ _ _ _ S), (step_enums _ _ _ _ S). intros Hn.
    rewrite binds_app, in_app_iff. cbn. destruct (RN n Hn) as [-> |]; auto.
  - intros n. rewrite (quiet_fwd _ _ E), F1. intros Hn.
    destruct (J5 n Hn) as (b' & body' & d' & Hin). do 3 eexists. apply in_or_app. left; exact Hin.
  - apply Forall_app. split; [exact JD|]. repeat constructor.
  - intros nm b' body' d' n Hin Hq. apply in_app_or in Hin. destruct Hin as [Hin|[[=]|[]]].
    destruct (J6 nm b' body' d' n) as [A B]; auto. split; [now apply (rle_fwd _ _ R)|eapply ok_given; eassumption].
Qed.
Lemma J_func : forall tree r a f args body, args_loads args = [] -> J tree r -> J (tree ++ [SFunc a f args body None []]) r.
Proof.
  intros tree r a f args body HA [J1 J2 J3 J4 J5 JD J6]. split; auto.
  - apply scoped_snoc; [exact J3|]. cbn. rewrite HA. cbn. contradiction.
  - intros n Hn. rewrite binds_app, in_app_iff; auto.
  - intros n Hn. destruct (J5 n Hn) as (b' & body' & d' & Hin). do 3 eexists. apply in_or_app. left; exact Hin.
  - apply Forall_app. split; [exact JD|]. repeat constructor.
  - intros nm b' body' d' n Hin Hq. apply in_app_or in Hin. destruct Hin as [Hin|[[=]|[]]]. eauto.
Qed.

Lemma additional_given : forall key r ab r', get_additional_bases_for_type c key r = (Ok ab, r') ->
  evolve st [KImp; KBui] r r' /\ forall n, In n (flat_map loads ab) -> given r' n.
Proof.
  intros key r ab r' H. split; [eapply ev_ok; [|exact H]; ev_leaf|]. unfold get_additional_bases_for_type in H.
  destruct (dget key (c_additional_bases c)) as [l|]; [|apply ret_ok in H; destruct H as [-> ->]; contradiction].
  unfold import_bases in H. apply bind_ok in H. destruct H as (u & r1 & H1 & H). apply ret_ok in H. destruct H as [-> ->].
  intros n Hn. apply in_flat_map in Hn. destruct Hn as (x & Hx & Hn). apply in_map_iff in Hx. destruct Hx as (b & <- & Hb).
  destruct Hn as [<-|[]]. eapply bases_given; eassumption.
Qed.
Lemma all_bases_given : forall tree r r' ab, J tree r -> rle r r' -> (forall n, In n (flat_map loads ab) -> given r' n) ->
  forall n, In n (flat_map loads (ab ++ input_bases pc)) -> given r' n.
Proof.
  intros tree r r' ab HJ R HA n Hn. rewrite flat_map_app, in_app_iff in Hn. destruct Hn as [Hn|Hn]; [auto|].
  apply in_flat_map in Hn. destruct Hn as (x & Hx & Hn). unfold input_bases in Hx. apply in_map_iff in Hx.
  destruct Hx as (b & <- & Hb). destruct Hn as [<-|[]]. eapply given_rle; [exact R|]. now apply (j_base _ _ HJ).
Qed.
Lemma field_target_ok : forall t n, fields_ok t -> field_target st s (id_fields t) n -> ok_target n.
Proof. intros t n HO (kv & Hk & Hi & ->). exists (gty_name (if_type (snd kv))). split; [now apply HO|auto]. Qed.

(** ** the pre-pass *)
Definition members_bound (p : prepass) (tree : list stmt) : Prop :=
  forall u l n, dget u (pp_unions p) = Some l -> In n l -> In n (binds tree).
Lemma add_members_in : forall name ms d u l n, dget u (fold_left (add_member name) ms d) = Some l -> In n l ->
  n = name \/ exists l0, dget u d = Some l0 /\ In n l0.
Proof.
  intros name ms. induction ms as [|m ms IH]; intros d u l n H Hn; cbn in H; [eauto|].
  destruct (IH _ _ _ _ H Hn) as [|(l0 & H0 & Hn0)]; [now left|]. unfold add_member in H0. rewrite dget_dset in H0.
  destruct (String.eqb_spec u (mb_union m)) as [->|_]; [|eauto]. injection H0 as <-.
  destruct (dget (mb_union m) d) as [l1|] eqn:E.
  - destruct (mem name l1); [eauto|]. apply in_app_or in Hn0. destruct Hn0 as [|[<-|[]]]; eauto.
  - destruct (mem name []); [contradiction|]. cbn in Hn0. destruct Hn0 as [<-|[]]. now left.
Qed.
Lemma prepass_scope : forall tree0 acc kt r acc' r', In kt (schema_inputs s) ->
  J (tree0 ++ snd acc) r -> members_bound (fst acc) (tree0 ++ snd acc) ->
  prepass_type c st pc s rf acc kt r = (Ok acc', r') ->
  J (tree0 ++ snd acc') r' /\ members_bound (fst acc') (tree0 ++ snd acc').
Proof.
  intros tree0 [p tree] [key t] r acc' r' Hin HJ HM H. cbn [fst snd] in *. unfold prepass_type in H.
  apply bind_ok in H. destruct H as ([ms discr] & r1 & H1 & H). apply lift_ok in H1. destruct H1 as [H1 ->].
  destruct (read_spec _ _ _ _ _ H1) as (R1 & _). destruct ms as [|m0 ms0].
  - apply ret_ok in H. destruct H as [-> ->]. split; [exact HJ|exact HM].
  - assert (UM : union_member (refd rf) t).
    { destruct m0 as [u dn k]. exists u, dn, k. apply R1. now left. }
    set (ms := m0 :: ms0) in *.
    apply bind_ok in H. destruct H as (ds & r2 & H2 & H). apply lift_ok in H2. destruct H2 as [H2 ->].
    apply bind_ok in H. destruct H as (name & r3 & H3 & H). apply bind_ok in H. destruct H as (stm & r4 & H4 & H).
    apply ret_ok in H. destruct H as [-> ->]. cbn [fst snd pp_unions].
    destruct (registered_new _ _ _ _ H3) as (-> & _ & R3 & _ & RD).
    unfold generate_input_type in H4. apply bind_ok in H4. destruct H4 as (ab & r5 & H5 & H4).
    destruct (additional_given _ _ _ _ H5) as [E5 G5].
    eapply (class_scope st bi Hbi c pc s sc Hsc Hforce) in H4.
    2: { eapply ready_step; [apply (quiet_step "" _ _ E5)|apply RD, (j_ready _ _ HJ)]. }
    2: { eapply all_bases_given; [exact HJ| |exact G5]. eapply rle_trans; [exact R3|eapply evolve_rle; exact E5]. }
    destruct H4 as (S4 & bases & body & decs & -> & HC & HQ).
    split.
    + rewrite app_assoc. eapply J_class; [exact HJ|exact H3| |exact HC|exact HQ|].
      * eapply step_trans; [apply quiet_step; exact E5|exact S4].
      * intros x. apply field_target_ok. eapply Hmember; eassumption.
    + intros u l n Hu Hn. rewrite app_assoc, binds_app, in_app_iff. cbn.
      destruct (add_members_in _ _ _ _ _ _ Hu Hn) as [->|(l0 & H0 & Hn0)]; [auto|left; eapply HM; eassumption].
Qed.

(** ** oneOf inputs *)
Lemma union_loads : forall l n, In n (loads (union_of (map EName l))) -> n = "Union" \/ In n l.
Proof.
  intros l n Hn. cbn in Hn. destruct Hn as [<-|Hn]; [now left|]. right. apply in_flat_map in Hn. destruct Hn as (x & Hx & Hn).
  apply in_map_iff in Hx. destruct Hx as (m & <- & Hm). destruct Hn as [<-|[]]. exact Hm.
Qed.
Lemma wrapper_scope : forall tree key t ab kv r n stm r', fields_ok t -> In kv (id_fields t) -> J tree r ->
  (forall n, In n (flat_map loads ab) -> given r n) ->
  oneof_wrapper_class c st pc s key ab kv r = (Ok (n, stm), r') ->
  J (tree ++ [stm]) r' /\ rle r r' /\ In n (binds [stm]).
Proof.
  intros tree key t ab [k v] r n stm r' HO Hkv HJ HA H. unfold oneof_wrapper_class in H.
  apply bind_ok in H. destruct H as (name & r1 & H1 & H). apply try_ok in H1. destruct H1 as [H1|(e & r0 & _ & _ & H1)]; [|discriminate].
  apply bind_ok in H. destruct H as (a0 & r2 & H2 & H). apply bind_ok in H. destruct H as (a & r3 & H3 & H). cbn zeta in H.
  apply bind_ok in H. destruct H as (val & r4 & H4 & H). apply bind_ok in H. destruct H as (cf & r5 & H5 & H).
  apply ret_ok in H. destruct H as [[= -> ->] ->].
  destruct (registered_new _ _ _ _ H1) as (E & _ & R1 & _ & RD).
  destruct (annotation_scope st bi Hbi c s sc Hsc Hforce _ _ _ _ _ _ (RD (j_ready _ _ HJ)) H2) as (A2 & B2 & C2).
  destruct (metadata_scope st bi Hbi c _ None _ name _ _ _ H3) as (A3 & B3 & C3). specialize (B3 B2).
  destruct (value_scope st bi Hbi _ _ _ _ name _ _ _ H4) as (A4 & B4).
  destruct (config_scope st bi Hbi c _ _ name _ _ _ H5) as (A5 & B5).
  assert (S : step name r1 r5) by (eapply step_trans; [exact A2|eapply step_trans; [exact A3|eapply step_trans; eassumption]]).
  pose proof (rle_trans _ _ _ R1 (step_rle _ _ _ _ S)) as R.
  split; [|split; [exact R|now left]]. eapply J_class with (T := target st s (if_type v)); [exact HJ|exact H1|exact S| | |].
  - cbn [runs flat_map app docstring loads]. apply covers_app.
    + intros x Hx. left. eapply all_bases_given; [exact HJ|exact R| |exact Hx]. intros y Hy. eapply given_rle; [exact R|auto].
    + apply covers_app; [|exact B5]. apply covers_app.
      * eapply covers_step; [exact A5|]. eapply covers_step; eassumption.
      * eapply covers_step; [exact A5|]. exact B4.
  - match goal with |- context [class_quotes (?d :: ?x :: cf)] => change (class_quotes (d :: x :: cf)) with (quoted a ++ class_quotes cf) end.
    assert (CF : class_quotes cf = []) by (unfold class_quotes; now rewrite (config_no_fields _ _ _ _ _ _ H5)).
    rewrite CF, app_nil_r, C3. eapply quotes_step; [exact A5|]. eapply quotes_step; [exact A4|]. eapply quotes_step; eassumption.
  - intros x (Hi & ->). exists (gty_name (if_type v)). split; [apply (HO (k, v)); assumption|auto].
Qed.
Lemma wrappers_scope : forall key t ab fields, fields_ok t -> incl fields (id_fields t) ->
  forall tree r l r', J tree r -> (forall n, In n (flat_map loads ab) -> given r n) ->
  mmap (oneof_wrapper_class c st pc s key ab) fields r = (Ok l, r') ->
  J (tree ++ map snd l) r' /\ rle r r' /\ forall n, In n (map fst l) -> In n (binds (map snd l)).
Proof.
  intros key t ab fields HO. induction fields as [|kv fields IH]; intros HI tree r l r' HJ HA H; cbn in H.
  - apply ret_ok in H. destruct H as [-> ->]. cbn. rewrite app_nil_r. split; [exact HJ|]. split; [apply rle_refl|contradiction].
  - apply bind_ok in H. destruct H as ([n stm] & r1 & H1 & H). apply bind_ok in H. destruct H as (l' & r2 & H2 & H).
    apply ret_ok in H. destruct H as [-> ->].
    destruct (wrapper_scope _ _ _ _ _ _ _ _ _ HO (HI _ (or_introl eq_refl)) HJ HA H1) as (J1 & R1 & B1).
    destruct (IH (fun x Hx => HI x (or_intror Hx)) _ _ _ _ J1 (fun x Hx => given_rle _ _ _ _ R1 (HA x Hx)) H2) as (J2 & R2 & B2).
    cbn [map fst snd]. split; [|split; [eapply rle_trans; eassumption|]].
    + now rewrite <- app_assoc in J2.
    + intros x [<-|Hx]; change (stm :: map snd l') with ([stm] ++ map snd l'); rewrite binds_app, in_app_iff; auto.
Qed.
Lemma wrapped_scope : forall tree key t r out r', fields_ok t -> J tree r ->
  generate_oneof_wrapper_input c st pc s key (id_fields t) r = (Ok out, r') -> J (tree ++ out) r'.
Proof.
  intros tree key t r out r' HO HJ H. unfold generate_oneof_wrapper_input in H.
  apply bind_ok in H. destruct H as (ab & r1 & H1 & H). destruct (additional_given _ _ _ _ H1) as [E1 G1].
  apply bind_ok in H. destruct H as (l & r2 & H2 & H).
  destruct (wrappers_scope key t ab (id_fields t) HO (incl_refl _) _ _ _ _ (J_quiet _ _ _ E1 HJ) G1 H2) as (J2 & _ & B2).
  apply bind_ok in H. destruct H as (alias & r3 & H3 & H). apply bind_ok in H. destruct H as (a & r4 & H4 & H).
  apply ret_ok in H. destruct H as [-> ->]. rewrite app_assoc.
  assert (BD : forall n, In n (map fst l) -> In n (binds (tree ++ map snd l))) by (intros; rewrite binds_app, in_app_iff; auto).
  unfold generate_union_alias in H4. destruct (map fst l) as [|m [|m' ms]] eqn:EL.
  - apply bind_ok in H4. destruct H4 as (u & r5 & H5 & H4). apply ret_ok in H4. destruct H4 as [-> ->].
    eapply J_alias; [exact J2|exact H3|eapply ev_ok; [|exact H5]; ev_leaf|]. intros n Hn.
    apply union_loads in Hn. destruct Hn as [->|[]]. left. exact (import_given bi Hbi _ _ _ _ H5).
  - apply ret_ok in H4. destruct H4 as [-> ->]. eapply J_alias; [exact J2|exact H3|apply ev_refl|].
    intros n [<-|[]]. right. apply BD. now left.
  - apply bind_ok in H4. destruct H4 as (u & r5 & H5 & H4). apply ret_ok in H4. destruct H4 as [-> ->].
    eapply J_alias; [exact J2|exact H3|eapply ev_ok; [|exact H5]; ev_leaf|]. intros n Hn.
    apply union_loads in Hn. destruct Hn as [->|Hn]; [left; exact (import_given bi Hbi _ _ _ _ H5)|right; now apply BD].
Qed.
(** a deferred union: the alias is a oneOf type, its members are not *)
Definition deferred_ok (km : string * list (string * string)) : Prop := forall m, In m (snd km) -> snd m <> fst km.
Lemma direct_scope : forall tree km r out r', deferred_ok km -> J tree r ->
  generate_oneof_direct_union st (fst km) (snd km) r = (Ok out, r') -> J (tree ++ out) r'.
Proof.
  intros tree [key ms] r out r' HD HJ H. cbn [fst snd] in *. unfold generate_oneof_direct_union in H.
  apply bind_ok in H. destruct H as (alias & r1 & H1 & H). cbn zeta in H. apply bind_ok in H. destruct H as (classes & r2 & H2 & H).
  apply bind_ok in H. destruct H as (u3 & r3 & H3 & H). apply bind_ok in H. destruct H as (u4 & r4 & H4 & H).
  apply bind_ok in H. destruct H as (u5 & r5 & H5 & H). apply ret_ok in H. destruct H as [-> ->].
  match goal with |- J (tree ++ [?f; ?a]) _ => change [f; a] with ([f] ++ [a]) end. rewrite app_assoc.
  assert (CL : r2 = r1 /\ forall n, In n (map fst classes) -> In n (binds tree)).
  { pose proof (registered_new _ _ _ _ H1) as (_ & _ & _ & _ & _). apply generate_in_spec in H1. destruct H1 as (HN & -> & ->).
    eapply (mmap_inv _ (fun r' => r' = _) (fun m ct => In (fst ct) (binds tree))) in H2; [|reflexivity|].
    - destruct H2 as [-> F]. split; [reflexivity|]. intros n Hn. clear - F Hn.
      induction F as [|x y l m Hxy _ IH]; [contradiction|]. destruct Hn as [<-|Hn]; auto.
    - intros m ra ct rb Hm -> Hx. apply bind_ok in Hx. destruct Hx as (k & rc & Hk & Hx). apply ret_ok in Hx. destruct Hx as [-> ->].
      unfold get_inputtype_class in Hk. minv. split; [reflexivity|]. cbn [fst].
      apply (j_reg _ _ HJ). left. exists (snd m). cbn [r_inputs with_inputs] in H. rewrite dget_dset in H.
      destruct (String.eqb_spec (snd m) key) as [E|_]; [destruct (HD m Hm); exact E|exact H]. }
  destruct CL as [-> BD].
  assert (E3 : evolve st [KImp; KBui] r1 r3) by (eapply ev_ok; [|exact H3]; ev_tac).
  assert (E4 : evolve st [KImp; KBui] r3 r4) by (eapply ev_ok; [|exact H4]; ev_leaf).
  assert (E5 : evolve st [KImp; KBui] r4 r5) by (eapply ev_ok; [|exact H5]; ev_leaf).
  eapply J_alias; [apply J_func; [reflexivity|exact HJ]|exact H1|eapply evolve_trans; [exact E3|eapply evolve_trans; eassumption]|].
  intros n Hn. rewrite binds_app, in_app_iff. cbn [binds flat_map bound_by app].
  cbn [annotated_of loads flat_map app] in Hn.
  assert (UB : forall n, In n (dedup (map fst classes)) -> In n (binds tree)) by (intros x Hx; apply BD; exact (proj1 (dedup_In _ _) Hx)).
  destruct Hn as [<-|Hn]; [left; eapply given_rle; [eapply evolve_rle; exact E5|]; exact (import_given bi Hbi _ _ _ _ H4)|].
  rewrite in_app_iff in Hn. destruct Hn as [Hn|Hn].
  - destruct (1 <? length classes)%nat.
    + assert (GU : given r5 "Union").
      { eapply given_rle; [eapply rle_trans; eapply evolve_rle; [exact E4|exact E5]|]. exact (import_given bi Hbi _ _ _ _ H3). }
      destruct (dedup (map fst classes)) as [|u [|u' us]].
      * apply (union_loads []) in Hn. destruct Hn as [->|[]]. now left.
      * cbn in Hn. destruct Hn as [<-|[<-|[]]]; [now left|]. right; left. apply UB. now left.
      * apply (union_loads (u :: u' :: us)) in Hn. destruct Hn as [->|Hn]; [now left|]. right; left. now apply UB.
    + destruct (dedup (map fst classes)) as [|u us]; [contradiction|]. destruct Hn as [<-|[]]. right; left. apply UB. now left.
  - destruct Hn as [<-|[<-|[]]]; [left; exact (import_given bi Hbi _ _ _ _ H5)|right; right; now left].
Qed.

(** ** the main loop *)
Lemma main_scope : forall p tree0 acc kt r acc' r', In kt (schema_inputs s) ->
  J (tree0 ++ fst acc) r -> members_bound p (tree0 ++ fst acc) -> Forall deferred_ok (snd acc) ->
  main_type c st pc s rf p acc kt r = (Ok acc', r') ->
  J (tree0 ++ fst acc') r' /\ members_bound p (tree0 ++ fst acc') /\ Forall deferred_ok (snd acc').
Proof.
  intros p tree0 [tree deferred] [key t] r acc' r' Hin HJ HM HD H. cbn [fst snd] in *. unfold main_type in H.
  destruct (mem key (pp_types p)); [apply ret_ok in H; destruct H as [-> ->]; auto|].
  destruct (match rf with Some r0 => negb (mem key (rf_inputs r0)) | None => false end) eqn:U;
    [apply ret_ok in H; destruct H as [-> ->]; auto|].
  destruct (ic_skip_underscore pc && startswith "_" key) eqn:US; [apply ret_ok in H; destruct H as [-> ->]; auto|].
  assert (HO : fields_ok t).
  { eapply Hmain; [exact Hin|]. rewrite <- skipped_dec. rewrite U, US. discriminate. }
  assert (EXT : forall out r2, J (tree0 ++ (tree ++ out)) r2 -> J (tree0 ++ (tree ++ out)) r2 /\ members_bound p (tree0 ++ (tree ++ out)) /\ Forall deferred_ok deferred).
  { intros out r2 J2. split; [exact J2|]. split; [|exact HD]. intros u l n Hu Hn. rewrite app_assoc, binds_app, in_app_iff. left. eapply HM; eassumption. }
  destruct (is_oneof_input_type _) eqn:O.
  - apply bind_ok in H. destruct H as (u & r1 & H1 & H). apply validate_spec in H1. destruct H1 as [-> _]. cbn zeta in H.
    assert (WR : (let* l := generate_oneof_wrapper_input c st pc s key (id_fields t) in ret (tree ++ l, deferred)) r = (Ok acc', r') ->
       J (tree0 ++ fst acc') r' /\ members_bound p (tree0 ++ fst acc') /\ Forall deferred_ok (snd acc')).
    { clear H. intros H. apply bind_ok in H. destruct H as (l & r1 & H1 & H). apply ret_ok in H. destruct H as [-> ->]. cbn [fst snd].
      apply EXT. rewrite app_assoc. eapply wrapped_scope; eassumption. }
    destruct (if String.eqb _ _ then _ else _) as [ms|] eqn:EM; [|auto].
    destruct (existsb _ ms); [auto|]. apply ret_ok in H. destruct H as [-> ->]. cbn [fst snd]. split; [exact HJ|]. split; [exact HM|].
    apply Forall_app. split; [exact HD|]. constructor; [|constructor]. intros m Hm. cbn [fst snd] in *.
    destruct (String.eqb (c_pydantic_version c) "v2"); [|discriminate].
    destruct (proj1 (member_map_spec s _) _ EM) as (_ & F & _). intros E.
    assert (exists kv, plain_field s kv (snd m)) as (kv & _ & d & f & di & EG & NO).
    { clear - F Hm. induction F as [|kv m' fl l [_ P] _ IH]; [contradiction|]. destruct Hm as [->|Hm]; [eauto|auto]. }
    apply NO. rewrite E in EG. apply is_oneof_dec in O. unfold schema_inputs in Hin. apply in_flat_map in Hin.
    destruct Hin as ([k0 d0] & I0 & E0). cbn in E0. destruct d0; try contradiction. destruct E0 as [E0|[]]. injection E0 as -> <-.
    unfold get_type in EG. rewrite (dget_In_NoDup _ _ _ ND I0) in EG. injection EG as <- <- <-. exact O.
  - destruct (dget key (pp_unions p)) as [members|] eqn:EU.
    + apply bind_ok in H. destruct H as (u1 & r1 & H1 & H). apply bind_ok in H. destruct H as (u2 & r2 & H2 & H).
      apply bind_ok in H. destruct H as (u3 & r3 & H3 & H). apply bind_ok in H. destruct H as (alias & r4 & H4 & H).
      apply ret_ok in H. destruct H as [-> ->]. cbn [fst snd]. apply EXT. rewrite app_assoc.
      assert (E1 : evolve st [KImp; KBui] r r1) by (eapply ev_ok; [|exact H1]; ev_leaf).
      assert (E2 : evolve st [KImp; KBui] r1 r2) by (eapply ev_ok; [|exact H2]; ev_leaf).
      assert (E3 : evolve st [KImp; KBui] r2 r3) by (eapply ev_ok; [|exact H3]; ev_leaf).
      destruct (registered_new _ _ _ _ H4) as (_ & _ & R4 & _ & _).
      eapply J_alias; [eapply J_quiet; [|exact HJ]; eapply evolve_trans; [exact E1|eapply evolve_trans; eassumption]|exact H4|apply ev_refl|].
      intros n Hn. cbn [annotated_of loads flat_map app] in Hn. destruct Hn as [<-|Hn].
      { left. eapply given_rle; [eapply rle_trans; [eapply evolve_rle; exact E3|exact R4]|]. exact (import_given bi Hbi _ _ _ _ H2). }
      apply (in_app_or (loads (union_of (map EName members)))) in Hn. destruct Hn as [Hn|Hn].
      * apply union_loads in Hn. destruct Hn as [->|Hn]; [|right; eapply HM; eassumption]. left.
        eapply given_rle; [eapply rle_trans; [eapply evolve_rle; eapply evolve_trans; [exact E2|exact E3]|exact R4]|].
        exact (import_given bi Hbi _ _ _ _ H1).
      * cbn in Hn. destruct Hn as [<-|[]]. left. eapply given_rle; [exact R4|]. exact (import_given bi Hbi _ _ _ _ H3).
    + apply bind_ok in H. destruct H as (ab & r1 & H1 & H). apply bind_ok in H. destruct H as (name & r2 & H2 & H).
      apply bind_ok in H. destruct H as (stm & r3 & H3 & H). apply ret_ok in H. destruct H as [-> ->]. cbn [fst snd].
      apply EXT. rewrite app_assoc. destruct (additional_given _ _ _ _ H1) as [E1 G1].
      pose proof (J_quiet _ _ _ E1 HJ) as J1. destruct (registered_new _ _ _ _ H2) as (-> & _ & R2 & _ & RD).
      eapply (class_scope st bi Hbi c pc s sc Hsc Hforce) in H3.
      2: { apply RD, (j_ready _ _ J1). }
      2: { eapply all_bases_given; [exact J1|exact R2|]. intros n Hn. eapply given_rle; [exact R2|auto]. }
      destruct H3 as (S3 & bases & body & decs & -> & HC & HQ).
      eapply J_class; [exact J1|exact H2|exact S3|exact HC|exact HQ|]. intros x. now apply field_target_ok.
Qed.
End Loops.
