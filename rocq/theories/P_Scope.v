(** Names looked up by the enum and input part of a module: the expressions. *)
From Verif Require Import Base PyAst Gql Config Stylers Registry Utils Referencer Enums Inputs
  Spec_Types Spec_Inputs Spec_Refs Spec_Imports Spec_Scope P_Base P_Monad P_Types P_Inputs P_Imports.

Lemma flat_map_sing : forall {A B} (f : A -> B) l, flat_map (fun x => [f x]) l = map f l.
Proof. induction l; cbn; congruence. Qed.
Lemma simple_noimport : forall n, mem n py_noimport = true -> In n simple_types.
Proof. intros n H. destruct (mem_spec n py_noimport) as [Hn|]; [exact Hn|discriminate]. Qed.

Section Scope.
Variables (st : list styler) (bi : list string).
Hypothesis Hbi : incl simple_types bi.

(** names that are there because of the registry: builtins of Python, imports, helpers *)
Definition given (r : reg) (n : string) : Prop :=
  In n bi \/ (exists d, In d (r_imports r) /\ last_comp d = n)
  \/ (exists k l, In k (r_builtins r) /\ built_in k = Some l /\ In n (binds l)).
Lemma given_rle : forall r r' n, rle r r' -> given r n -> given r' n.
Proof.
  intros r r' n HR [H|[(d & H & E)|(k & l & H & E)]]; [now left| |].
  - right; left. exists d. split; [now apply (rle_imports _ _ HR)|exact E].
  - right; right. exists k, l. split; [now apply (rle_builtins _ _ HR)|exact E].
Qed.

(** *** steps that only collect imports and helpers and mark at most [p] *)
Record step (p : string) (r r' : reg) : Prop := Step {
  step_ev : evolve st input_kinds r r';
  step_fwd : forall n, In n (r_fwd r') -> In n (r_fwd r) \/ n = p }.
Lemma step_refl : forall p r, step p r r.
Proof. intros; split; [apply ev_refl|auto]. Qed.
Lemma step_trans : forall p a b c, step p a b -> step p b c -> step p a c.
Proof.
  intros p a b c [E1 F1] [E2 F2]. split; [eapply evolve_trans; eassumption|].
  intros n Hn. destruct (F2 n Hn) as [H| ->]; [now apply F1|now right].
Qed.
Lemma step_quiet : forall p {A} (m : M A) r a r', ev st [KImp; KBui] m -> m r = (Ok a, r') -> step p r r'.
Proof.
  intros p A m r a r' HE H. pose proof (ev_ok _ _ _ _ _ _ HE H) as E. split.
  - eapply evolve_incl; [|exact E]. intros k; cbn; tauto.
  - assert (F : r_fwd r' = r_fwd r) by (eapply frame_fwd; [|exact E]; cbn; intuition discriminate). rewrite F; auto.
Qed.
Lemma step_rle : forall p r r', step p r r' -> rle r r'.
Proof. intros p r r' [E _]. eapply evolve_rle; exact E. Qed.
Lemma step_inputs : forall p r r', step p r r' -> r_inputs r' = r_inputs r.
Proof. intros p r r' [E _]. eapply frame_inputs; [|exact E]; cbn; intuition discriminate. Qed.
Lemma step_enums : forall p r r', step p r r' -> r_enums r' = r_enums r.
Proof. intros p r r' [E _]. eapply frame_enums; [|exact E]; cbn; intuition discriminate. Qed.
Lemma step_scalars : forall p r r', step p r r' -> r_scalars r' = r_scalars r.
Proof. intros p r r' [E _]. eapply frame_scalars; [|exact E]; cbn; intuition discriminate. Qed.
Lemma step_styled : forall p r r', step p r r' -> names_styled st r -> names_styled st r'.
Proof. intros p r r' [E _]. eapply names_styled_evolve; exact E. Qed.
Lemma step_mark : forall p r, step p r (with_fwd (sadd p (r_fwd r)) r).
Proof.
  intros p r. split; [eapply evolve_one with (k := KFwd); [cbn; tauto|constructor]|].
  cbn. intros n Hn. apply sadd_In in Hn. tauto.
Qed.

(** what a class named [p] may look up *)
Definition registered (r : reg) (n : string) : Prop :=
  (exists k, dget k (r_inputs r) = Some n) \/ exists k, dget k (r_enums r) = Some n.
Definition known (r : reg) (p n : string) : Prop := given r n \/ (n <> p /\ registered r n).
Definition covers (r : reg) (p : string) (l : list string) : Prop := forall n, In n l -> known r p n.
Lemma known_step : forall p r r' n, step p r r' -> known r p n -> known r' p n.
Proof.
  intros p r r' n HS [H|[Hne H]]; [left; eapply given_rle; [eapply step_rle; exact HS|exact H]|].
  right. split; [exact Hne|]. unfold registered. now rewrite (step_inputs _ _ _ HS), (step_enums _ _ _ HS).
Qed.
Lemma covers_step : forall p r r' l, step p r r' -> covers r p l -> covers r' p l.
Proof. intros p r r' l HS H n Hn. eapply known_step; eauto. Qed.
Lemma covers_nil : forall r p, covers r p [].
Proof. intros r p n []. Qed.
Lemma covers_cons : forall r p n l, known r p n -> covers r p l -> covers r p (n :: l).
Proof. intros r p n l H H' x [<-|Hx]; auto. Qed.
Lemma covers_app : forall r p a b, covers r p a -> covers r p b -> covers r p (a ++ b).
Proof. intros r p a b H H' n Hn. apply in_app_or in Hn. destruct Hn; auto. Qed.
Lemma covers_flat : forall {A} r p (f : A -> list string) l, (forall x, In x l -> covers r p (f x)) -> covers r p (flat_map f l).
Proof. intros A r p f l H n Hn. apply in_flat_map in Hn. destruct Hn as (x & Hx & Hn). eapply H; eassumption. Qed.

Lemma import_given : forall n r u r', register_import n r = (Ok u, r') -> given r' (last_comp n).
Proof.
  intros n r u r' H. unfold register_import in H. destruct (mem n py_noimport) eqn:E.
  - minv. left. apply Hbi. apply simple_noimport in E.
    assert (has_dot n = false) as D by (repeat (destruct E as [<-|E]; [reflexivity|]); contradiction).
    now rewrite last_comp_plain.
  - cbn in H. injection H as _ <-. right; left. exists n. split; [apply sadd_In; auto|reflexivity].
Qed.
Lemma builtin_given : forall k l n r, In k (r_builtins r) -> built_in k = Some l -> In n (binds l) -> given r n.
Proof. intros; right; right; eauto. Qed.

(** a quoted class name [n] is acceptable in class [p]: [p] is marked for rebuilding, and the
    name is either given or one of [T] *)
Definition quotes_ok (r : reg) (p : string) (T : string -> Prop) (l : list string) : Prop :=
  forall n, In n l -> In p (r_fwd r) /\ (given r n \/ T n).
Lemma quotes_step : forall p r r' T l, step p r r' -> quotes_ok r p T l -> quotes_ok r' p T l.
Proof.
  intros p r r' T l HS H n Hn. destruct (H n Hn) as [H1 H2]. split; [now apply (rle_fwd _ _ (step_rle _ _ _ HS))|].
  destruct H2 as [H2|H2]; [left; eapply given_rle; [eapply step_rle; exact HS|exact H2]|now right].
Qed.
Lemma quotes_nil : forall r p T, quotes_ok r p T [].
Proof. intros r p T n []. Qed.
Lemma quotes_app : forall r p T a b, quotes_ok r p T a -> quotes_ok r p T b -> quotes_ok r p T (a ++ b).
Proof. intros r p T a b H H' n Hn. apply in_app_or in Hn. destruct Hn; auto. Qed.
Lemma quotes_weaken : forall r p (T T' : string -> Prop) l, (forall n, T n -> T' n) -> quotes_ok r p T l -> quotes_ok r p T' l.
Proof. intros r p T T' l HT H n Hn. destruct (H n Hn) as [H1 [H2|H2]]; split; auto. Qed.

Variables (c : gconfig) (pc : inputs_config) (s : schema) (sc : dict string).
Hypothesis Hsc : forall n t, dget n sc = Some t -> has_dot t = false -> In t bi.
Hypothesis Hforce : c_force_plugin_order c = true.
Notation cls n := (style_inputtype_class st n).
Definition ready (r : reg) : Prop := names_styled st r /\ r_scalars r = sc.
Lemma ready_step : forall p r r', step p r r' -> ready r -> ready r'.
Proof. intros p r r' HS [H1 H2]. split; [eapply step_styled; eassumption|]. now rewrite (step_scalars _ _ _ HS). Qed.

Lemma scalar_scope : forall n p r e r', ready r -> reference_scalar n r = (Ok e, r') ->
  step p r r' /\ covers r' p (loads e) /\ quoted e = [].
Proof.
  intros n p r e r' [_ HR] H. split; [eapply step_quiet; [|exact H]; ev_leaf|].
  unfold reference_scalar in H. apply bind_ok in H. destruct H as (m & r1 & Hm & H). apply gets_ok in Hm. destruct Hm; subst m r1.
  destruct (dget n (r_scalars r)) as [t|] eqn:E; [|discriminate].
  apply bind_ok in H. destruct H as (u & r1 & H1 & H). apply ret_ok in H. destruct H as [-> ->]. split; [|reflexivity].
  apply covers_cons; [left|apply covers_nil]. destruct (has_dot t) eqn:D.
  - exact (import_given _ _ _ _ H1).
  - left. rewrite last_comp_plain by exact D. rewrite HR in E. eapply Hsc; eassumption.
Qed.
Lemma input_scope : forall n p r e r', ready r -> reference_inputtype st n p true r = (Ok e, r') ->
  step p r r' /\ covers r' p (loads e) /\ quotes_ok r' p (fun x => x = cls n) (quoted e).
Proof.
  intros n p r e r' [[HN _] _] H. unfold reference_inputtype in H. cbn zeta in H.
  apply bind_ok in H. destruct H as (m & r1 & Hm & H). apply gets_ok in Hm. destruct Hm; subst m r1.
  assert (MARK : (add_forward p;; ret (estr (cls n))) r = (Ok e, r') ->
     step p r r' /\ covers r' p (loads e) /\ quotes_ok r' p (fun x => x = cls n) (quoted e)).
  { clear H. intros H. apply bind_ok in H. destruct H as (u & r1 & H1 & H). apply ret_ok in H. destruct H as [-> ->].
    cbn in H1. injection H1 as _ <-. split; [apply step_mark|]. split; [apply covers_nil|].
    intros x [<-|[]]. split; [cbn; apply sadd_In; auto|now right]. }
  destruct (dget n (r_inputs r)) as [k|] eqn:E; [|now apply MARK].
  destruct (String.eqb_spec p (cls n)) as [Hp|Hp]; [now apply MARK|].
  apply ret_ok in H. destruct H as [-> ->]. split; [apply step_refl|]. split; [|apply quotes_nil].
  apply covers_cons; [right|apply covers_nil]. split; [rewrite (HN _ _ E); congruence|]. left; eauto.
Qed.
Lemma enum_scope : forall n p r e r', ready r -> reference_enum st n p false r = (Ok e, r') ->
  step p r r' /\ covers r' p (loads e) /\ quotes_ok r' p (fun _ => False) (quoted e).
Proof.
  intros n p r e r' [(_ & HN & _) _] H. unfold reference_enum in H. destruct (mem_spec n built_in_keys) as [Hk|Hk].
  - apply bind_ok in H. destruct H as (u & r1 & H1 & H). apply bind_ok in H. destruct H as (u' & r2 & H2 & H).
    apply ret_ok in H. destruct H as [-> ->]. unfold register_builtin, modify in H1. injection H1 as _ <-.
    unfold add_forward, modify in H2. injection H2 as _ <-. split; [|split].
    + eapply step_trans; [|exact (step_mark p (with_builtins (sadd n (r_builtins r)) r))]. split; [eapply evolve_one with (k := KBui); [cbn; tauto|constructor]|auto].
    + apply covers_nil.
    + intros x [<-|[]]. split; [cbn; apply sadd_In; auto|left].
      assert (B : exists l, built_in n = Some l /\ In n (binds l)).
      { repeat (destruct Hk as [<-|Hk]; [eexists; split; [reflexivity|cbn; tauto]|]). contradiction. }
      destruct B as (l & B1 & B2). eapply builtin_given; [|exact B1|exact B2]. cbn. apply sadd_In; auto.
  - cbn zeta in H. apply bind_ok in H. destruct H as (m & r1 & Hm & H). apply gets_ok in Hm. destruct Hm; subst m r1.
    destruct (negb (dmem n (r_enums r))) eqn:D; [discriminate|]. cbn [orb] in H.
    destruct (String.eqb_spec p (style_enum_class st n)) as [Hp|Hp]; [discriminate|].
    apply ret_ok in H. destruct H as [-> ->]. split; [apply step_refl|]. split; [|apply quotes_nil].
    apply covers_cons; [right|apply covers_nil]. split; [congruence|]. right. apply negb_false_iff in D. unfold dmem in D.
    destruct (dget n (r_enums r)) as [x|] eqn:E; [|discriminate]. exists n. rewrite E. f_equal. now apply HN.
Qed.

Definition target (t : gty) (x : string) : Prop := is_input s (gty_name t) /\ x = cls (gty_name t).
Lemma annotation_scope : forall t p o r e r', ready r -> generate_input_annotation c st s t p o r = (Ok e, r') ->
  step p r r' /\ covers r' p (loads e) /\ quotes_ok r' p (target t) (quoted e).
Proof.
  intros t. induction t as [n|t IH|t IH]; intros p o r e r' HR H.
  - cbn [generate_input_annotation] in H. cbn zeta in H. rewrite Hforce in H. cbn [negb] in H.
    set (ref := match get_type s n with Some (TScalar _) => reference_scalar n | Some (TEnum _ _) => reference_enum st n p false
      | Some (TInput _ _ _) => reference_inputtype st n p true | _ => raise NotImplementedErrorC "Unknown input type" end) in *.
    assert (L : forall r1 x r2, ready r1 -> ref r1 = (Ok x, r2) ->
       step p r1 r2 /\ covers r2 p (loads x) /\ quotes_ok r2 p (target (GNamed n)) (quoted x)).
    { intros r1 x r2 HR1 Hx. unfold ref in Hx. destruct (get_type s n) as [[]|] eqn:E; try discriminate Hx.
      - destruct (scalar_scope _ p _ _ _ HR1 Hx) as (A & B & C). rewrite C. split; [exact A|split; [exact B|apply quotes_nil]].
      - destruct (enum_scope _ _ _ _ _ HR1 Hx) as (A & B & C). split; [exact A|split; [exact B|]]. eapply quotes_weaken; [|exact C]. intros y [].
      - destruct (input_scope _ _ _ _ _ HR1 Hx) as (A & B & C). split; [exact A|split; [exact B|]]. eapply quotes_weaken; [|exact C].
        intros y ->. split; [|reflexivity]. cbn. unfold is_input. eauto. }
    assert (H' : (if o then register_import "typing.Optional";; let* e := ref in ret (optional_of e) else ref) r = (Ok e, r')).
    { revert H. destruct (get_type s n) as [[]|]; try discriminate; auto. }
    destruct o; [|now apply L].
    apply bind_ok in H'. destruct H' as (u & r1 & H1 & H'). apply bind_ok in H'. destruct H' as (x & r2 & H2 & H').
    apply ret_ok in H'. destruct H' as [-> ->].
    assert (S1 : step p r r1) by (eapply step_quiet; [|exact H1]; ev_leaf).
    destruct (L _ _ _ (ready_step _ _ _ S1 HR) H2) as (A & B & C). split; [eapply step_trans; eassumption|]. split; [|exact C].
    apply covers_cons; [|exact B]. left. eapply given_rle; [eapply step_rle; exact A|]. exact (import_given _ _ _ _ H1).
  - cbn [generate_input_annotation] in H. cbn zeta in H. apply bind_ok in H. destruct H as (u & r1 & H1 & H).
    assert (S1 : step p r r1) by (eapply step_quiet; [|exact H1]; ev_tac).
    assert (G1 : given r1 (if tuple_for_inputs c then "Tuple" else "List")).
    { destruct (tuple_for_inputs c); apply import_given in H1; exact H1. }
    assert (W : forall r2 x, rle r1 r2 -> covers r2 p (loads x) -> quotes_ok r2 p (target (GList t)) (quoted x) ->
       covers r2 p (loads ((if tuple_for_inputs c then tuple_of else list_of) x))
       /\ quotes_ok r2 p (target (GList t)) (quoted ((if tuple_for_inputs c then tuple_of else list_of) x))).
    { intros r2 x R2 A B. apply (given_rle _ _ _ R2) in G1. destruct (tuple_for_inputs c).
      - cbn [tuple_of loads quoted flat_map app String.eqb Ascii.eqb Bool.eqb]. rewrite app_nil_r. split; [|rewrite app_nil_r; exact B].
        apply covers_cons; [now left|]. exact A.
      - split; [|exact B]. apply covers_cons; [now left|exact A]. }
    destruct o.
    + apply bind_ok in H. destruct H as (u2 & r2 & H2 & H). apply bind_ok in H. destruct H as (x & r3 & H3 & H).
      apply ret_ok in H. destruct H as [-> ->].
      assert (S2 : step p r1 r2) by (eapply step_quiet; [|exact H2]; ev_leaf).
      destruct (IH _ _ _ _ _ (ready_step _ _ _ S2 (ready_step _ _ _ S1 HR)) H3) as (A & B & C).
      destruct (W r3 x) as [W1 W2]; [eapply rle_trans; eapply step_rle; eassumption|exact B|exact C|].
      split; [eapply step_trans; [exact S1|eapply step_trans; eassumption]|]. split; [|exact W2].
      apply covers_cons; [|exact W1]. left. eapply given_rle; [eapply step_rle; exact A|]. exact (import_given _ _ _ _ H2).
    + apply bind_ok in H. destruct H as (x & r3 & H3 & H). apply ret_ok in H. destruct H as [-> ->].
      destruct (IH _ _ _ _ _ (ready_step _ _ _ S1 HR) H3) as (A & B & C).
      split; [eapply step_trans; eassumption|]. apply W; [eapply step_rle; eassumption|exact B|exact C].
  - exact (IH _ _ _ _ _ HR H).
Qed.

Lemma override_scope : forall o k n p r e r', (exists l, built_in k = Some l /\ In n (binds l)) ->
  reference_override o k n r = (Ok e, r') -> step p r r' /\ covers r' p (loads e).
Proof.
  intros o k n p r e r' (l & B1 & B2) H. split; [eapply step_quiet; [|exact H]; ev_leaf|].
  unfold reference_override in H.
  assert (BU : forall r1 r2 u, register_builtin k r1 = (Ok u, r2) -> given r2 n).
  { intros r1 r2 u Hu. cbn in Hu. injection Hu as _ <-. eapply builtin_given; [|exact B1|exact B2]. cbn. apply sadd_In; auto. }
  destruct o as [o|].
  2: { apply bind_ok in H. destruct H as (u & r1 & H1 & H). apply ret_ok in H. destruct H as [-> ->].
       apply covers_cons; [left; eauto|apply covers_nil]. }
  destruct (truthy (Some o)); apply bind_ok in H; destruct H as (u & r1 & H1 & H); apply ret_ok in H; destruct H as [-> ->];
    (apply covers_cons; [left|apply covers_nil]); [exact (import_given _ _ _ _ H1)|eauto].
Qed.
Lemma metadata_scope : forall e d dep p r e' r', annotate_field_metadata c e (option_map estr d) dep r = (Ok e', r') ->
  step p r r' /\ (covers r p (loads e) -> covers r' p (loads e')) /\ quoted e' = quoted e.
Proof.
  intros e d dep p r e' r' H. unfold annotate_field_metadata in H.
  apply bind_ok in H. destruct H as (m1 & r1 & H1 & H). apply bind_ok in H. destruct H as (m2 & r2 & H2 & H).
  assert (A1 : step p r r1 /\ covers r1 p (flat_map loads m1)).
  { destruct d as [d|]; cbn in H1.
    - apply bind_ok in H1. destruct H1 as (f & r3 & H3 & H1). apply ret_ok in H1. destruct H1 as [-> ->].
      destruct (override_scope _ "GraphQLDefault" "GraphQLDefault" p _ _ _ ltac:(eexists; split; [reflexivity|cbn; auto]) H3) as [A B].
      split; [exact A|]. cbn. rewrite !app_nil_r. exact B.
    - apply ret_ok in H1. destruct H1 as [-> ->]. split; [apply step_refl|apply covers_nil]. }
  assert (A2 : step p r1 r2 /\ covers r2 p (flat_map loads m2)).
  { destruct dep as [d'|]; cbn in H2.
    - apply bind_ok in H2. destruct H2 as (f & r3 & H3 & H2). apply ret_ok in H2. destruct H2 as [-> ->].
      destruct (override_scope _ "Deprecated" "Deprecated" p _ _ _ ltac:(eexists; split; [reflexivity|cbn; auto]) H3) as [A B].
      split; [exact A|]. cbn. rewrite !app_nil_r. exact B.
    - apply ret_ok in H2. destruct H2 as [-> ->]. split; [apply step_refl|apply covers_nil]. }
  destruct A1 as [S1 C1]. destruct A2 as [S2 C2].
  assert (C12 : covers r2 p (flat_map loads (m1 ++ m2))).
  { rewrite flat_map_app. apply covers_app; [eapply covers_step; eassumption|exact C2]. }
  destruct (m1 ++ m2) as [|m ms].
  - apply ret_ok in H. destruct H as [-> ->]. split; [eapply step_trans; eassumption|]. split; [|reflexivity].
    intros A. eapply covers_step; [exact S2|]. eapply covers_step; eassumption.
  - apply bind_ok in H. destruct H as (u & r3 & H3 & H). apply ret_ok in H. destruct H as [-> ->].
    assert (S3 : step p r2 r3) by (eapply step_quiet; [|exact H3]; ev_leaf).
    split; [eapply step_trans; [exact S1|eapply step_trans; eassumption]|]. split; [|reflexivity].
    intros A. apply covers_cons; [left; exact (import_given _ _ _ _ H3)|]. cbn [loads].
    change (flat_map loads (e :: m :: ms)) with (loads e ++ flat_map loads (m :: ms)). apply covers_app.
    + eapply covers_step; [exact S3|]. eapply covers_step; [exact S2|]. eapply covers_step; eassumption.
    + eapply covers_step; eassumption.
Qed.
Lemma value_scope : forall f k o d p r v r', generate_input_field_value f k o d r = (Ok v, r') ->
  step p r r' /\ covers r' p (opt_loads v).
Proof.
  intros f k o d p r v r' H. split; [eapply step_quiet; [|exact H]; ev_leaf|]. unfold generate_input_field_value in H.
  cbn zeta in H. destruct (negb _ && negb _).
  - apply ret_ok in H. destruct H as [-> ->]. destruct o; apply covers_nil.
  - apply bind_ok in H. destruct H as (u & r1 & H1 & H). apply ret_ok in H. destruct H as [-> ->].
    cbn [opt_loads field_call loads flat_map app].
    apply covers_cons; [left; exact (import_given _ _ _ _ H1)|].
    intros n Hn. exfalso. apply in_flat_map in Hn. destruct Hn as (kv & Hk & Hn). apply in_map_iff in Hk.
    destruct Hk as (kv' & <- & Hk). cbn in Hn.
    destruct (negb (String.eqb f k)), o, (truthy d); cbn in Hk; intuition subst; contradiction.
Qed.
Lemma config_scope : forall k tn p r cf r', generate_pydantic_config k c tn r = (Ok cf, r') ->
  step p r r' /\ covers r' p (flat_map runs cf).
Proof.
  intros k tn p r cf r' H. split.
  { eapply step_quiet; [|exact H]. unfold generate_pydantic_config, generate_config_dict. ev_tac. }
  unfold generate_pydantic_config, generate_config_dict in H. destruct (String.eqb (c_pydantic_version c) "v2").
  - cbn zeta in H. destruct (freeze_kws k c tn ++ _) as [|kw kws]; [apply ret_ok in H; destruct H as [-> ->]; apply covers_nil|].
    apply bind_ok in H. destruct H as (u & r1 & H1 & H). apply ret_ok in H. destruct H as [-> ->].
    cbn [flat_map runs loads app]. rewrite app_nil_r. apply covers_cons; [left; exact (import_given _ _ _ _ H1)|].
    intros n Hn. exfalso. apply in_flat_map in Hn. destruct Hn as (kv & Hk & Hn). apply in_map_iff in Hk.
    destruct Hk as (kv' & <- & Hk). contradiction.
  - apply ret_ok in H. destruct H as [-> ->]. unfold generate_config_class_pydantic.
    destruct (freeze_kws k c tn ++ _) as [|kw kws]; [apply covers_nil|]. intros n Hn. exfalso.
    cbn [flat_map runs loads app docstring] in Hn. rewrite app_nil_r in Hn. apply in_flat_map in Hn. destruct Hn as (x & Hx & Hn).
    apply in_map_iff in Hx. destruct Hx as (kv & <- & _). contradiction.
Qed.
End Scope.
