(** Parameters of generated functions and factories. *)
From Verif Require Import Base PyAst Gql Config Stylers Registry Utils Funcs InputFuncs
  Spec_Types Spec_Inputs Spec_Annot Spec_Params P_Base P_Monad P_Types P_Inputs P_Annot P_Funcs P_Calls2 P_Funcs2 P_Loaders.

Lemma takes_optional : forall e v, takes (optional_of e) v <-> v = JNull \/ takes e v.
Proof. intros e v. split; [intros H; inversion H; subst; auto|intros [->|H]; [apply tk_none|now apply tk_some]]. Qed.
Lemma takes_union2 : forall a b v, takes (union_of [a; b]) v <-> takes a v \/ takes b v.
Proof.
  intros a b v. split.
  - intros H; inversion H as [| | | |? e ? HI HT| |]; subst. destruct HI as [<-|[<-|[]]]; auto.
  - intros [H|H]; eapply tk_union; [now left|exact H|right; now left|exact H].
Qed.
Lemma takes_iterable : forall e v, takes (ESub (EName "Iterable") e) v <-> exists b l, v = JSeq b l /\ forall x, In x l -> takes e x.
Proof. intros e v. split; [intros H; inversion H; subst; eauto|intros (b & l & -> & H); now apply tk_iterable]. Qed.
Lemma takes_list : forall e v, takes (list_of e) v <-> exists l, v = JSeq false l /\ forall x, In x l -> takes e x.
Proof. intros e v. split; [intros H; inversion H; subst; eauto|intros (l & -> & H); now apply tk_list]. Qed.
Lemma takes_ref : forall e n v, e = EName n \/ e = estr n -> (takes e v <-> v = JLeaf n).
Proof. intros e n v [->| ->]; (split; [intros H; inversion H; reflexivity|intros ->; constructor]). Qed.
(** an annotation that may be optional *)
Definition optional_ok (o : bool) (Q : jval -> Prop) (e : expr) : Prop := forall v, takes e v <-> (if o then Q v else v <> JNull /\ Q v).
Lemma wrap_named : forall o e leaf n seq, (forall v, takes e v <-> exists cls, leaf n cls /\ v = JLeaf cls) ->
  optional_ok o (legal seq leaf (GNamed n)) (if o then optional_of e else e).
Proof.
  intros [|] e leaf n seq H v; cbn.
  - rewrite takes_optional, H. reflexivity.
  - rewrite H. split; [intros (cls & L & ->); split; [discriminate|eauto]|intros (N & [->|X]); [now destruct N|exact X]].
Qed.
Lemma opt_wrap_is : forall o e r x r', opt_wrap o e r = (Ok x, r') -> x = if o then optional_of e else e.
Proof. intros [|] e r x r' H; unfold opt_wrap in H; minv; reflexivity. Qed.

Section P.
Variables (c : gconfig) (st : list styler) (s : schema) (pc : fcfg) (sc : dict string).
Hypothesis HB : no_helper_enum s.
Notation leaf := (param_leaf s sc st (fun n => dget n (f_coercible_scalars pc)) (fun n => dget n (f_coercible_inputs pc))).
Definition at_params (r : reg) : Prop := names_styled st r /\ r_scalars r = sc.
Lemma at_evolve : forall r r', evolve st Kf r r' -> at_params r -> at_params r'.
Proof.
  intros r r' V (H1 & H2). split; [eapply names_styled_evolve; eassumption|]. rewrite <- H2. eapply (frame_scalars st Kf); [cbn; intuition discriminate|exact V].
Qed.
Lemma at_ok : forall {A} (m : M A) r a r', ev st Kf m -> m r = (Ok a, r') -> at_params r -> at_params r'.
Proof. intros A m r a r' E H. apply at_evolve. eapply ev_ok; eassumption. Qed.
Lemma named_ann : forall n o r e r', at_params r -> generate_input_annotation st s pc (GNamed n) o r = (Ok e, r') ->
  optional_ok o (legal (fun _ => True) leaf (GNamed n)) e.
Proof.
  intros n o r e r' (HN & HS) H. cbn [generate_input_annotation] in H.
  assert (LS : forall d p, get_type s n = Some (TScalar d) -> dget n (f_coercible_scalars pc) = Some p -> forall v, takes (EName (last_comp p)) v <-> exists cls, leaf n cls /\ v = JLeaf cls).
  { intros d p E1 E2 v. unfold param_leaf. rewrite E1, E2. rewrite (takes_ref _ (last_comp p)) by auto. split; [intros ->; eauto|now intros (x & -> & ->)]. }
  destruct (get_type s n) as [t|] eqn:ET; [|discriminate]. destruct t; try discriminate.
  - apply bind_ok in H as (e0 & r1 & H1 & H). apply opt_wrap_is in H. subst e. apply wrap_named.
    destruct (dget n (f_coercible_scalars pc)) as [p|] eqn:EC.
    + minv. eapply LS; reflexivity.
    + apply reference_scalar_ok in H1 as (p & Hp & ->). rewrite HS in Hp. intros v. unfold param_leaf. rewrite ET, EC.
      rewrite (takes_ref _ (last_comp p)) by auto. split; [intros ->; eauto|]. intros (x & (q & Hq & ->) & ->). congruence.
  - apply bind_ok in H as (u & r1 & H1 & H). apply bind_ok in H as (e0 & r2 & H2 & H). apply ret_ok in H as (-> & _). apply wrap_named.
    apply reference_enum_ok in H2; [|eapply HB; exact ET]. intros v. unfold param_leaf. rewrite ET. rewrite (takes_ref _ _ _ H2). split; [intros ->; eauto|now intros (x & -> & ->)].
  - apply bind_ok in H as (e0 & r1 & H1 & H). apply bind_ok in H as (e1 & r2 & H2 & H). apply opt_wrap_is in H. subst e. apply wrap_named.
    apply reference_inputtype_ok in H1; [|exact HN]. intros v. unfold param_leaf. rewrite ET.
    destruct (dget n (f_coercible_inputs pc)) as [p|] eqn:EC.
    + unfold coercible_input_union in H2. minv. rewrite takes_union2, (takes_ref _ _ _ H1), (takes_ref (EName (last_comp p)) (last_comp p)) by auto. split.
      * intros [->| ->]; eexists; (split; [|reflexivity]); [now left|right; eauto].
      * intros (x & [->|(q & [= <-] & ->)] & ->); auto.
    + minv. rewrite (takes_ref _ _ _ H1). split; [intros ->; eexists; split; [now left|reflexivity]|]. intros (x & [->|(q & [=] & _)] & ->). reflexivity.
Qed.
Lemma ann_ok : forall t o r e r', at_params r -> generate_input_annotation st s pc t o r = (Ok e, r') -> optional_ok o (legal (fun _ => True) leaf t) e.
Proof.
  induction t as [n|t IH|t IH]; intros o r e r' HA H.
  - eapply named_ann; eassumption.
  - cbn [generate_input_annotation] in H. apply bind_ok in H as (u & r1 & H1 & H). apply bind_ok in H as (u2 & r2 & H2 & H). apply bind_ok in H as (e1 & r3 & H3 & H). apply ret_ok in H as (-> & _).
    assert (A2 : at_params r2).
    { eapply at_ok; [|exact H2|eapply at_ok; [|exact H1|exact HA]]; [destruct o; unfold Kf; ev_tac|unfold Kf; ev_tac]. }
    pose proof (IH _ _ _ _ A2 H3) as I. unfold optional_ok in I. cbn [legal]. intros v. destruct o.
    + rewrite takes_optional, takes_iterable. split.
      * intros [->|(b & l & -> & L)]; [now left|right]. exists b, l. repeat split. intros x Hx. now apply I, L.
      * intros [->|(b & l & _ & -> & L)]; [now left|right]. exists b, l. split; [reflexivity|]. intros x Hx. now apply I, L.
    + rewrite takes_iterable. split.
      * intros (b & l & -> & L). split; [discriminate|right]. exists b, l. repeat split. intros x Hx. now apply I, L.
      * intros (N & [->|(b & l & _ & -> & L)]); [now destruct N|]. exists b, l. split; [reflexivity|]. intros x Hx. now apply I, L.
  - cbn [generate_input_annotation] in H. pose proof (IH _ _ _ _ HA H) as I. intros v. rewrite (I v). cbn [legal]. destruct o; [reflexivity|tauto].
Qed.
Lemma override_is : forall o b n r e r', reference_override o b n r = (Ok e, r') -> e = EName (match o with None | Some EmptyString => n | Some o => last_comp o end).
Proof. intros [[|x o]|] b n r e r' H; unfold reference_override in H; cbn [truthy] in H; minv; reflexivity. Qed.
Notation req_ok := (fun (kf : string * inputfield) a => pa_name a = style_with sty_node st (fst kf) /\ exists e, pa_ann a = Some e /\ forall v, takes e v <-> legal (fun _ => True) leaf (if_type (snd kf)) v).
Notation opt_ok := (fun (kf : string * inputfield) a => pa_name a = style_with sty_node st (fst kf) /\ exists e, pa_ann a = Some e /\ forall v, takes e v <-> legal (fun _ => True) leaf (if_type (snd kf)) v \/ v = JLeaf (unset_class (c_unset_type_class c))).
Lemma params_loop : forall fields acc r p r', at_params r ->
  mfold (fun acc kf =>
    let t := if_type (snd kf) in
    if is_nonnull t then
      let* a := generate_input_annotation st s pc t true in
      ret (papp acc (Params [PyArg (generate_node_name st (fst kf)) (Some a)] [] []))
    else
      let* a := generate_input_annotation st s pc t true in
      let* u := unset_union_annotation c a in
      let* d := reference_unset c in
      ret (papp acc (Params [] [PyArg (generate_node_name st (fst kf)) (Some u)] [d]))) fields acc r = (Ok p, r') ->
  exists pos kw, p_pos p = p_pos acc ++ pos /\ p_kw p = p_kw acc ++ kw
  /\ Forall2 req_ok (filter (fun kf => negb (nullable (snd kf))) fields) pos /\ Forall2 opt_ok (filter (fun kf => nullable (snd kf)) fields) kw.
Proof.
  induction fields as [|[k y] fields IH]; intros acc r p r' HA H; cbn [mfold filter fst snd] in *.
  - apply ret_ok in H as (-> & _). exists [], []. rewrite !app_nil_r. repeat split; constructor.
  - apply bind_ok in H as (acc1 & r1 & H1 & H). cbn zeta in H1.
    assert (NB : is_nonnull (if_type y) = negb (nullable y)) by (unfold is_nonnull, nullable; destruct (if_type y); reflexivity).
    rewrite NB in H1. destruct (nullable y) eqn:NU; cbn [negb] in *.
    + apply bind_ok in H1 as (a & r2 & H2 & H1). apply bind_ok in H1 as (u & r3 & H3 & H1). apply bind_ok in H1 as (d & r4 & H4 & H1). apply ret_ok in H1 as (-> & ->).
      assert (A2 := at_ok _ _ _ _ (ev_input_annotation st s pc _ _) H2 HA). pose proof (ann_ok _ _ _ _ _ HA H2) as AO.
      assert (A3 : at_params r3) by (eapply at_ok; [|exact H3|exact A2]; apply ev_unset_union). assert (A4 : at_params r4) by (eapply at_ok; [|exact H4|exact A3]; unfold reference_unset; unfold Kf; ev_tac).
      destruct (IH _ _ _ _ A4 H) as (pos & kw & E1 & E2 & F1 & F2). unfold papp in E1, E2. cbn [p_pos p_kw] in E1, E2.
      exists pos, (PyArg (generate_node_name st k) (Some u) :: kw). rewrite E1, E2, app_nil_r, <- app_assoc. split; [reflexivity|]. split; [reflexivity|]. split; [exact F1|]. constructor; [|exact F2].
      split; [reflexivity|]. exists u. split; [reflexivity|]. unfold unset_union_annotation in H3. apply bind_ok in H3 as (x & r5 & _ & H3). apply bind_ok in H3 as (z & r6 & H6 & H3). apply ret_ok in H3 as (-> & _).
      unfold reference_unset_type in H6. apply override_is in H6. intros v. rewrite takes_union2, (AO v). apply or_iff_compat_l. subst z. unfold unset_class.
      apply takes_ref. now left.
    + apply bind_ok in H1 as (a & r2 & H2 & H1). apply ret_ok in H1 as (-> & ->).
      assert (A2 := at_ok _ _ _ _ (ev_input_annotation st s pc _ _) H2 HA). pose proof (ann_ok _ _ _ _ _ HA H2) as AO.
      destruct (IH _ _ _ _ A2 H) as (pos & kw & E1 & E2 & F1 & F2). unfold papp in E1, E2. cbn [p_pos p_kw] in E1, E2.
      exists (PyArg (generate_node_name st k) (Some a) :: pos), kw. rewrite E1, E2, app_nil_r, <- app_assoc. split; [reflexivity|]. split; [reflexivity|]. split; [|exact F2]. constructor; [|exact F1].
      split; [reflexivity|]. exists a. split; [reflexivity|]. exact AO.
Qed.
End P.

(** operation variables *)
Section V.
Variables (st : list styler) (r0 : reg).
Definition leaf_expr (ov : option expr) (n : string) (e : expr) : Prop := match ov with Some x => e = x | None => any_input_result st r0 n = Ok e end.
Lemma type_ann_ok : forall (leaf : string -> string -> Prop) ov t o r e r', named st (gty_name t) -> same_maps r0 r -> recurse_type_annotation st ov t o r = (Ok e, r') ->
  (forall x, leaf_expr ov (gty_name t) x -> forall v, takes x v <-> exists cls, leaf (gty_name t) cls /\ v = JLeaf cls) -> optional_ok o (legal (fun b => b = false) leaf t) e.
Proof.
  intros leaf ov. induction t as [n|t IH|t IH]; intros o r e r' HN HS H HL; cbn [recurse_type_annotation gty_name] in *.
  - apply bind_ok in H as (x & r1 & H1 & H). apply opt_wrap_is in H. subst e. apply wrap_named. apply HL. unfold leaf_expr. destruct ov as [y|]; [now apply ret_ok in H1 as (-> & _)|].
    destruct (any_input_eq st n r HN) as (r2 & _ & E). rewrite E in H1. injection H1 as H1 _. rewrite <- H1. symmetry. now apply any_input_same.
  - assert (X : exists e1 r2 r3, same_maps r0 r2 /\ recurse_type_annotation st ov t true r2 = (Ok e1, r3) /\ e = if o then optional_of (list_of e1) else list_of e1).
    { destruct o.
      - apply bind_ok in H as (u & r1 & H1 & H). apply bind_ok in H as (u2 & r2 & H2 & H). apply bind_ok in H as (e1 & r3 & H3 & H). apply ret_ok in H as (-> & _).
        exists e1, r2, r3. split; [|auto]. destruct (same_import "typing.List" r) as (ra & Sa & Ea). rewrite Ea in H1. injection H1 as _ <-.
        destruct (same_import "typing.Optional" ra) as (rb & Sb & Eb). rewrite Eb in H2. injection H2 as _ <-. eapply same_trans; [exact HS|]. eapply same_trans; eassumption.
      - apply bind_ok in H as (u & r1 & H1 & H). apply bind_ok in H as (e1 & r3 & H3 & H). apply ret_ok in H as (-> & _).
        exists e1, r1, r3. split; [|auto]. destruct (same_import "typing.List" r) as (ra & Sa & Ea). rewrite Ea in H1. injection H1 as _ <-. eapply same_trans; eassumption. }
    destruct X as (e1 & r2 & r3 & S2 & H2 & ->). pose proof (IH _ _ _ _ HN S2 H2 HL) as I. unfold optional_ok in I. cbn [legal]. intros v. destruct o.
    + rewrite takes_optional, takes_list. split.
      * intros [->|(l & -> & L)]; [now left|right]. exists false, l. repeat split. intros x Hx. now apply I, L.
      * intros [->|(b & l & -> & -> & L)]; [now left|right]. exists l. split; [reflexivity|]. intros x Hx. now apply I, L.
    + rewrite takes_list. split.
      * intros (l & -> & L). split; [discriminate|right]. exists false, l. repeat split. intros x Hx. now apply I, L.
      * intros (N & [->|(b & l & -> & -> & L)]); [now destruct N|]. exists l. split; [reflexivity|]. intros x Hx. now apply I, L.
  - pose proof (IH _ _ _ _ HN HS H HL) as I. intros v. rewrite (I v). cbn [legal]. destruct o; [reflexivity|tauto].
Qed.
End V.
Lemma truthy_some : forall o, o <> Some "" -> truthy o = match o with Some _ => true | None => false end.
Proof. intros [[|x o]|] H; [now destruct H|reflexivity|reflexivity]. Qed.
Theorem variable_ann : forall st pc t r e r', names_styled st r -> named st (gty_name t) ->
  dget (gty_name t) (f_coercible_scalars pc) <> Some "" -> dget (gty_name t) (f_coercible_inputs pc) <> Some "" ->
  generate_variable_annotation st pc t r = (Ok e, r') ->
  forall v, takes e v <-> legal (fun b => b = false) (variable_leaf st r (fun n => dget n (f_coercible_scalars pc)) (fun n => dget n (f_coercible_inputs pc))) t v.
Proof.
  intros st pc t r e r' HN HM N1 N2 H. unfold generate_variable_annotation in H. cbn zeta in H. rewrite !truthy_some in H by assumption.
  assert (S0 : forall r, same_maps r r) by (intros x; repeat split).
  destruct (dget (gty_name t) (f_coercible_scalars pc)) as [p|] eqn:E1.
  - apply bind_ok in H as (u & r1 & H1 & H). cbn [opt_str] in *.
    apply (type_ann_ok st r1 (variable_leaf st r (fun n => dget n (f_coercible_scalars pc)) (fun n => dget n (f_coercible_inputs pc))) _ _ _ _ _ _ HM (S0 r1)) in H; [exact H|].
    intros x -> v. unfold variable_leaf. rewrite E1. rewrite (takes_ref _ (last_comp p)) by auto. split; [intros ->; eauto|now intros (z & -> & ->)].
  - destruct (dget (gty_name t) (f_coercible_inputs pc)) as [p|] eqn:E2.
    + apply bind_ok in H as (ref & r1 & H1 & H). apply bind_ok in H as (u & r2 & H2 & H). cbn [opt_str] in *. apply reference_inputtype_ok in H1; [|exact HN].
      unfold coercible_input_union in H2. apply bind_ok in H2 as (z & r3 & _ & H2). apply bind_ok in H2 as (z2 & r4 & _ & H2). apply ret_ok in H2 as (-> & _).
      apply (type_ann_ok st r2 (variable_leaf st r (fun n => dget n (f_coercible_scalars pc)) (fun n => dget n (f_coercible_inputs pc))) _ _ _ _ _ _ HM (S0 r2)) in H; [exact H|].
      intros x -> v. unfold variable_leaf. rewrite E1, E2, takes_union2, (takes_ref _ _ _ H1), (takes_ref (EName (last_comp p)) (last_comp p)) by auto. split.
      * intros [->| ->]; eexists; (split; [|reflexivity]); auto.
      * intros (y & [->| ->] & ->); auto.
    + apply (type_ann_ok st r (variable_leaf st r (fun n => dget n (f_coercible_scalars pc)) (fun n => dget n (f_coercible_inputs pc))) _ _ _ _ _ _ HM (S0 r)) in H; [exact H|].
      intros x Hx v. unfold variable_leaf. rewrite E1, E2. destruct (any_input_class st _ _ _ Hx) as (cls & HC & HE).
      rewrite (takes_ref x cls) by (destruct HE as [->|[_ ->]]; auto). split; [intros ->; eauto|]. intros (y & HY & ->). f_equal. eapply class_for_fun; eassumption.
Qed.
Lemma filter_ext_in' : forall {A} (f g : A -> bool) l, (forall x, In x l -> f x = g x) -> filter f l = filter g l.
Proof. intros A f g. induction l as [|a l IH]; intros H; [reflexivity|]. cbn. rewrite (H a) by now left. rewrite IH; [reflexivity|]. intros x Hx. apply H. now right. Qed.
Lemma leaf_ext : forall seq (l1 l2 : string -> string -> Prop) t, (forall n c, l1 n c <-> l2 n c) -> forall v, legal seq l1 t v <-> legal seq l2 t v.
Proof.
  intros seq l1 l2 t H. induction t as [n|t IH|t IH]; intros v; cbn.
  - apply or_iff_compat_l. split; intros (x & Hx & E); exists x; (split; [now apply H|exact E]).
  - apply or_iff_compat_l. split; intros (b & l & S & E & L); exists b, l; (split; [exact S|]; split; [exact E|]; intros x Hx; now apply IH, L).
  - now rewrite IH.
Qed.
Lemma Forall2_imp : forall {A B} (R S : A -> B -> Prop) l m, (forall a b, R a b -> S a b) -> Forall2 R l m -> Forall2 S l m.
Proof. intros A B R S l m H F. induction F; constructor; auto. Qed.
Theorem factory_params : forall c st s fc n fields r a fn args body rt decs r', names_styled st r -> no_helper_enum s ->
  NoDup (dkeys (i_coercible_scalars fc)) -> NoDup (dkeys (i_coercible_inputs fc)) ->
  generate_input_func c st s (merged_ifcfg c fc) n fields r = (Ok (SFunc a fn args body rt decs), r') ->
  params_of (param_leaf s (r_scalars r) st (coerced (i_coercible_scalars fc) (c_coercible_scalars c)) (coerced (i_coercible_inputs fc) (c_coercible_inputs c)))
    (unset_class (c_unset_type_class c)) st nullable fields args.
Proof.
  intros c st s fc n fields r a fn args body rt decs r' HN HB D1 D2 H. unfold generate_input_func in H.
  apply bind_ok in H as (cls & r1 & H1 & H). assert (r1 = r) as -> by (unfold get_inputtype_class in H1; minv; reflexivity).
  apply bind_ok in H as (p & r2 & H2 & H). apply bind_ok in H as (doc & r3 & _ & H). apply bind_ok in H as (h & r4 & _ & H). apply bind_ok in H as (b & r5 & _ & H). apply ret_ok in H as (E & _). injection E as -> -> -> -> -> ->.
  pose proof (input_type_params_ok _ _ _ _ _ _ _ _ H2) as (_ & _ & PD).
  unfold generate_input_type_params in H2. eapply (params_loop c st s _ (r_scalars r) HB) in H2; [|split; [exact HN|reflexivity]].
  destruct H2 as (pos & kw & E1 & E2 & F1 & F2). cbn [p_pos p_kw pnil app] in E1, E2. subst pos kw. exists (p_pos p), (p_kw p). cbn [a_args a_defaults]. split; [reflexivity|].
  split; [now rewrite PD, map_length|].
  assert (L : forall k x, param_leaf s (r_scalars r) st (fun n => dget n (f_coercible_scalars (as_fcfg (merged_ifcfg c fc)))) (fun n => dget n (f_coercible_inputs (as_fcfg (merged_ifcfg c fc)))) k x
    <-> param_leaf s (r_scalars r) st (coerced (i_coercible_scalars fc) (c_coercible_scalars c)) (coerced (i_coercible_inputs fc) (c_coercible_inputs c)) k x).
  { intros k x. unfold param_leaf, coerced, as_fcfg, merged_ifcfg. cbn [f_coercible_scalars f_coercible_inputs i_coercible_scalars i_coercible_inputs]. rewrite !dget_dmerge by assumption. reflexivity. }
  split; [eapply Forall2_imp; [|exact F1]|eapply Forall2_imp; [|exact F2]]; cbn beta; intros kf x (EN & e & EA & HT); (split; [exact EN|]; exists e; split; [exact EA|]; intros v; rewrite HT; now rewrite (leaf_ext _ _ _ _ L)).
Qed.
Theorem factory_omits : forall leaf unset st fields args, (forall k y, In (k, y) fields -> if_default y <> None -> nullable y = true) ->
  params_of leaf unset st nullable fields args -> params_of leaf unset st omittable fields args.
Proof.
  intros leaf unset st fields args H (pos & kw & E1 & E2 & F1 & F2). exists pos, kw. split; [exact E1|]. split; [exact E2|].
  assert (EQ : forall kf, In kf fields -> nullable (snd kf) = omittable (snd kf)).
  { intros [k y] Hk. unfold omittable. cbn [snd]. destruct (nullable y) eqn:N; [reflexivity|]. cbn [orb]. destruct (if_default y) eqn:D; [|reflexivity].
    rewrite (H k y Hk) in N; [discriminate|congruence]. }
  rewrite (filter_ext_in' (fun kf => omittable (snd kf)) (fun kf => nullable (snd kf))) by (intros kf Hk; now rewrite EQ).
  rewrite (filter_ext_in' (fun kf => negb (omittable (snd kf))) (fun kf => negb (nullable (snd kf)))) by (intros kf Hk; now rewrite EQ).
  auto.
Qed.
