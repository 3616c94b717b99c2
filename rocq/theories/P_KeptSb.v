(** Proofs for C85 *)
From Verif Require Import Base PyAst Gql Config Stylers Registry Utils Objects Strawberry Spec_Kept Spec_KeptSb P_Base P_Monad P_Scaffold.

Section K.
Variable c : gconfig.
Variable st : list styler.
Variable s : schema.
Variable ds : list directivedef.
Variable ap : string -> list directive.
Variable pc : sbcfg.

Lemma given_app : forall n a b, given n (a ++ b) = given n a ++ given n b.
Proof. intros n a b. unfold given. apply flat_map_app. Qed.
Lemma given_keyword : forall n m t, given n (opt_keyword m t) = if String.eqb m n then at_most t else [].
Proof.
  intros n m t. unfold opt_keyword, at_most. destruct t as [[|x t]|]; cbn [truthy filled]; try (now destruct (String.eqb m n)).
  unfold given, kw. cbn [flat_map opt_str estr]. destruct (String.eqb m n); reflexivity.
Qed.
Lemma directives_given : forall n l r kws r', generate_directive_keywords pc l r = (Ok kws, r') -> given n kws = [].
Proof. intros n l r kws r' H. unfold generate_directive_keywords in H. destruct (filter _ _); minv; reflexivity. Qed.

Lemma type_field_kept : forall key cls k f r l r', type_field c st s pc key cls (k, f) r = (Ok l, r') ->
  exists m, l = [m] /\ keeps_texts (style_with sty_node st k) (fd_desc f) (fd_depr f) m.
Proof.
  intros key cls k f r l r' H. cbn [type_field] in H. apply bind_ok in H as (ps & r1 & H1 & H). apply bind_ok in H as (e & r2 & H2 & H).
  apply bind_ok in H as (dks & r3 & H3 & H). cbn zeta in H.
  set (kws := opt_keyword "description" (fd_desc f) ++ opt_keyword "deprecation_reason" (fd_depr f) ++ dks) in *.
  assert (D : given "description" kws = at_most (fd_desc f)).
  { unfold kws. rewrite !given_app, !given_keyword, (directives_given _ _ _ _ _ H3). cbn. now rewrite app_nil_r. }
  assert (P : given "deprecation_reason" kws = at_most (fd_depr f)).
  { unfold kws. rewrite !given_app, !given_keyword, (directives_given _ _ _ _ _ H3). cbn. now rewrite app_nil_r. }
  clearbody kws. destruct (_ && _).
  - apply ret_ok in H as [-> _]. eexists. split; [reflexivity|]. split; [reflexivity|]. destruct kws; cbn [keywords keywords_in]; [split; assumption|].
    change (mem "strawberry.field" strawberry_fields) with true. cbn iota. split; assumption.
  - apply bind_ok in H as (u & r4 & _ & H). apply ret_ok in H as [-> _]. eexists. split; [reflexivity|]. split; [reflexivity|].
    unfold resolver. cbn [keywords keywords_in].
    assert (E : mem (if String.eqb key "Mutation" then "strawberry.mutation" else if String.eqb key "Subscription" then "strawberry.subscription" else "strawberry.field") strawberry_fields = true)
      by (destruct (String.eqb key "Mutation"), (String.eqb key "Subscription"); reflexivity).
    rewrite E. split; assumption.
Qed.
Lemma input_field_kept : forall cls k v r l r', input_field c st s cls (k, v) r = (Ok l, r') ->
  exists m, l = [m] /\ keeps_texts (style_with sty_node st k) (if_desc v) (if_depr v) m.
Proof.
  intros cls k v r l r' H. unfold input_field in H. cbn zeta in H. cbn [fst snd] in H. apply bind_ok in H as (a & r1 & H1 & H). apply ret_ok in H as [-> _].
  eexists. split; [reflexivity|]. split; [reflexivity|].
  assert (D : forall n, given n (opt_keyword "description" (if_desc v) ++ opt_keyword "deprecation_reason" (if_depr v))
     = (if String.eqb "description" n then at_most (if_desc v) else []) ++ (if String.eqb "deprecation_reason" n then at_most (if_depr v) else [])).
  { intros n. now rewrite given_app, !given_keyword. }
  generalize dependent (opt_keyword "description" (if_desc v) ++ opt_keyword "deprecation_reason" (if_depr v)). intros kws D.
  pose proof (D "description") as D1. pose proof (D "deprecation_reason") as D2. cbn in D1, D2. rewrite app_nil_r in D1.
  destruct kws; cbn [keywords keywords_in]; [split; assumption|]. change (mem "strawberry.field" strawberry_fields) with true. cbn iota. split; assumption.
Qed.
Lemma phases : forall r l r', strawberry_plugin c st s ds ap pc r = (Ok l, r') ->
  (sb_types pc = true -> exists ra t rb, generate_types c st s ap pc ra = (Ok t, rb) /\ incl t l)
  /\ (sb_inputs pc = true -> exists ra t rb, generate_inputs c st s pc ra = (Ok t, rb) /\ incl t l)
  /\ (sb_directives pc = true -> exists ra t rb, generate_scalars s ap pc ra = (Ok t, rb) /\ incl t l).
Proof.
  intros r l r' H. unfold strawberry_plugin in H. apply bind_ok in H as (u & r0 & H0 & H). apply bind_ok in H as (d & r1 & H1 & H).
  apply bind_ok in H as (sc & r2 & H2 & H). apply bind_ok in H as (e & r3 & H3 & H). apply bind_ok in H as (i & r4 & H4 & H).
  apply bind_ok in H as (t & r5 & H5 & H). apply ret_ok in H as [-> _]. split; [|split]; intros E; rewrite E in *.
  - exists r4, t, r5. split; [exact H5|]. intros x Hx. rewrite !in_app_iff. tauto.
  - exists r3, i, r4. split; [exact H4|]. intros x Hx. rewrite !in_app_iff. tauto.
  - exists r1, sc, r2. split; [exact H2|]. intros x Hx. rewrite !in_app_iff. tauto.
Qed.
Lemma types_kept : forall r l r', strawberry_plugin c st s ds ap pc r = (Ok l, r') -> sb_types pc = true ->
  forall key t, In (key, t) (s_types s) -> is_interface_def t || is_object_def t = true -> skipped pc key = false ->
  exists bases docs ms cfg dec,
    In (SClass (if is_interface_def t then style_interface_class st key else style_objecttype_class st key) bases (docs ++ ms ++ cfg) dec) l
    /\ Forall2 (fun kf m => keeps_texts (style_with sty_node st (fst kf)) (fd_desc (snd kf)) (fd_depr (snd kf)) m) (type_fields t) ms.
Proof.
  intros r l r' H T key t Hin Ht Sk. apply phases in H as (H & _). destruct (H T) as (ra & ts & rb & Hg & I). clear H.
  unfold generate_types in Hg. apply bind_ok in Hg as (u & r1 & _ & Hg).
  assert (Hs : In (key, t) (sorted_objects s)).
  { unfold sorted_objects. apply in_app_iff. apply orb_true_iff in Ht as [Ht|Ht]; [left|right]; apply filter_In; auto. }
  destruct (mconcat_in _ (fun _ => True) _ _ _ _ Hg Logic.I (fun _ _ _ _ _ _ _ => Logic.I) _ Hs) as (r2 & y & r3 & _ & Hy & Iy).
  cbn [type_class] in Hy. apply bind_ok in Hy as (add & r4 & _ & Hy). rewrite Sk in Hy. apply bind_ok in Hy as (kws & r5 & _ & Hy).
  apply bind_ok in Hy as (cls & r6 & H3 & Hy). apply bind_ok in Hy as (ib & r7 & _ & Hy). apply bind_ok in Hy as (ms & r8 & Hm & Hy).
  apply bind_ok in Hy as (cfg & r9 & _ & Hy). apply ret_ok in Hy as [-> _].
  assert (Hc : cls = if is_interface_def t then style_interface_class st key else style_objecttype_class st key).
  { destruct (is_interface_def t).
    - unfold generate_interface in H3. minv. reflexivity.
    - unfold generate_objecttype, generate_in in H3. minv. reflexivity. }
  rewrite <- Hc. do 5 eexists. split; [apply I, Iy; left; reflexivity|].
  eapply (mconcat_single _ (fun _ => True)) in Hm as [_ F]; [exact F|exact Logic.I|].
  intros [k f] rc z rd _ _ Hz. split; [exact Logic.I|]. eapply type_field_kept; exact Hz.
Qed.
Lemma inputs_kept : forall r l r', strawberry_plugin c st s ds ap pc r = (Ok l, r') -> sb_inputs pc = true ->
  forall key de fs dirs, In (key, TInput de fs dirs) (s_types s) -> sb_skip_underscore pc && startswith "_" key = false ->
  exists bases docs ms cfg dec, In (SClass (style_inputtype_class st key) bases (docs ++ ms ++ cfg) dec) l
    /\ Forall2 (fun kf m => keeps_texts (style_with sty_node st (fst kf)) (if_desc (snd kf)) (if_depr (snd kf)) m) fs ms.
Proof.
  intros r l r' H T key de fs dirs Hin Sk. apply phases in H as (_ & H & _). destruct (H T) as (ra & ts & rb & Hg & I). clear H.
  unfold generate_inputs in Hg.
  destruct (mconcat_in _ (fun _ => True) _ _ _ _ Hg Logic.I (fun _ _ _ _ _ _ _ => Logic.I) _ Hin) as (r2 & y & r3 & _ & Hy & Iy).
  cbn [fst snd] in Hy. unfold input_class in Hy. rewrite Sk in Hy. apply bind_ok in Hy as (kws & r5 & _ & Hy). cbn zeta in Hy.
  apply bind_ok in Hy as (add & r4 & _ & Hy). apply bind_ok in Hy as (cls & r6 & H3 & Hy). apply bind_ok in Hy as (ms & r8 & Hm & Hy).
  apply bind_ok in Hy as (cfg & r9 & _ & Hy). apply ret_ok in Hy as [-> _].
  assert (Hc : cls = style_inputtype_class st key) by (unfold generate_inputtype, generate_in in H3; minv; reflexivity).
  rewrite <- Hc. do 5 eexists. split; [apply I, Iy; left; reflexivity|].
  eapply (mconcat_single _ (fun _ => True)) in Hm as [_ F]; [exact F|exact Logic.I|].
  intros [k f] rc z rd _ _ Hz. split; [exact Logic.I|]. eapply input_field_kept; exact Hz.
Qed.
Lemma scalars_kept : forall r l r', strawberry_plugin c st s ds ap pc r = (Ok l, r') -> sb_directives pc = true ->
  forall key d, In (key, TScalar d) (s_types s) -> ~ In key (sb_builtin_scalars pc) ->
  exists e, In (SAssign (EName key) e) l /\ given "description" (keywords_in ["strawberry.scalar"] e) = at_most d.
Proof.
  intros r l r' H T key d Hin Nb. apply phases in H as (_ & _ & H). destruct (H T) as (ra & ts & rb & Hg & I). clear H.
  unfold generate_scalars in Hg. apply bind_ok in Hg as (u & r1 & _ & Hg).
  assert (Hs : In (key, d) (scalar_types s pc)).
  { unfold scalar_types. apply in_flat_map. exists (key, TScalar d). split; [exact Hin|]. cbn [fst snd].
    destruct (mem key (sb_builtin_scalars pc)) eqn:E; [exfalso; apply Nb; now apply mem_In|now left]. }
  destruct (mconcat_in _ (fun _ => True) _ _ _ _ Hg Logic.I (fun _ _ _ _ _ _ _ => Logic.I) _ Hs) as (r2 & y & r3 & _ & Hy & Iy).
  cbn [scalar_assign] in Hy. apply bind_ok in Hy as (dks & r4 & Hd & Hy). apply bind_ok in Hy as (v & r5 & _ & Hy). apply ret_ok in Hy as [-> _].
  eexists. split; [apply I, Iy; left; reflexivity|]. cbn [keywords_in]. change (mem "strawberry.scalar" ["strawberry.scalar"]) with true. cbn iota.
  rewrite !given_app, given_keyword, (directives_given _ _ _ _ _ Hd). cbn. now rewrite app_nil_r.
Qed.
End K.
