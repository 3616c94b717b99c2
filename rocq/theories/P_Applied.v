(** Proofs for C86 *)
From Verif Require Import Base PyAst Gql Config Stylers Registry Utils Objects Strawberry Spec_Kept Spec_KeptSb Spec_Applied P_Base P_Monad P_Scaffold P_KeptSb.

Lemma vnode_ind' : forall (P : vnode -> Prop), (forall v, (forall l, v <> VList l) -> P v) -> (forall l, Forall P l -> P (VList l)) -> forall v, P v.
Proof.
  intros P hv hl. fix F 1. intros v. destruct v; try (apply hv; discriminate).
  apply hl. induction l as [|x l IH]; constructor; [apply F|exact IH].
Qed.
Lemma convert_literal : forall v e, convert_valuenode_to_ast v = Ok e -> textual v = true -> literal v e.
Proof.
  intros v. induction v as [v N|l IH] using vnode_ind'; intros e H T.
  - destruct v; try discriminate; cbn in H; try (injection H as <-; constructor). exfalso. now eapply N.
  - cbn in H, T. match type of H with rbind ?x _ = _ => destruct x as [es|] eqn:E; [|discriminate] end. injection H as <-. constructor.
    revert es E T. induction IH as [|x l Hx F IH2]; intros es E T; [injection E as <-; constructor|].
    cbn in T. apply andb_true_iff in T as [T1 T2]. destruct (convert_valuenode_to_ast x) as [e|]; [|discriminate].
    cbn in E. match type of E with rbind ?y _ = _ => destruct y as [es'|] eqn:E'; [|discriminate] end. injection E as <-.
    constructor; [now apply Hx|now apply IH2].
Qed.

Section K.
Variable c : gconfig.
Variable st : list styler.
Variable s : schema.
Variable ds : list directivedef.
Variable ap : string -> list directive.
Variable pc : sbcfg.

Lemma calls_app : forall a b, calls_in (a ++ b) = calls_in a ++ calls_in b.
Proof. intros a b. unfold calls_in. apply flat_map_app. Qed.
Lemma calls_keyword : forall n t, calls_in (opt_keyword n t) = [].
Proof.
  intros n t. unfold opt_keyword. destruct (truthy t); [|reflexivity]. unfold calls_in, kw. cbn [flat_map estr].
  rewrite app_nil_r. repeat (match goal with |- (match ?x with _ => _ end) = _ => destruct x; try reflexivity end).
Qed.
Lemma keywords_apply : forall l r kws r', generate_directive_keywords pc l r = (Ok kws, r') -> applies (sb_builtin_directives pc) l kws.
Proof.
  intros l r kws r' H. unfold generate_directive_keywords in H. unfold applies, custom. destruct (filter _ l) as [|d dl] eqn:E; [apply ret_ok in H as [-> _]; constructor|].
  apply bind_ok in H as (calls & r1 & H1 & H). apply ret_ok in H as [-> _]. cbn [calls_in flat_map kw]. rewrite app_nil_r.
  eapply (mmap_inv _ (fun _ => True)) with (Q := same_call) in H1 as [_ F]; [exact F|exact I|].
  intros x ra y rb _ _ Hy. split; [exact I|]. apply bind_ok in Hy as (ks & rc & Hk & Hy). apply ret_ok in Hy as [-> _]. exists ks. split; [reflexivity|].
  eapply (mmap_inv _ (fun _ => True)) in Hk as [_ G]; [exact G|exact I|].
  intros a rd k re _ _ Ha. split; [exact I|]. apply bind_ok in Ha as (e & rf & He & Ha). apply ret_ok in Ha as [-> _]. apply lift_ok in He as [He _].
  split; [reflexivity|]. cbn [snd kw]. now apply convert_literal.
Qed.
Lemma type_field_applies : forall key cls k f r l r', type_field c st s pc key cls (k, f) r = (Ok l, r') ->
  exists m, l = [m] /\ member_name m = style_with sty_node st k /\ applies (sb_builtin_directives pc) (fd_dirs f) (keywords m).
Proof.
  intros key cls k f r l r' H. cbn [type_field] in H. apply bind_ok in H as (ps & r1 & H1 & H). apply bind_ok in H as (e & r2 & H2 & H).
  apply bind_ok in H as (dks & r3 & H3 & H). cbn zeta in H. apply keywords_apply in H3.
  set (kws := opt_keyword "description" (fd_desc f) ++ opt_keyword "deprecation_reason" (fd_depr f) ++ dks) in *.
  assert (D : applies (sb_builtin_directives pc) (fd_dirs f) kws).
  { unfold applies, kws. rewrite !calls_app, !calls_keyword. exact H3. }
  clearbody kws. destruct (_ && _).
  - apply ret_ok in H as [-> _]. eexists. split; [reflexivity|]. split; [reflexivity|]. destruct kws; cbn [keywords keywords_in]; [exact D|].
    change (mem "strawberry.field" strawberry_fields) with true. exact D.
  - apply bind_ok in H as (u & r4 & _ & H). apply ret_ok in H as [-> _]. eexists. split; [reflexivity|]. split; [reflexivity|].
    unfold resolver. cbn [keywords keywords_in].
    assert (E : mem (if String.eqb key "Mutation" then "strawberry.mutation" else if String.eqb key "Subscription" then "strawberry.subscription" else "strawberry.field") strawberry_fields = true)
      by (destruct (String.eqb key "Mutation"), (String.eqb key "Subscription"); reflexivity).
    rewrite E. exact D.
Qed.
Lemma types_applied : forall r l r', strawberry_plugin c st s ds ap pc r = (Ok l, r') -> sb_types pc = true ->
  forall key t, In (key, t) (s_types s) -> is_interface_def t || is_object_def t = true -> skipped pc key = false ->
  exists bases docs ms cfg dec,
    In (SClass (if is_interface_def t then style_interface_class st key else style_objecttype_class st key) bases (docs ++ ms ++ cfg) [dec]) l
    /\ applies (sb_builtin_directives pc) (match t with TObject _ _ _ d => d | _ => ap key end) (keywords_in ["strawberry.type"; "strawberry.interface"] dec)
    /\ Forall2 (fun kf m => member_name m = style_with sty_node st (fst kf) /\ applies (sb_builtin_directives pc) (fd_dirs (snd kf)) (keywords m)) (type_fields t) ms.
Proof.
  intros r l r' H T key t Hin Ht Sk. apply phases in H as (H & _). destruct (H T) as (ra & ts & rb & Hg & I). clear H.
  unfold generate_types in Hg. apply bind_ok in Hg as (u & r1 & _ & Hg).
  assert (Hs : In (key, t) (sorted_objects s)).
  { unfold sorted_objects. apply in_app_iff. apply orb_true_iff in Ht as [Hi|Hi]; [left|right]; apply filter_In; auto. }
  destruct (mconcat_in _ (fun _ => True) _ _ _ _ Hg Logic.I (fun _ _ _ _ _ _ _ => Logic.I) _ Hs) as (r2 & y & r3 & _ & Hy & Iy).
  cbn [type_class] in Hy. apply bind_ok in Hy as (add & r4 & _ & Hy). rewrite Sk in Hy. apply bind_ok in Hy as (kws & r5 & Hk & Hy).
  apply bind_ok in Hy as (cls & r6 & H3 & Hy). apply bind_ok in Hy as (ib & r7 & _ & Hy). apply bind_ok in Hy as (ms & r8 & Hm & Hy).
  apply bind_ok in Hy as (cfg & r9 & _ & Hy). apply ret_ok in Hy as [-> _].
  assert (Hc : cls = if is_interface_def t then style_interface_class st key else style_objecttype_class st key).
  { destruct (is_interface_def t).
    - unfold generate_interface in H3. minv. reflexivity.
    - unfold generate_objecttype, generate_in in H3. minv. reflexivity. }
  rewrite <- Hc. do 5 eexists. split; [apply I, Iy; left; reflexivity|]. split.
  - apply keywords_apply in Hk.
    assert (Ed : type_directives ap key t = match t with TObject _ _ _ d => d | _ => ap key end) by (destruct t; try reflexivity; discriminate).
    rewrite Ed in Hk. destruct kws as [|k kws]; [exact Hk|]. unfold decorate. cbn [keywords_in]. destruct (is_interface_def t); exact Hk.
  - eapply (mconcat_single _ (fun _ => True)) in Hm as [_ F]; [exact F|exact Logic.I|].
    intros [k f] rc z rd _ _ Hz. split; [exact Logic.I|]. destruct (type_field_applies _ _ _ _ _ _ _ Hz) as (m & -> & Hm2). eauto.
Qed.
Lemma attributes_app : forall a b, attributes (a ++ b) = attributes a ++ attributes b.
Proof. intros a b. unfold attributes. apply flat_map_app. Qed.
Lemma directives_accept : forall r l r', strawberry_plugin c st s ds ap pc r = (Ok l, r') -> sb_directives pc = true ->
  forall d, In d ds -> ~ In (dd_name d) (sb_builtin_directives pc) -> skipped pc (dd_name d) = false ->
  exists body dec, In (SClass (dd_name d) [] body [dec]) l
    /\ forall n, In n (map fst (dd_args d)) -> In (style_with sty_node st n) (attributes body).
Proof.
  intros r l r' H T d Hin Nb Sk. unfold strawberry_plugin in H. apply bind_ok in H as (u & r0 & H0 & H). apply bind_ok in H as (dl & r1 & H1 & H).
  apply bind_ok in H as (sc & r2 & H2 & H). apply bind_ok in H as (e & r3 & H3 & H). apply bind_ok in H as (i & r4 & H4 & H).
  apply bind_ok in H as (t & r5 & H5 & H). apply ret_ok in H as [-> _]. rewrite T in H1. unfold generate_directives in H1.
  assert (Hd : In d (filter (fun d => negb (mem (dd_name d) (sb_builtin_directives pc))) ds)).
  { apply filter_In. split; [exact Hin|]. destruct (mem _ _) eqn:E; [exfalso; apply Nb; now apply mem_In|reflexivity]. }
  destruct (filter _ ds) as [|d0 dl0]; [contradiction|]. apply bind_ok in H1 as (u1 & r6 & _ & H1).
  destruct (mconcat_in _ (fun _ => True) _ _ _ _ H1 Logic.I (fun _ _ _ _ _ _ _ => Logic.I) _ Hd) as (ra & y & rb & _ & Hy & Iy).
  unfold directive_class in Hy. rewrite Sk in Hy. apply bind_ok in Hy as (fs & rc & Hf & Hy). apply bind_ok in Hy as (cfg & rd & _ & Hy). apply ret_ok in Hy as [-> _].
  do 2 eexists. split; [apply in_app_iff; left; apply Iy; left; reflexivity|].
  intros n Hn. rewrite attributes_app. apply in_app_iff. left.
  eapply (mconcat_single _ (fun _ => True)) with (Q := fun kv m => exists a v, m = SAnn (style_with sty_node st (fst kv)) a v) in Hf as [_ F]; [|exact Logic.I|].
  - assert (G : In (style_with sty_node st n) (attributes fs)).
    { clear -F Hn. induction F as [|kv m args fs (a & v & ->) F IH]; [contradiction|]. cbn in Hn |- *. destruct Hn as [<-|Hn]; [now left|right; now apply IH]. }
    destruct fs; [contradiction|exact G].
  - intros kv re z rf _ _ Hz. split; [exact Logic.I|]. unfold directive_arg in Hz. minv. eauto.
Qed.
End K.
