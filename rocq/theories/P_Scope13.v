(** Names looked up by a server scaffold: the module. *)
From Verif Require Import Base PyAst Gql Config Stylers Registry Utils Recurse Objects Strawberry Run
  Spec_Types Spec_Inputs Spec_Imports Spec_Scope Spec_Scaffold Spec_Syntax3 Spec_Scope3 P_Base P_Monad P_Types P_Inputs P_Imports P_Scope P_Scope2 P_Scope4 P_Mro2 P_Scaffold P_Scope11 P_Scope12.

Lemma plain_blocks : forall k l (E : string -> Prop), built_in k = Some l -> ~ In k ["__TypeKind"; "__DirectiveLocation"] -> scoped E l.
Proof.
  intros k l E H N. unfold built_in in H.
  destruct (String.eqb_spec k "__TypeKind"); [subst; destruct N; cbn; tauto|]. destruct (String.eqb_spec k "__DirectiveLocation"); [subst; destruct N; cbn; tauto|].
  destruct (String.eqb k "UNSET"); [injection H as <-; cbn; intuition subst; tauto|]. destruct (String.eqb k "GraphQLDefault"); [injection H as <-; cbn; intuition|].
  destruct (String.eqb k "Deprecated"); [injection H as <-; cbn; intuition|discriminate].
Qed.
Lemma class_of_imports : forall iter r n b bo d, ~ In (SClass n b bo d) (generate_imports iter r).
Proof. intros iter r n b bo d H. assert (F := imports_are_imports iter r). rewrite Forall_forall in F. exact (F _ H). Qed.
Lemma block_quotes : forall k l nm b body d x n, built_in k = Some l -> In (SClass nm b body d) l -> In x body -> ~ In n (member_quotes x).
Proof.
  intros k l nm b body d x n H Hin Hx Hn. unfold built_in in H.
  repeat match type of H with (if ?b then _ else _) = _ => destruct b end; try discriminate; injection H as <-; cbn in Hin;
    repeat (destruct Hin as [Hin|Hin]; [first [discriminate Hin|injection Hin as <- <- <- <-]|]); try contradiction; cbn in Hx;
    repeat (destruct Hx as [<-|Hx]; [contradiction|]); contradiction.
Qed.

Section Module.
Variables (bi : list string) (c : gconfig) (st : list styler) (s : schema) (ds : list directivedef) (ap : string -> list directive) (pc : sbcfg).
Hypothesis Hbi : incl simple_types bi.
Hypothesis Hnone : In "None" bi.
Hypothesis Hsc : forall k t, dget k (r_scalars (init_reg c)) = Some t -> has_dot t = false -> In t bi.
Hypothesis Hdirs : directives_declared s ds ap pc.
Hypothesis Hproper : interfaces_proper s.
Hypothesis Hbases : forall b, In b (sb_inputtype_bases pc) -> In (last_comp b) bi.
Hypothesis Hintro : introspection_apart s pc.

Theorem scaffold_scope : forall iter n skip t, set_order iter ->
  generate_ast c iter [Plugin n (strawberry_plugin c st s ds ap pc)] skip = Ok t ->
  scoped_paths (fun x => In x bi) t /\ (closed s pc -> quotes_bound (fun x => In x bi) t).
Proof.
  intros iter n skip t Hiter H. unfold generate_ast in H. cbn [run_plugins] in H.
  cbn [pl_generate] in H. destruct (strawberry_plugin c st s ds ap pc (init_reg c)) as [[l|e] r] eqn:HP; [|discriminate]. cbn [rbind app] in H.
  destruct (generate_builtins iter r) as [bs|] eqn:HB; [|discriminate]. cbn [rbind] in H. injection H as <-.
  destruct (plugin_ok bi c st s ds ap pc Hbi Hnone Hdirs Hproper Hbases Hsc _ _ HP) as [O GE].
  unfold generate_builtins in HB. destruct (rmap _ (iter (r_builtins r))) as [blocks|] eqn:HBL; [|discriminate]. cbn [rbind] in HB. injection HB as <-.
  destruct (rmap_in _ _ _ HBL) as [BL1 BL2]. clear HBL.
  pose proof (imports_are_imports iter r) as II. destruct (generate_imports_spec iter Hiter r) as [_ IS].
  set (imps := generate_imports iter r) in *. set (F := if skip then [] else generate_forward_refs c r).
  assert (IB : forall d, In d (r_imports r) -> In (last_comp d) (binds imps)).
  { intros d Hd. eapply bindings_binds. apply IS. split; [exact Hd|reflexivity]. }
  assert (BB : forall l, In l blocks -> exists k, In k (r_builtins r) /\ built_in k = Some l).
  { intros l0 Hl. destruct (BL1 l0 Hl) as (k & Hk & E). exists k. split; [now apply (iter_In iter Hiter)|]. destruct (built_in k); [congruence|discriminate]. }
  assert (BN : forall k l, In k (r_builtins r) -> built_in k = Some l -> In l blocks).
  { intros k l0 Hk E. destruct (BL2 k) as (y & Hy & E'); [now apply (iter_In iter Hiter)|]. rewrite E in E'. injection E' as ->. exact Hy. }
  assert (GB : forall n, given bi r n -> In n bi \/ In n (binds (imps ++ concat blocks))).
  { intros x [Hn|[(d & Hd & <-)|(k & l0 & Hk & E & Hn)]]; [now left| |]; right; rewrite binds_app, in_app_iff; [left; now apply IB|].
    right. unfold binds in *. apply in_flat_map in Hn as (y & Hy & Hn). apply in_flat_map. exists y. split; [|exact Hn].
    apply in_concat. exists l0. split; [eapply BN; eassumption|exact Hy]. }
  split.
  - apply paths_app. split; [apply scoped_paths_of; now apply imports_scoped|]. apply paths_app. split.
    + apply scoped_paths_of, scoped_concat. intros l0 Hl. destruct (BB l0 Hl) as (k & Hk & Ek).
      destruct (in_dec String.string_dec k ["__TypeKind"; "__DirectiveLocation"]) as [Y|Y]; [|eapply plain_blocks; eassumption].
      eapply built_in_blocks; [exact Ek|left; apply Hbi; cbn; tauto|].
      assert (GX : given bi r "Enum").
      { destruct Hintro as [(e & d & vs & He & SE & HE)|NO]; [apply GE; [exact SE|exists e, d, vs; auto]|].
        destruct (o_builtins _ _ _ _ _ _ O k Hk) as (n0 & t0 & X1 & X2 & X3). exfalso. eapply NO; eassumption. }
      destruct GX as [Hn|[(d & Hd & E)|(k' & l' & Hk' & E & Hn)]]; [now left|right; rewrite <- E; now apply IB|].
      exfalso. unfold built_in in E. repeat match type of E with (if ?b then _ else _) = _ => destruct b end; try discriminate; injection E as <-; cbn in Hn; intuition discriminate.
    + apply paths_app. split.
      * eapply paths_mono; [|exact (o_scoped _ _ _ _ _ _ O)]. intros x Hx. destruct (GB x Hx) as [Y|Y]; [left; now left|]. rewrite binds_app, in_app_iff in Y. tauto.
      * assert (G : forall l (E : string -> Prop), (forall x n, In x l -> In n (runs x) -> E n) -> scoped_paths E l).
        { induction l0 as [|x l0 IHl]; intros E HX; [exact I|]. split; [intros y Hy; left; eapply HX; [now left|exact Hy]|]. apply IHl. intros y z Hy Hn. left. eapply HX; [right; exact Hy|exact Hn]. }
        apply G. intros x y Hx Hn. unfold F in Hx. destruct skip; [contradiction|]. unfold generate_forward_refs in Hx. apply in_map_iff in Hx as (m & <- & Hm).
        assert (Hm' : In m (r_fwd r)) by (now apply str_sort_In). cbn in Hn. destruct Hn as [<-|[]]. right. exact (o_fwd _ _ _ _ _ _ O m Hm').
  - intros HC name bases body decs x y Hin Hx Hy.
    assert (Hl : In (SClass name bases body decs) l).
    { apply in_app_iff in Hin as [Hin|Hin]; [exfalso; eapply class_of_imports; exact Hin|]. apply in_app_iff in Hin as [Hin|Hin].
      - exfalso. apply in_concat in Hin as (l0 & Hl & Hin). destruct (BB l0 Hl) as (k & _ & Ek). eapply block_quotes; eassumption.
      - apply in_app_iff in Hin as [Hin|Hin]; [exact Hin|]. exfalso. unfold F in Hin. destruct skip; [contradiction|].
        unfold generate_forward_refs in Hin. apply in_map_iff in Hin as (m & E & _). discriminate E. }
    rewrite !binds_app, !in_app_iff. destruct (o_quotes _ _ _ _ _ _ O _ _ _ _ _ _ Hl Hx Hy) as [K|K].
    + destruct (GB y K) as [Y|Y]; [now left|]. rewrite binds_app, in_app_iff in Y. tauto.
    + right. right. right. left. destruct K as (k & t0 & m & K1 & K2 & K3 & K4). unfold target_of in K4. destruct (get_type s m) as [tm|] eqn:G; [|contradiction].
      assert (GM := HC _ _ _ _ K1 K2 K3 G). assert (HI := dget_Some_In _ _ _ G).
      assert (W : exists p, on pc p = true /\ In y (wanted st s ds pc p)).
      { destruct tm; try contradiction; cbn in GM; destruct GM as [GM1 GM2].
        - destruct K4 as [K4 ->]. exists PEnum. split; [exact GM1|]. cbn [wanted]. apply in_flat_map. eexists. split; [exact HI|]. cbn [fst snd]. unfold hidden in GM2. rewrite GM2. now left.
        - subst y. exists PType. split; [exact GM1|]. cbn [wanted]. apply in_app_iff. right. apply in_flat_map. eexists. split; [exact HI|]. cbn [fst snd]. unfold hidden in GM2. rewrite GM2. now left.
        - subst y. exists PType. split; [exact GM1|]. cbn [wanted]. apply in_app_iff. left. apply in_flat_map. eexists. split; [exact HI|]. cbn [fst snd]. unfold hidden in GM2. rewrite GM2. now left.
        - subst y. exists PInput. split; [exact GM1|]. cbn [wanted]. apply in_flat_map. eexists. split; [exact HI|]. cbn [fst snd]. rewrite GM2. now left. }
      destruct W as (p & W1 & W2). assert (PP := plugin_parts c st s ds ap pc _ _ _ HP).
      assert (X : In (Some (p, y)) (map part_of l)).
      { rewrite PP. apply in_flat_map. exists p. split; [destruct p; cbn; tauto|]. unfold expected. rewrite W1. apply in_map_iff. exists y. split; [reflexivity|exact W2]. }
      apply in_map_iff in X as (z & Z1 & Z2). apply in_flat_map. exists z. split; [exact Z2|]. eapply part_binds; exact Z1.
Qed.
End Module.
Theorem scaffold_names : forall bi c st s directives applied pc,
  incl simple_types bi -> In "None" bi ->
  (forall n x, dget n (r_scalars (init_reg c)) = Some x -> has_dot x = false -> In x bi) ->
  directives_declared s directives applied pc -> interfaces_proper s ->
  (forall b, In b (sb_inputtype_bases pc) -> In (last_comp b) bi) ->
  introspection_apart s pc ->
  forall iter n skip_forwards t, set_order iter ->
  generate_ast c iter [Plugin n (strawberry_plugin c st s directives applied pc)] skip_forwards = Ok t ->
  scoped_paths (fun x => In x bi) t.
Proof. intros. eapply scaffold_scope; eassumption. Qed.
Theorem scaffold_references : forall bi c st s directives applied pc,
  incl simple_types bi -> In "None" bi ->
  (forall n x, dget n (r_scalars (init_reg c)) = Some x -> has_dot x = false -> In x bi) ->
  directives_declared s directives applied pc -> interfaces_proper s ->
  (forall b, In b (sb_inputtype_bases pc) -> In (last_comp b) bi) ->
  introspection_apart s pc -> closed s pc ->
  forall iter n skip_forwards t, set_order iter ->
  generate_ast c iter [Plugin n (strawberry_plugin c st s directives applied pc)] skip_forwards = Ok t ->
  quotes_bound (fun x => In x bi) t.
Proof. intros. eapply scaffold_scope; eassumption. Qed.

Lemma missing_name : forall t n (E : string -> Prop), In n (flat_map runs t) -> ~ E n -> ~ E (before_dot n) -> ~ In n (binds t) -> ~ In (before_dot n) (binds t) -> ~ scoped_paths E t.
Proof.
  intros t n E H. revert E. apply in_flat_map in H as (x & Hx & Hn). induction t as [|y t IH]; [destruct Hx|]. intros E N1 N2 N3 N4 [S1 S2].
  unfold binds in N3, N4. cbn [flat_map] in N3, N4. rewrite in_app_iff in N3, N4. destruct Hx as [->|Hx]; [destruct (S1 n Hn); tauto|].
  revert S2. apply IH; unfold binds; tauto.
Qed.
