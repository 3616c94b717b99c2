(** Names looked up by calls: modules as a whole. *)
From Verif Require Import Base PyAst Gql Config Stylers Registry Utils Documents Inline Referencer Enums Inputs Recurse Fragments Operations Objects Funcs InputFuncs Run
  Spec_Types Spec_Inputs Spec_Imports Spec_Scope Spec_Refs Spec_Funcs Spec_Classes Spec_Calls
  P_Base P_Monad P_Stylers P_Inputs P_Annot P_Recurse P_Fields P_Post P_Imports P_InlineProps P_Return P_Funcs P_Funcs2 P_Scope4 P_Scope P_Scope8 P_Scope9 P_Classes P_Calls P_Calls2 P_Calls3 P_Calls4.
Arguments register_import : simpl never.
Arguments register_builtin : simpl never.
Notation binds := Spec_Scope.binds.

Section Run.
Variables (bi : list string) (Hbi : incl simple_types bi) (Hused : incl used_builtins bi).
Variables (c : gconfig) (st : list styler) (s : schema) (d : document).
Notation bound := (bound bi).
Notation opcls := (opcls st d).
Definition Kall : list kind := [KImp; KFwd; KBui; KEnu; KObj; KIfa; KFra; KQry; KMut; KSub; KDoc; KFty; KIff; KUff; KSin].
(** what the plugins do with the registry: only the inputs plugin registers classes of inputs *)
Lemma ev_weak : forall {A} K K' (m : M A), incl K K' -> ev st K m -> ev st K' m.
Proof. intros A K K' m I H. eapply ev_incl; eassumption. Qed.
Lemma ev_fragment : forall pc pf add f, ev st Kall (generate_fragment c st s pc pf add f).
Proof.
  intros pc pf add f. unfold generate_fragment, Kall. apply ev_bind; [apply ev_from_opt|]. intros t. apply ev_bind; [ev_leaf|]. intros n. apply ev_bind; [ev_leaf|]. intros _. apply ev_bind; [ev_leaf|]. intros _.
  destruct t; first [apply ev_raise|eapply ev_weak; [|first [apply ev_object_fragment|apply ev_interface_fragment|apply ev_union_fragment]]; intros k; cbn; tauto].
Qed.
Lemma ev_fragments : forall pc pf add, ev st Kall (fragments_plugin c st s pc pf add d).
Proof. intros. unfold fragments_plugin. apply ev_bind; [apply ev_lift|]. intros l. apply ev_mconcat. intros; apply ev_fragment. Qed.
Lemma ev_operations : forall pc po add doc_of, ev st Kall (operations_plugin c st s pc po add doc_of d).
Proof. intros. unfold operations_plugin. apply ev_mconcat. intros o _. eapply ev_weak; [|apply ev_generate_operation]. intros k; cbn; tauto. Qed.
Lemma ev_objects : forall pc, ev st Kall (generate_types c st s pc).
Proof.
  intros pc. unfold generate_types. apply ev_bind; [unfold Kall; ev_tac|]. intros _. apply ev_bind.
  - apply ev_mfold. intros x kt _. eapply ev_weak; [|apply ev_object_step]. intros k; cbn; tauto.
  - intros x. apply ev_bind; [unfold Kall; ev_tac|]. intros l. apply ev_bind; [|intros; apply ev_ret]. destruct (filter _ _); [apply ev_ret|]. destruct (c_always_resolve_interfaces c); [apply ev_raise|apply ev_ret].
Qed.
Lemma ev_input_funcs : forall pc docs, ev st Kall (input_funcs_plugin c st pc s docs).
Proof.
  intros pc docs. unfold input_funcs_plugin. apply ev_bind; [eapply ev_weak; [|apply ev_plugin_refs]; intros k []|]. intros rf. unfold generate_input_funcs. apply ev_mconcat.
  intros [k t] _. cbn [fst snd]. destruct t; try apply ev_ret. apply ev_if; [apply ev_ret|]. apply ev_bind; [apply ev_gets|]. intros m. apply ev_if; [|apply ev_ret].
  apply ev_bind; [|intros; apply ev_ret]. eapply ev_weak; [|apply ev_input_func]. intros x; cbn; tauto.
Qed.
Lemma input_binds : forall l, incl (named l) (binds l).
Proof. intros l n H. unfold named in H. apply in_flat_map in H as (x & Hx & H). apply in_flat_map. exists x. split; [exact Hx|]. destruct x; try destruct H; cbn; auto; destruct target; try destruct H; auto. Qed.
(** one plugin *)
Definition is_funcs (p : plugin) : Prop := exists n pc doc_of, p = Plugin n (funcs_plugin c st s pc doc_of d).
Lemma plugin_ok : forall (X : string -> Prop) p r l r', (is_funcs p -> forall n, opcls n -> X n) -> calling_plugin c st s d p -> pl_generate p r = (Ok l, r') -> names_styled st r ->
  (exists K, evolve st K r r') /\ calls (fun n => bound r' n \/ X n) l /\ (forall n, incls r' n -> incls r n \/ In n (binds l)).
Proof.
  intros X p r l r' HX HP H HS.
  assert (KK : forall (m : M (list stmt)), ev st Kall m -> m r = (Ok l, r') -> (exists K, evolve st K r r') /\ forall n, incls r' n -> incls r n \/ In n (binds l)).
  { intros m E Hm. pose proof (ev_ok _ _ _ _ _ _ E Hm) as V. split; [eauto|]. intros n (k & Hk). left. exists k. erewrite <- (frame_inputs st Kall); [exact Hk|cbn; intuition discriminate|exact V]. }
  destruct HP as [n pc docs|n pc docs HA|n pc|n pc pf add|n pc po add doc_of|n pc doc_of HA|n pc docs]; cbn [pl_generate] in H.
  - destruct (KK (enums_plugin c st pc s docs)) as (V & B); [eapply ev_weak; [|apply ev_enums_plugin]; intros k; cbn; tauto|exact H|]. split; [exact V|]. split; [|exact B].
    apply calls_goods. eapply post_enums; exact H.
  - pose proof (ev_ok _ _ _ _ _ _ (ev_inputs_plugin c st pc s docs) H) as V. split; [eauto|]. split.
    + unfold inputs_plugin, generate_inputs in H. mb H u0 r0 H0. mb H rf r1 H1. mb H u2 r2 H2. mb H x r3 H3. mb H y r4 H4. mb H l5 r5 H5. apply ret_ok in H as (-> & ->).
      apply (post_prepass st c s pc rf) in H3 as P3. apply (post_main st c s pc rf (fst x) _ _ P3) in H4 as P4. destruct P4 as (P4 & M4).
      apply calls_app; [now apply calls_goods|].
      assert (V4 : evolve st inputs_kinds r r4).
      { eapply evolve_trans; [eapply ev_ok; [|exact H0]; ev_tac|]. eapply evolve_trans; [eapply ev_ok; [|exact H1]; ev_leaf|]. eapply evolve_trans; [eapply ev_ok; [|exact H2]; ev_tac|].
        eapply evolve_trans; [eapply ev_ok; [|exact H3]; ev_tac|]. eapply ev_ok; [|exact H4]; ev_tac. }
      rewrite Forall_forall in M4.
      eapply (mconcat_calls bi st inputs_kinds _ X (names_styled st)); [| | | |exact H5].
      * intros km _. apply ev_oneof_direct_union.
      * eapply names_styled_evolve; eassumption.
      * intros ra rb Vab. now apply (names_styled_evolve st inputs_kinds).
      * intros km ra z rb Hkm HSa Hz. eapply (direct_calls bi Hused st s); [exact HSa| |exact HA|exact Hz]. apply M4 in Hkm. now destruct km.
    + intros m (k & Hk). apply inputs_named in H as (ks & E & _ & (N & _)). assert (HK : In k (dkeys (r_inputs r'))) by (apply dmem_In; unfold dmem; now rewrite Hk). rewrite E in HK. apply in_app_iff in HK as [HK|HK].
      * left. exists k. apply dmem_In in HK. unfold dmem in HK. destruct (dget k (r_inputs r)) as [m'|] eqn:E'; [|discriminate].
        apply (rle_inputs _ _ (evolve_rle _ _ _ _ V)) in E'. congruence.
      * right. apply input_binds. rewrite N. apply in_map_iff. exists k. split; [|exact HK]. symmetry. apply (names_styled_evolve _ _ _ _ V) in HS. now apply (proj1 HS).
  - destruct (KK (generate_types c st s pc) (ev_objects pc) H) as (V & B). split; [exact V|]. split; [|exact B]. apply calls_goods. eapply post_types; exact H.
  - destruct (KK _ (ev_fragments pc pf add) H) as (V & B). split; [exact V|]. split; [|exact B]. apply calls_goods. eapply post_fragments; exact H.
  - destruct (KK _ (ev_operations pc po add doc_of) H) as (V & B). split; [exact V|]. split; [|exact B]. apply calls_goods. eapply post_operations; exact H.
  - destruct (KK (funcs_plugin c st s pc doc_of d)) as (V & B); [eapply ev_weak; [|apply ev_functions]; intros k; cbn; tauto|exact H|]. split; [exact V|]. split; [|exact B].
    eapply calls_mono; [|eapply (funcs_calls bi Hbi c st s d); eassumption]. intros m [Y|Y]; [now left|right]. apply HX; [repeat eexists|exact Y].
  - destruct (KK _ (ev_input_funcs pc docs) H) as (V & B). split; [exact V|]. split; [|exact B]. eapply (input_funcs_calls bi Hbi c st s); exact H.
Qed.
(** all plugins *)
Lemma binds_incl : forall a b, incl (binds a) (binds (a ++ b)) /\ incl (binds b) (binds (a ++ b)).
Proof. intros a b. unfold Spec_Scope.binds. rewrite flat_map_app. split; [apply incl_appl|apply incl_appr]; apply incl_refl. Qed.
Lemma run_ok : forall (X : string -> Prop) ps r tree t r', (forall p, In p ps -> is_funcs p -> forall n, opcls n -> X n) -> Forall (calling_plugin c st s d) ps -> run_plugins ps r tree = Ok (t, r') ->
  names_styled st r -> calls (fun n => bound r n \/ X n) tree -> (forall n, incls r n -> In n (binds tree)) ->
  calls (fun n => bound r' n \/ X n) t /\ (forall n, incls r' n -> In n (binds t)).
Proof.
  intros X. induction ps as [|p ps IH]; intros r tree t r' HX HF H HS HC HB; cbn [run_plugins] in H; [injection H as <- <-; auto|].
  inversion HF as [|? ? HP HF']; subst. destruct (pl_generate p r) as [[l|e] r1] eqn:E; [|discriminate].
  destruct (plugin_ok X p r l r1 (HX p (or_introl eq_refl)) HP E HS) as ((K & V) & C & B).
  eapply IH; [intros q Hq; apply HX; now right|exact HF'|exact H| | |].
  - eapply names_styled_evolve; eassumption.
  - apply calls_app; [|exact C]. eapply calls_mono; [|exact HC]. intros n [Y|Y]; [left; eapply bound_rle; [eapply evolve_rle; exact V|exact Y]|now right].
  - intros n Hn. destruct (B n Hn) as [Y|Y]; [apply (proj1 (binds_incl tree l)); auto|now apply (proj2 (binds_incl tree l))].
Qed.
Lemma run_prefix : forall ps r tree t r', run_plugins ps r tree = Ok (t, r') -> incl (binds tree) (binds t).
Proof.
  induction ps as [|p ps IH]; intros r tree t r' H; cbn [run_plugins] in H; [injection H as <- _; apply incl_refl|].
  destruct (pl_generate p r) as [[l|e] r1]; [|discriminate]. apply IH in H. intros n Hn. apply H. now apply (proj1 (binds_incl tree l)).
Qed.
Lemma run_operations : forall n0 pc po add doc_of ps r tree t r', In (Plugin n0 (operations_plugin c st s pc po add doc_of d)) ps -> run_plugins ps r tree = Ok (t, r') ->
  forall n, opcls n -> In n (binds t).
Proof.
  intros n0 pc po add doc_of. induction ps as [|p ps IH]; intros r tree t r' HI H n Hn; [destruct HI|]. cbn [run_plugins] in H.
  destruct (pl_generate p r) as [[l|e] r1] eqn:E; [|discriminate]. destruct HI as [->|HI]; [|eapply IH; eassumption].
  apply run_prefix in H. apply H, (proj2 (binds_incl tree l)). cbn [pl_generate] in E. unfold operations_plugin in E. destruct Hn as (o & m & Ho & Hm & ->).
  assert (Ho' : In o (operations_of d)) by (unfold operations_of; apply in_flat_map; exists (DOp o); split; [exact Ho|now left]).
  clear - E Ho' Hm. revert r l r1 E. unfold mconcat. intros r l r1 E. mb E ys q1 E1. apply ret_ok in E as (-> & ->). revert r ys q1 E1.
  induction (operations_of d) as [|o' os IHo]; intros r ys q1 E1; [destruct Ho'|]. cbn [mmap] in E1. mb E1 y w1 Hy. mb E1 zs w2 Hz. apply ret_ok in E1 as (-> & ->). cbn [concat].
  destruct Ho' as [->|Ho']; [|apply (proj2 (binds_incl y (concat zs))); eapply IHo; eassumption]. apply (proj1 (binds_incl y (concat zs))).
  destruct (operation_single c st s pc po add doc_of o m _ _ _ Hy Hm) as (_ & bases & body & HI & _). apply in_flat_map. eexists. split; [exact HI|]. rewrite op_class_eq. now left.
Qed.
(** the blocks written before the classes *)
Lemma block_calls : forall k l (G : string -> Prop), built_in k = Some l -> (forall n, In n bi -> G n) -> calls G l.
Proof.
  intros k l G E HG. unfold built_in in E. repeat match type of E with (if ?b then _ else _) = _ => destruct b end; try discriminate; injection E as <-;
    intros f Hf; cbn in Hf; repeat (destruct Hf as [<-|Hf]); try destruct Hf; apply checked_callable; cbn; repeat split; intros n Hn; cbn in Hn;
    repeat (destruct Hn as [<-|Hn]); try destruct Hn; first [left; cbn; tauto|right; split; [cbn; intuition discriminate|apply HG, Hused; cbn; tauto]].
Qed.
End Run.
Theorem module_calls : forall bi c st s d iter ps flag t, incl simple_types bi -> incl used_builtins bi -> set_order iter ->
  Forall (calling_plugin c st s d) ps -> operations_written c st s d ps -> generate_ast c iter ps flag = Ok t -> calls_scoped bi t.
Proof.
  intros bi c st s d iter ps flag t Hbi Hused Hiter HF HO H. unfold generate_ast in H. destruct (run_plugins ps (init_reg c) []) as [[tree r]|] eqn:HR; [|discriminate]. cbn [rbind] in H.
  destruct (generate_builtins iter r) as [bs|] eqn:HB; [|discriminate]. cbn [rbind] in H. injection H as <-.
  unfold generate_builtins in HB. destruct (rmap _ (iter (r_builtins r))) as [blocks|] eqn:HBL; [|discriminate]. cbn [rbind] in HB. injection HB as <-.
  destruct (rmap_in _ _ _ HBL) as [BL1 BL2]. clear HBL.
  pose proof (imports_are_imports iter r) as II. destruct (generate_imports_spec iter Hiter r) as [_ IS].
  set (imps := generate_imports iter r) in *. set (F := if flag then [] else generate_forward_refs c r).
  assert (IB : forall x, In x (r_imports r) -> In (last_comp x) (binds imps)).
  { intros x Hx. eapply bindings_binds. apply IS. split; [exact Hx|reflexivity]. }
  assert (BB : forall l, In l blocks -> exists k, In k (r_builtins r) /\ built_in k = Some l).
  { intros l Hl. destruct (BL1 l Hl) as (k & Hk & E). exists k. split; [now apply (iter_In iter Hiter)|]. destruct (built_in k); [congruence|discriminate]. }
  assert (BN : forall k l, In k (r_builtins r) -> built_in k = Some l -> In l blocks).
  { intros k l Hk E. destruct (BL2 k) as (y & Hy & E'); [now apply (iter_In iter Hiter)|]. rewrite E in E'. injection E' as ->. exact Hy. }
  set (t := imps ++ concat blocks ++ tree ++ F).
  assert (GB : forall n, given bi r n -> In n bi \/ In n (binds t)).
  { intros n [Hn|[(x & Hx & <-)|(k & l & Hk & E & Hn)]]; [now left| |]; right; unfold t.
    - apply (proj1 (binds_incl _ _)). now apply IB.
    - apply (proj2 (binds_incl _ _)), (proj1 (binds_incl _ _)). unfold Spec_Scope.binds in *. apply in_flat_map in Hn as (x & Hx & Hn). apply in_flat_map. exists x. split; [|exact Hn].
      apply in_concat. exists l. split; [eapply BN; eassumption|exact Hx]. }
  assert (TB : incl (binds tree) (binds t)).
  { intros n Hn. unfold t. apply (proj2 (binds_incl _ _)), (proj2 (binds_incl _ _)), (proj1 (binds_incl _ _)). exact Hn. }
  destruct (run_ok bi Hbi Hused c st s d (fun n => In n (binds tree)) ps (init_reg c) [] tree r) as (C & B); auto.
  - intros p Hp (n & pc & doc_of & ->) m Hm. destruct HO as (n' & pc' & po & add & doc_of' & HI); [eauto|]. eapply run_operations; eassumption.
  - apply names_styled_init.
  - intros f [].
  - intros n (k & Hk). discriminate.
  - set (G := fun n => In n bi \/ In n (binds t)). change (calls G t). unfold t. apply calls_app; [|apply calls_app; [|apply calls_app]].
    + intros f Hf. exfalso. apply in_flat_map in Hf as (x & Hx & Hf). rewrite Forall_forall in II. specialize (II x Hx). destruct x; try contradiction; destruct Hf.
    + intros f Hf. apply in_flat_map in Hf as (x & Hx & Hf). apply in_concat in Hx as (l & Hl & Hx). destruct (BB l Hl) as (k & _ & E). eapply (block_calls bi Hused k l); [exact E|unfold G; auto|].
      apply in_flat_map. eauto.
    + eapply calls_mono; [|exact C]. intros n [[Y|Y]|Y]; [now apply GB| |]; right; apply TB; auto.
    + intros f Hf. exfalso. unfold F in Hf. destruct flag; [destruct Hf|]. unfold generate_forward_refs in Hf. apply in_flat_map in Hf as (x & Hx & Hf). apply in_map_iff in Hx as (m & <- & _). destruct Hf.
Qed.

