(** Names looked up by the models of object types and interfaces. *)
From Verif Require Import Base PyAst Gql Config Stylers Registry Utils Referencer Enums Inputs Recurse Objects Run
  Spec_Types Spec_Inputs Spec_Refs Spec_Imports Spec_Scope Spec_ScopeObj P_Base P_Monad P_Types P_Inputs P_Inputs2 P_Inputs3 P_Imports
  P_Enums P_InputProps P_Modelled P_Fields P_Scope P_Scope2 P_Scope3 P_Scope4.
From Coq Require Import Permutation.
Ltac mb H x r Hx := apply bind_ok in H; destruct H as (x & r & Hx & H).
Arguments register_import : simpl never.
Arguments add_forward : simpl never.
Arguments register_builtin : simpl never.

(** ** the parts of a module *)
Lemma assemble_all : forall bi iter c r tree bs, incl simple_types bi -> set_order iter -> generate_builtins iter r = Ok bs -> given bi r "Enum" ->
  scoped (given bi r) tree -> (forall n, In n (r_fwd r) -> exists b body d, In (SClass n b body d) tree) -> Forall definition tree ->
  (forall name b body d n, In (SClass name b body d) tree -> In n (class_quotes body) -> In name (r_fwd r) /\ (given bi r n \/ In n (binds tree))) ->
  let t := generate_imports iter r ++ bs ++ tree ++ generate_forward_refs c r in
  scoped (fun n => In n bi) t /\ quotes_resolved (fun n => In n bi) t /\ rebuilds_defined t.
Proof.
  intros bi iter c r tree bs Hbi Hiter HB GE' F3 F5 FD F6 t. subst t.
  unfold generate_builtins in HB. destruct (rmap _ (iter (r_builtins r))) as [blocks|] eqn:HBL; [|discriminate]. cbn [rbind] in HB. injection HB as <-.
  destruct (rmap_in _ _ _ HBL) as [BL1 BL2]. clear HBL.
  pose proof (imports_are_imports iter r) as II. destruct (generate_imports_spec iter Hiter r) as [_ IS].
  set (imps := generate_imports iter r) in *. set (F := generate_forward_refs c r).
  assert (IB : forall d, In d (r_imports r) -> In (last_comp d) (binds imps)).
  { intros d Hd. eapply bindings_binds. apply IS. split; [exact Hd|reflexivity]. }
  assert (BB : forall l, In l blocks -> exists k, In k (r_builtins r) /\ built_in k = Some l).
  { intros l Hl. destruct (BL1 l Hl) as (k & Hk & E). exists k. split; [now apply (iter_In iter Hiter)|]. destruct (built_in k); [congruence|discriminate]. }
  assert (BN : forall k l, In k (r_builtins r) -> built_in k = Some l -> In l blocks).
  { intros k l Hk E. destruct (BL2 k) as (y & Hy & E'); [now apply (iter_In iter Hiter)|]. rewrite E in E'. injection E' as ->. exact Hy. }
  assert (GB : forall n, given bi r n -> In n bi \/ In n (binds (imps ++ concat blocks))).
  { intros n [Hn|[(d & Hd & <-)|(k & l & Hk & E & Hn)]]; [now left| |]; right; rewrite binds_app, in_app_iff; [left; now apply IB|].
    right. unfold binds in *. apply in_flat_map in Hn. destruct Hn as (x & Hx & Hn). apply in_flat_map. exists x. split; [|exact Hn].
    apply in_concat. exists l. split; [eapply BN; eassumption|exact Hx]. }
  assert (EN : In "Enum" bi \/ In "Enum" (binds imps)).
  { destruct GE' as [Hn|[(d & Hd & E)|(k & l & Hk & E & Hn)]]; [now left|right; rewrite <- E; now apply IB|].
    exfalso. unfold built_in in E. repeat match type of E with (if ?b then _ else _) = _ => destruct b end; try discriminate; injection E as <-; cbn in Hn; intuition discriminate. }
  assert (BP : forall l (E : string -> Prop), In l blocks -> E "str" -> E "Enum" ->
     scoped E l /\ Forall definition l /\ forall nm b body d, In (SClass nm b body d) l -> class_quotes body = []).
  { intros l E Hl. destruct (BB l Hl) as (k & _ & Ek). eapply built_in_blocks; exact Ek. }
  assert (FW : forall x, In x F -> exists n, x = forward_call c n /\ In n (r_fwd r)).
  { intros x Hx. unfold F, generate_forward_refs in Hx. apply in_map_iff in Hx. destruct Hx as (n & <- & Hn). exists n. split; [reflexivity|]. now apply str_sort_In. }
  assert (NF : forall nm b body d, ~ In (SClass nm b body d) F).
  { intros nm b body d HX. destruct (FW _ HX) as (n & E & _). discriminate. }
  split; [|split].
  - apply scoped_app. split; [now apply imports_scoped|]. apply scoped_app. split.
    + apply scoped_concat. intros l Hl. apply (BP l); [exact Hl|left; apply Hbi; cbn; tauto|exact EN].
    + apply scoped_app. split.
      * eapply scoped_mono; [|exact F3]. intros n Hn. destruct (GB n Hn) as [X|X]; [left; now left|]. rewrite binds_app, in_app_iff in X. tauto.
      * assert (G : forall l (E : string -> Prop), (forall x n, In x l -> In n (runs x) -> E n) -> scoped E l).
        { induction l as [|x l IHl]; intros E HX; [exact I|]. split; [intros n; apply HX; now left|]. apply IHl. intros y n Hy Hn. left. eapply HX; [right; exact Hy|exact Hn]. }
        apply G. intros x n Hx Hn. destruct (FW x Hx) as (m & -> & Hm). cbn in Hn. destruct Hn as [<-|[]].
        right. destruct (F5 m Hm) as (b & body & d & Hin). unfold binds. apply in_flat_map. eexists. split; [exact Hin|]. now left.
  - intros pre name bases body decs post n E Hq.
    rewrite !app_assoc in E. destruct (split_left _ _ _ _ _ E (NF _ _ _ _)) as (mid & EA & ->).
    assert (HT : In (SClass name bases body decs) tree).
    { assert (X : In (SClass name bases body decs) ((imps ++ concat blocks) ++ tree)) by (rewrite EA; apply in_or_app; right; now left).
      rewrite !in_app_iff in X. destruct X as [[X|X]|X]; [| |exact X]; exfalso.
      - rewrite Forall_forall in II. exact (II _ X).
      - apply in_concat in X. destruct X as (l & Hl & X). destruct (BP l (fun _ => True) Hl I I) as (_ & _ & Q). rewrite (Q _ _ _ _ X) in Hq. contradiction. }
    destruct (F6 _ _ _ _ _ HT Hq) as [HF HG].
    assert (HC : In (forward_call c name) F) by (unfold F, generate_forward_refs; apply in_map, str_sort_In, HF).
    apply in_split in HC. destruct HC as (f1 & f2 & EF). exists (mid ++ f1), (forward_call c name), f2.
    split; [rewrite EF; now rewrite <- app_assoc|]. split; [apply forward_rebuilds|].
    rewrite app_comm_cons, app_assoc, <- EA, !binds_app, !in_app_iff.
    destruct HG as [HG|HG]; [|tauto].
    destruct (GB n HG) as [X|X]; [now left|]. rewrite binds_app, in_app_iff in X. tauto.
  - intros pre call post n E HR.
    rewrite !app_assoc in E. destruct (split_right _ _ _ _ _ E) as (m & -> & EF).
    { intros X. rewrite !in_app_iff in X.
      assert (HS : exists e, call = SExpr e) by (destruct HR as [->| ->]; eauto). destruct HS as (e & ->). destruct X as [[X|X]|X].
      - rewrite Forall_forall in II. exact (II _ X).
      - apply in_concat in X. destruct X as (l & Hl & X). destruct (BP l (fun _ => True) Hl I I) as (_ & Q & _). rewrite Forall_forall in Q. exact (Q _ X).
      - rewrite Forall_forall in FD. exact (FD _ X). }
    destruct (FW call) as (k & -> & Hk); [rewrite EF; apply in_or_app; right; now left|].
    apply rebuilds_forward in HR. subst k. destruct (F5 n Hk) as (b & body & d & Hin). exists b, body, d.
    apply in_or_app. left. apply in_or_app. now right.
Qed.

Lemma frame_ifc : forall st K r r', ~ In KIfa K -> evolve st K r r' -> r_iface_base r' = r_iface_base r.
Proof. frame. Qed.
Lemma step_objects : forall st p r r', step st p r r' -> r_objects r' = r_objects r.
Proof. intros st p r r' [E _]. eapply frame_objects; [|exact E]; cbn; intuition discriminate. Qed.

Section Objects.
Variables (st : list styler) (bi : list string).
Hypothesis Hbi : incl simple_types bi.
Variables (c : gconfig) (s : schema) (pc : obcfg) (sc : dict string).
Hypothesis Hsc : forall n t, dget n sc = Some t -> has_dot t = false -> In t bi.
Hypothesis Hforce : c_force_plugin_order c = true.
Hypothesis ND : NoDup (dkeys (s_types s)).
Notation out := (left_out (ob_skip_underscore pc) (ob_skip_double_underscore pc)).
Notation ocls n := (style_objecttype_class st n).
Notation given := (given bi).
Notation step := (step st).
Notation covers := (covers bi).
Notation quotes_ok := (quotes_ok bi).
Notation ready := (ready st sc).

(** the names that may be quoted *)
Definition composite_name (n : string) (x : string) : Prop :=
  (exists d i f ds, get_type s n = Some (TObject d i f ds) /\ x = ocls n) \/ (is_interface s n /\ x = style_interface_class st n).

(** ** the fields of one class, named [p]; [T]: the names bound further up *)
Section Class.
Variables (p : string) (T : string -> Prop).
Definition cov (r : reg) (l : list string) : Prop := forall n, In n l -> given r n \/ T n.
Record fine (r : reg) : Prop := Fine {
  f_ready : ready r;
  f_reg : forall n, registered r n -> T n;
  f_obj : forall k n, dget k (r_objects r) = Some n -> n = p \/ T n }.
Lemma fine_step : forall r r', step p r r' -> fine r -> fine r'.
Proof.
  intros r r' S [A B D]. split.
  - eapply ready_step; eassumption.
  - intros n. unfold registered. rewrite (step_inputs _ _ _ _ S), (step_enums _ _ _ _ S). apply B.
  - rewrite (step_objects _ _ _ _ S). exact D.
Qed.
Lemma cov_nil : forall r, cov r [].
Proof. intros r n []. Qed.
Lemma cov_cons : forall r n l, given r n \/ T n -> cov r l -> cov r (n :: l).
Proof. intros r n l H H' x [<-|Hx]; auto. Qed.
Lemma cov_app : forall r a b, cov r a -> cov r b -> cov r (a ++ b).
Proof. intros r a b H H' n Hn. apply in_app_or in Hn. destruct Hn; auto. Qed.
Lemma cov_step : forall r r' l, step p r r' -> cov r l -> cov r' l.
Proof. intros r r' l S H n Hn. destruct (H n Hn) as [X|X]; [left; eapply given_rle; [eapply step_rle; exact S|exact X]|now right]. Qed.
Lemma covers_cov : forall r l, fine r -> covers r p l -> cov r l.
Proof. intros r l HF H n Hn. destruct (H n Hn) as [X|[_ X]]; [now left|right; now apply (f_reg _ HF)]. Qed.
Lemma mark : forall r u r', add_forward p r = (Ok u, r') -> step p r r' /\ In p (r_fwd r').
Proof. intros r u r' H. unfold add_forward, modify in H. injection H as _ <-. split; [apply step_mark|]. cbn. apply sadd_In. auto. Qed.
Lemma import_step : forall n r u r', register_import n r = (Ok u, r') -> step p r r' /\ given r' (last_comp n).
Proof. intros n r u r' H. split; [eapply step_quiet; [|exact H]; ev_leaf|exact (import_given bi Hbi _ _ _ _ H)]. Qed.

Definition told (r : reg) (l : list string) (n : string) : Prop := quotes_ok r p (composite_name n) l.
Lemma leaf_scope : forall n r e r', fine r -> leaf_reference c st s n p r = (Ok e, r') ->
  step p r r' /\ cov r' (loads e) /\ quotes_ok r' p (composite_name n) (quoted e).
Proof.
  intros n r e r' HF H. unfold leaf_reference in H. destruct (get_type s n) as [[]|] eqn:G; try discriminate.
  - destruct (scalar_scope st bi Hbi sc Hsc n p _ _ _ (f_ready _ HF) H) as (A & B & D). split; [exact A|]. split; [eapply covers_cov; [eapply fine_step; eassumption|exact B]|].
    rewrite D. apply quotes_nil.
  - rewrite Hforce in H. destruct (enum_scope st bi sc n p _ _ _ (f_ready _ HF) H) as (A & B & D). split; [exact A|]. split; [eapply covers_cov; [eapply fine_step; eassumption|exact B]|].
    eapply quotes_weaken; [|exact D]. contradiction.
  - unfold reference_object, reference_generic in H. cbn zeta in H. mb H m r1 Hm. apply gets_ok in Hm. destruct Hm; subst m r1.
    assert (Q : forall r0 u r2, add_forward p r0 = (Ok u, r2) -> quotes_ok r2 p (composite_name n) (quoted (estr (ocls n)))).
    { intros r0 u r2 Hu x [<-|[]]. split; [now apply (mark _ _ _ Hu)|]. right. left. eauto 6. }
    destruct (negb (dmem n (r_objects r)) || String.eqb p (ocls n)) eqn:E.
    + mb H u r1 Hu. apply ret_ok in H. destruct H as [-> ->]. split; [now apply (mark _ _ _ Hu)|]. split; [apply cov_nil|]. eapply Q; exact Hu.
    + apply ret_ok in H. destruct H as [-> ->]. apply orb_false_iff in E. destruct E as [E1 E2]. split; [apply step_refl|]. split; [|apply quotes_nil].
      apply cov_cons; [right|apply cov_nil]. apply negb_false_iff in E1. unfold dmem in E1. destruct (dget n (r_objects r)) as [x|] eqn:D; [|discriminate].
      destruct (f_ready _ HF) as [(_ & _ & HN & _) _]. rewrite <- (HN _ _ D). destruct (f_obj _ HF _ _ D) as [X|X]; [|exact X].
      rewrite (HN _ _ D) in X. rewrite X, String.eqb_refl in E2. discriminate.
  - unfold reference_interface in H. mb H u r1 Hu. apply ret_ok in H. destruct H as [-> ->]. split; [now apply (mark _ _ _ Hu)|]. split; [apply cov_nil|].
    intros x [<-|[]]. split; [now apply (mark _ _ _ Hu)|]. right. right. split; [do 3 eexists; exact G|reflexivity].
Qed.
Definition of_type (t : gty) (x : string) : Prop :=
  exists n, (n = gty_name t \/ exists d ms, get_type s (gty_name t) = Some (TUnion d ms) /\ In n ms) /\ composite_name n x.
Lemma members_scope : forall ms r es r', fine r -> mmap (fun m => leaf_reference c st s m p) ms r = (Ok es, r') ->
  step p r r' /\ cov r' (flat_map loads es) /\ quotes_ok r' p (fun x => exists m, In m ms /\ composite_name m x) (flat_map quoted es).
Proof.
  induction ms as [|m ms IH]; intros r es r' HF H; cbn in H.
  - apply ret_ok in H. destruct H as [-> ->]. split; [apply step_refl|]. split; [apply cov_nil|apply quotes_nil].
  - mb H e r1 He. mb H es' r2 Hes. apply ret_ok in H. destruct H as [-> ->]. destruct (leaf_scope _ _ _ _ HF He) as (S1 & C1 & Q1).
    destruct (IH _ _ _ (fine_step _ _ S1 HF) Hes) as (S2 & C2 & Q2). split; [eapply step_trans; eassumption|]. cbn. split.
    + apply cov_app; [eapply cov_step; eassumption|exact C2].
    + apply quotes_app; [eapply quotes_weaken; [|eapply quotes_step; [exact S2|exact Q1]]; eauto|eapply quotes_weaken; [|exact Q2]].
      intros x (m' & Hm & X). eauto.
Qed.
Lemma optional_quoted : forall (o : bool) e, quoted (if o then optional_of e else e) = quoted e.
Proof. intros [] e; reflexivity. Qed.
Lemma optional_cov : forall (o : bool) e r, (o = true -> given r "Optional") -> cov r (loads e) -> cov r (loads (if o then optional_of e else e)).
Proof. intros [] e r HO H; [|exact H]. cbn. apply cov_cons; [left; auto|exact H]. Qed.
Lemma named_scope : forall n o r e r', fine r -> named_object_annotation c st s n p o r = (Ok e, r') ->
  step p r r' /\ cov r' (loads e) /\ quotes_ok r' p (of_type (GNamed n)) (quoted e).
Proof.
  intros n o r e r' HF H. unfold named_object_annotation in H. mb H u r1 H1. mb H x r2 H2. apply ret_ok in H. destruct H as [-> ->].
  assert (S1 : step p r r1 /\ (o = true -> given r1 "Optional")).
  { destruct o; [|apply ret_ok in H1; destruct H1 as [_ ->]; split; [apply step_refl|discriminate]]. destruct (import_step _ _ _ _ H1) as [A B]. split; auto. }
  destruct S1 as [S1 G1]. pose proof (fine_step _ _ S1 HF) as F1.
  assert (X : step p r1 r2 /\ cov r2 (loads x) /\ quotes_ok r2 p (of_type (GNamed n)) (quoted x)).
  { assert (L : leaf_reference c st s n p r1 = (Ok x, r2) -> step p r1 r2 /\ cov r2 (loads x) /\ quotes_ok r2 p (of_type (GNamed n)) (quoted x)).
    { intros H. destruct (leaf_scope _ _ _ _ F1 H) as (A & B & D). split; [exact A|]. split; [exact B|]. eapply quotes_weaken; [|exact D].
      intros y Hy. exists n. split; [now left|exact Hy]. }
    destruct (get_type s n) as [[]|] eqn:G; try (apply L; exact H2).
    mb H2 u2 r3 H3. mb H2 es r4 H4. apply ret_ok in H2. destruct H2 as [-> ->]. destruct (import_step _ _ _ _ H3) as [S3 G3].
    destruct (members_scope _ _ _ _ (fine_step _ _ S3 F1) H4) as (S4 & C4 & Q4). split; [eapply step_trans; eassumption|]. split.
    - cbn. apply cov_cons; [left; eapply given_rle; [eapply step_rle; exact S4|exact G3]|exact C4].
    - cbn. eapply quotes_weaken; [|exact Q4]. intros y (m & Hm & Hy). exists m. split; [right; cbn [gty_name]; eauto|exact Hy]. }
  destruct X as (S2 & C2 & Q2). split; [eapply step_trans; eassumption|]. rewrite optional_quoted. split; [|exact Q2].
  apply optional_cov; [|exact C2]. intros E. eapply given_rle; [eapply step_rle; exact S2|auto].
Qed.
Lemma annotation_scope : forall t o r e r', fine r -> generate_object_field_annotation c st s t p o r = (Ok e, r') ->
  step p r r' /\ cov r' (loads e) /\ quotes_ok r' p (of_type t) (quoted e).
Proof.
  induction t as [n|t IH|t IH]; intros o r e r' HF H; cbn [generate_object_field_annotation] in H.
  - eapply named_scope; eassumption.
  - mb H u1 r1 H1. mb H u2 r2 H2. mb H x r3 H3. cbn zeta in H. apply ret_ok in H. destruct H as [-> ->].
    destruct (import_step _ _ _ _ H1) as [S1 G1]. destruct (import_step _ _ _ _ H2) as [S2 G2].
    destruct (IH _ _ _ _ (fine_step _ _ S2 (fine_step _ _ S1 HF)) H3) as (S3 & C3 & Q3).
    split; [eapply step_trans; [exact S1|eapply step_trans; eassumption]|]. rewrite optional_quoted. split.
    + apply optional_cov; [intros ->; eapply given_rle; [eapply step_rle; exact S3|exact G2]|].
      destruct (tuple_for_objects c); cbn; (apply cov_cons; [left; eapply given_rle; [eapply step_rle; exact S3|]; eapply given_rle; [eapply step_rle; exact S2|exact G1]|]); [|exact C3].
      apply cov_app; [exact C3|apply cov_nil].
    + destruct (tuple_for_objects c); cbn; rewrite ?app_nil_r; exact Q3.
  - exact (IH _ _ _ _ HF H).
Qed.
Lemma kws_loads : forall l, (forall kv, In kv l -> loads (snd kv) = []) -> loads (field_call l) = ["Field"].
Proof.
  intros l H. cbn. f_equal. induction l as [|kv l IH]; [reflexivity|]. cbn. rewrite (H kv) by (now left). apply IH. intros x Hx. apply H. now right.
Qed.
Lemma metadata_cov : forall e dep r e' r', fine r -> annotate_field_metadata c e None dep r = (Ok e', r') ->
  step p r r' /\ (cov r (loads e) -> cov r' (loads e')) /\ quoted e' = quoted e.
Proof.
  intros e dep r e' r' HF H. destruct (metadata_scope st (bi ++ loads e) (incl_appl _ Hbi) c e None dep p _ _ _ H) as (S & M & Q).
  split; [exact S|]. split; [|exact Q]. intros HC n Hn. destruct (M) with (n := n) as [G|[_ G]]; [|exact Hn| |right; apply (f_reg _ (fine_step _ _ S HF)), G].
  - intros m Hm. left. left. apply in_or_app. now right.
  - destruct G as [G|G]; [|left; now right]. apply in_app_or in G. destruct G as [G|G]; [left; now left|]. eapply cov_step; [exact S|exact HC|exact G].
Qed.
Lemma field_scope : forall kv r l r', fine r -> object_field c st s p kv r = (Ok l, r') ->
  step p r r' /\ cov r' (flat_map runs l) /\ quotes_ok r' p (of_type (fd_type (snd kv))) (class_quotes l).
Proof.
  intros kv r l r' HF H. unfold object_field in H. mb H a r1 H1. destruct (annotation_scope _ _ _ _ _ HF H1) as (S1 & C1 & Q1).
  unfold field_statements in H. cbn zeta in H. mb H a' r2 H2. mb H u r3 H3. apply ret_ok in H. destruct H as [-> ->].
  destruct (metadata_cov _ _ _ _ _ (fine_step _ _ S1 HF) H2) as (S2 & C2 & Q2). specialize (C2 C1).
  set (kws := if String.eqb (fst kv) (generate_node_name st (fst kv)) then if is_nonnull (fd_type (snd kv)) then [] else [("default", enone)]
              else (if is_nonnull (fd_type (snd kv)) then [] else [("default", enone)]) ++ [("alias", estr (fst kv))]) in *.
  assert (KL : forall x, In x kws -> loads (snd x) = []).
  { intros x. unfold kws. destruct (String.eqb _ _), (is_nonnull _); cbn; intuition subst; reflexivity. }
  assert (S3 : step p r2 r3 /\ (kws <> [] -> given r3 "Field")).
  { destruct kws; [apply ret_ok in H3; destruct H3 as [_ ->]; split; [apply step_refl|congruence]|]. destruct (import_step _ _ _ _ H3) as [A B]. split; auto. }
  destruct S3 as [S3 G3]. assert (S : step p r r3) by (eapply step_trans; [exact S1|eapply step_trans; eassumption]).
  split; [exact S|].
  set (docs := match compose_field_documentation _ _ _ _ with Some _ => _ | None => _ end).
  assert (D : flat_map runs docs = [] /\ class_quotes docs = []) by (unfold docs; destruct (compose_field_documentation _ _ _ _); auto).
  split.
  - cbn [flat_map runs]. rewrite (proj1 D), app_nil_r. apply cov_app; [eapply cov_step; [exact S3|exact C2]|].
    destruct kws as [|x kws']; [apply cov_nil|]. cbn [opt_loads]. rewrite kws_loads by exact KL. apply cov_cons; [left; apply G3; discriminate|apply cov_nil].
  - match goal with |- quotes_ok _ _ _ (class_quotes (?x :: docs)) => change (x :: docs) with ([x] ++ docs) end. rewrite class_quotes_app, (proj2 D), app_nil_r.
    match goal with |- quotes_ok _ _ _ ?l => replace l with (quoted a') by (unfold class_quotes; cbn; now rewrite app_nil_r) end.
    rewrite Q2. eapply quotes_step; [exact S3|]. eapply quotes_step; [exact S2|exact Q1].
Qed.
Definition of_fields (fs : list (string * fielddef)) (x : string) : Prop := exists kv, In kv fs /\ of_type (fd_type (snd kv)) x.
Lemma fields_scope : forall fs r l r', fine r -> mconcat (object_field c st s p) fs r = (Ok l, r') ->
  step p r r' /\ cov r' (flat_map runs l) /\ quotes_ok r' p (of_fields fs) (class_quotes l).
Proof.
  intros fs r l r' HF H. apply mconcat_ok in H. destruct H as (lss & H & ->). revert r lss HF H.
  induction fs as [|kv fs IH]; intros r lss HF H; cbn in H.
  - apply ret_ok in H. destruct H as [-> ->]. split; [apply step_refl|]. split; [apply cov_nil|apply quotes_nil].
  - mb H y r1 H1. mb H ys r2 H2. apply ret_ok in H. destruct H as [-> ->]. destruct (field_scope _ _ _ _ HF H1) as (S1 & C1 & Q1).
    destruct (IH _ _ (fine_step _ _ S1 HF) H2) as (S2 & C2 & Q2). split; [eapply step_trans; eassumption|]. cbn [concat]. split.
    + rewrite flat_map_app. apply cov_app; [eapply cov_step; eassumption|exact C2].
    + rewrite class_quotes_app. apply quotes_app; [eapply quotes_weaken; [|eapply quotes_step; [exact S2|exact Q1]]|eapply quotes_weaken; [|exact Q2]].
      * intros x Hx. exists kv. split; [now left|exact Hx].
      * intros x (kv' & Hk & Hx). exists kv'. split; [now right|exact Hx].
Qed.
End Class.

(** ** the loop *)
Variable extra : string -> Prop.   (* names quoted by classes of other plugins *)
Definition quotable (x : string) : Prop := extra x \/ exists n, value_target s out n /\ composite_name n x.
Record JO (tree : list stmt) (r : reg) : Prop := {
  o_ready : ready r;
  o_base : forall b, In b (ob_bases pc) -> given r (last_comp b);
  o_scope : scoped (given r) tree;
  o_reg : forall n, registered r n -> In n (binds tree);
  o_obj : forall k n, dget k (r_objects r) = Some n -> In n (binds tree);
  o_ifc : forall k n, dget k (r_iface_base r) = Some n -> In n (binds tree);
  o_fwd : forall n, In n (r_fwd r) -> exists b body d, In (SClass n b body d) tree;
  o_defs : Forall definition tree;
  o_cls : forall name b body d n, In (SClass name b body d) tree -> In n (class_quotes body) ->
            In name (r_fwd r) /\ (given r n \/ quotable n) }.
Lemma quotable_given : forall r r' n, rle r r' -> given r n \/ quotable n -> given r' n \/ quotable n.
Proof. intros r r' n HR [H|H]; [left; eapply given_rle; eassumption|now right]. Qed.
Lemma JO_quiet : forall tree r r', evolve st [KImp; KBui] r r' -> JO tree r -> JO tree r'.
Proof.
  intros tree r r' E [J1 J2 J3 J4 JB JI J5 JD J6]. pose proof (quiet_step st "" _ _ E) as S. pose proof (step_rle _ _ _ _ S) as R. split.
  - eapply ready_step; eassumption.
  - intros b Hb. eapply given_rle; [exact R|auto].
  - eapply scoped_mono; [|exact J3]. intros n. apply given_rle, R.
  - intros n. unfold registered. rewrite (step_inputs _ _ _ _ S), (step_enums _ _ _ _ S). apply J4.
  - rewrite (step_objects _ _ _ _ S). exact JB.
  - rewrite (frame_ifc _ _ _ _ (ltac:(cbn; intuition discriminate) : ~ In KIfa [KImp; KBui]) E). exact JI.
  - intros n. rewrite (quiet_fwd _ _ _ E). apply J5.
  - exact JD.
  - intros. rewrite (quiet_fwd _ _ _ E). destruct (J6 name b body d n) as [A B]; auto. split; [exact A|eapply quotable_given; eassumption].
Qed.
(** registering the class of a type: only its own name is new *)
Definition named (key : string) (t : typedef) : M string :=
  if is_interface_def t then generate_interface st key true else generate_objecttype st key.
Lemma named_spec : forall key t r name r1, named key t r = (Ok name, r1) ->
  rle r r1 /\ r_fwd r1 = r_fwd r /\ (ready r -> ready r1) /\ (forall n, registered r1 n -> registered r n)
  /\ (forall k n, dget k (r_objects r1) = Some n -> n = name \/ dget k (r_objects r) = Some n)
  /\ (forall k n, dget k (r_iface_base r1) = Some n -> n = name \/ dget k (r_iface_base r) = Some n)
  /\ (forall k n, k <> key -> dget k (r_iface_base r1) = Some n -> dget k (r_iface_base r) = Some n)
  /\ (is_interface_def t = false -> name = ocls key /\ dget key (r_objects r1) = Some name).
Proof.
  intros key t r name r1 H. unfold named in H. destruct (is_interface_def t).
  - pose proof (ev_ok _ _ _ _ _ _ (ev_generate_interface st key true) H) as E. unfold generate_interface in H. mb H m r2 Hm. apply gets_ok in Hm. destruct Hm; subst m r2.
    mb H u r2 Hu. unfold massert in Hu. destruct (negb (dmem key (r_iface_base r))) eqn:D; [|discriminate]. apply ret_ok in Hu. destruct Hu as [_ ->].
    cbn zeta in H. mb H u2 r2 Hu2. unfold modify in Hu2. injection Hu2 as _ <-. apply ret_ok in H. destruct H as [-> ->].
    split; [eapply evolve_rle; exact E|]. split; [reflexivity|]. split; [intros [A B]; split; [eapply names_styled_evolve; eassumption|exact B]|].
    split; [auto|]. split; [auto|]. cbn [r_iface_base with_iface]. split; [|split; [|discriminate]].
    + intros k n. rewrite dget_dset. destruct (String.eqb k key); [intros [= <-]; now left|auto].
    + intros k n Hk. rewrite dget_dset. destruct (String.eqb_spec k key); [contradiction|auto].
  - pose proof (ev_ok _ _ _ _ _ _ (ev_generate_objecttype st key) H) as E. apply generate_in_spec in H. destruct H as (HN & -> & ->).
    split; [eapply evolve_rle; exact E|]. split; [reflexivity|]. split; [intros [A B]; split; [eapply names_styled_evolve; eassumption|exact B]|].
    split; [auto|]. cbn [r_objects with_objects r_iface_base]. split; [|split; [auto|split; [auto|]]].
    + intros k n. rewrite dget_dset. destruct (String.eqb k key); [intros [= <-]; now left|auto].
    + intros _. split; [reflexivity|]. now rewrite dget_dset, String.eqb_refl.
Qed.
Lemma bases_scope : forall all ks r l r', mconcat (fun i => if extended_by_other s i all then ret [] else let* b := inherit_interface i in ret [EName b]) ks r = (Ok l, r') ->
  r' = r /\ forall n, In n (flat_map loads l) -> exists i, In i ks /\ dget i (r_iface_base r) = Some n.
Proof.
  intros all ks r l r' H. apply mconcat_ok in H. destruct H as (lss & H & ->). revert r lss H.
  induction ks as [|i ks IH]; intros r lss H; cbn in H.
  - apply ret_ok in H. destruct H as [-> ->]. split; [reflexivity|]. intros n [].
  - mb H y r1 H1. mb H ys r2 H2. apply ret_ok in H. destruct H as [-> ->]. cbn [concat]. destruct (extended_by_other s i all).
    + apply ret_ok in H1. destruct H1 as [-> ->]. destruct (IH _ _ H2) as [-> B]. split; [reflexivity|]. intros n Hn. destruct (B n Hn) as (j & Hj & E). exists j. split; [now right|exact E].
    + mb H1 b r3 Hb. apply ret_ok in H1. destruct H1 as [-> ->]. unfold inherit_interface in Hb. mb Hb m r4 Hm. apply gets_ok in Hm. destruct Hm; subst m r4.
      destruct (dget i (r_iface_base r)) as [b'|] eqn:E; [|discriminate]. apply ret_ok in Hb. destruct Hb as [-> ->]. destruct (IH _ _ H2) as [-> B].
      split; [reflexivity|]. intros n [<-|Hn]; [exists i; split; [now left|exact E]|]. destruct (B n Hn) as (j & Hj & Ej). exists j. split; [now right|exact Ej].
Qed.
Hypothesis Hself : none_implements_itself s.
Definition bound_all {A} (names : A -> list string) (tree : list stmt) (l : list A) : Prop := forall x n, In x l -> In n (names x) -> In n (binds tree).
Record loop (tree0 : list stmt) (pre : list (string * typedef)) (x : obstate) (r : reg) : Prop := {
  l_inv : JO (tree0 ++ os_tree x) r;
  l_impl : forall i l n, dget i (os_implementing x) = Some l -> In n l -> In n (binds (tree0 ++ os_tree x));
  l_base : forall i n, dget i (os_base x) = Some n -> In n (binds (tree0 ++ os_tree x));
  l_objs : forall key t, In (key, t) pre -> ~ out key -> is_interface_def t = false -> In (ocls key) (binds (tree0 ++ os_tree x));
  l_ifcs : forall key t, In (key, t) pre -> ~ out key -> is_interface_def t = true -> dmem key (os_base x) = true }.
Lemma out_spec : forall key, (ob_skip_underscore pc && startswith "_" key) || (ob_skip_double_underscore pc && startswith "__" key) = true <-> out key.
Proof. intros key. unfold left_out. rewrite orb_true_iff, !andb_true_iff. reflexivity. Qed.
Lemma extend_names : forall (name : string) (is : list string) d (P : string -> Prop), P name ->
  (forall i l n, dget i d = Some l -> In n l -> P n) -> forall i l n, dget i (fold_left (fun m i => dextend i [name] m) is d) = Some l -> In n l -> P n.
Proof.
  intros name is. induction is as [|j is IH]; intros d P HP HD; [exact HD|]. cbn. apply IH; [exact HP|]. intros i l n. unfold dextend.
  destruct (dget j d) as [l0|] eqn:E; rewrite dget_dset; destruct (String.eqb i j); try (intros H; eapply HD; exact H).
  - intros [= <-] Hn. apply in_app_or in Hn. destruct Hn as [Hn|[<-|[]]]; [eapply HD; eassumption|exact HP].
  - intros [= <-] [<-|[]]. exact HP.
Qed.
Lemma step_scope : forall tree0 pre x key t r x' r', In (key, t) (s_types s) -> composite_parts t <> None -> loop tree0 pre x r ->
  object_step c st s pc x (key, t) r = (Ok x', r') -> loop tree0 (pre ++ [(key, t)]) x' r'.
Proof.
  intros tree0 pre x key t r x' r' Hin Hcomp [L1 L2 L3 L4 L5] H. unfold object_step in H.
  mb H ab r1 H1. destruct (additional_given st bi Hbi c _ _ _ _ H1) as [E1 G1]. pose proof (JO_quiet _ _ _ E1 L1) as J1.
  destruct (_ || _) eqn:SK.
  - apply ret_ok in H. destruct H as [-> ->]. apply out_spec in SK. split; auto; intros k t' Hk; apply in_app_or in Hk; destruct Hk as [Hk|[[= <- <-]|[]]]; [eauto|contradiction|eauto|contradiction].
  - assert (NO : ~ out key) by (intros X; apply out_spec in X; congruence).
    mb H name r2 H2. mb H ib r3 H3. mb H fields r4 H4. mb H cf r5 H5. cbn zeta in H. apply ret_ok in H. destruct H as [-> ->].
    fold (named key t) in H2. destruct (named_spec _ _ _ _ _ H2) as (R2 & F2 & RD2 & RG2 & RO2 & RI2 & RK2 & RN2).
    unfold interface_bases in H3. destruct (bases_scope _ _ _ _ _ H3) as [-> B3].
    set (tree := tree0 ++ os_tree x) in *. destruct J1 as [J1 J2 J3 J4 JB JI J5 JD J6].
    assert (HF : fine name (fun n => In n (binds tree)) r2).
    { split; [auto|intros n Hn; apply J4; auto|]. intros k n Hk. destruct (RO2 _ _ Hk) as [-> |X]; [now left|right; eapply JB; exact X]. }
    destruct (fields_scope name _ _ _ _ _ HF H4) as (S4 & C4 & Q4).
    destruct (config_scope st bi Hbi c _ _ name _ _ _ H5) as [S5 C5]. pose proof (step_trans _ _ _ _ _ S4 S5) as S.
    pose proof (fine_step _ _ _ _ S HF) as HF5. apply (covers_cov name _ _ _ HF5) in C5.
    pose proof (rle_trans _ _ _ R2 (step_rle _ _ _ _ S)) as R.
    assert (CF : class_quotes cf = []) by (unfold class_quotes; now rewrite (config_no_fields _ _ _ _ _ _ H5)).
    set (doc := if truthy (type_desc t) then _ else _).
    assert (DD : flat_map runs doc = [] /\ class_quotes doc = []) by (unfold doc; destruct (truthy _); auto).
    assert (IB : forall k n, dget k (r_iface_base r5) = Some n -> n = name \/ dget k (r_iface_base r1) = Some n).
    { intros k n. destruct S as [E _]. rewrite (frame_ifc _ _ _ _ (ltac:(cbn; intuition discriminate) : ~ In KIfa input_kinds) E). apply RI2. }
    set (cls := SClass name (ab ++ ib ++ names_of (ob_bases pc)) (doc ++ fields ++ cf) []).
    assert (BN : forall n, In n (binds (tree ++ [cls])) <-> In n (binds tree) \/ n = name).
    { intros n. rewrite binds_app, in_app_iff. cbn. intuition. }
    assert (JF : JO (tree ++ [cls]) r5).
    { split.
      - exact (f_ready _ _ _ HF5).
      - intros b Hb. eapply given_rle; [exact R|auto].
      - apply scoped_snoc; [eapply scoped_mono; [|exact J3]; intros n; apply given_rle, R|]. unfold cls. cbn [runs flat_map app]. rewrite !flat_map_app, (proj1 DD). cbn [app].
        intros n Hn. apply in_app_or in Hn. destruct Hn as [Hn|Hn].
        + rewrite !in_app_iff in Hn. destruct Hn as [Hn|[Hn|Hn]].
          * left. eapply given_rle; [exact R|auto].
          * right. destruct (B3 n Hn) as (i & Hi & E). eapply JI. eapply RK2; [|exact E]. intros ->.
            destruct t; try contradiction; cbn in Hi; eapply (Hself key); try eassumption; reflexivity.
          * left. apply in_flat_map in Hn. destruct Hn as (e & He & Hn). unfold names_of in He. apply in_map_iff in He. destruct He as (b & <- & Hb).
            destruct Hn as [<-|[]]. eapply given_rle; [exact R|auto].
        + apply in_app_or in Hn. destruct Hn as [Hn|Hn]; [exact (cov_step _ _ _ _ _ S5 C4 n Hn)|exact (C5 n Hn)].
      - intros n Hn. apply BN. left. exact (f_reg _ _ _ HF5 n Hn).
      - intros k n Hk. apply BN. destruct (f_obj _ _ _ HF5 k n Hk); auto.
      - intros k n Hk. apply BN. destruct (IB k n Hk) as [-> |X]; [now right|left; eapply JI; exact X].
      - intros n Hn. destruct (step_fwd _ _ _ _ S n Hn) as [X| ->].
        + rewrite F2 in X. destruct (J5 n X) as (b & body & d & Hc). do 3 eexists. apply in_or_app. left; exact Hc.
        + do 3 eexists. apply in_or_app. right; left; reflexivity.
      - apply Forall_app. split; [exact JD|]. repeat constructor.
      - intros nm b body d n Hc Hq. apply in_app_or in Hc. destruct Hc as [Hc|[Hc|[]]].
        + destruct (J6 nm b body d n Hc Hq) as [A B]. split; [now apply (rle_fwd _ _ R)|eapply quotable_given; eassumption].
        + injection Hc as <- <- <- <-. rewrite !class_quotes_app, (proj2 DD), CF, app_nil_r in Hq. cbn [app] in Hq.
          destruct (quotes_step _ _ _ _ _ _ _ S5 Q4 n Hq) as [A [B|(kv & Hkv & m & Hm & Hx)]]; [auto|]. split; [exact A|]. right. right. exists m. split; [|exact Hx].
          split.
          * destruct Hx as [(d' & i' & f' & ds' & G & _)|((d' & i' & f' & G) & _)]; do 2 eexists; (split; [exact G|reflexivity]).
          * destruct kv as [k f]. destruct t; try (exfalso; apply Hcomp; reflexivity); cbn in Hkv; do 6 eexists; (split; [exact Hin|]; split; [reflexivity|]; split; [exact NO|]; split; [exact Hkv|exact Hm]). }
    split; cbn [os_tree os_implementing os_base]; rewrite ?app_assoc; fold tree; fold cls.
    + exact JF.
    + apply extend_names; [apply BN; now right|]. intros i l n Hi Hn. apply BN. left. eapply L2; eassumption.
    + intros i n. destruct (is_interface_def t); [rewrite dget_dset; destruct (String.eqb i key)|]; [intros [= <-]; apply BN; now right| |]; intros Hn; apply BN; left; eapply L3; exact Hn.
    + intros k t' Hk NK IK. apply BN. apply in_app_or in Hk. destruct Hk as [Hk|[[= <- <-]|[]]]; [left; eauto|]. right. symmetry. now apply RN2.
    + intros k t' Hk NK IK. apply in_app_or in Hk. destruct Hk as [Hk|[[= <- <-]|[]]].
      * pose proof (L5 k t' Hk NK IK) as X. destruct (is_interface_def t); [|exact X]. unfold dmem in *. rewrite dget_dset. destruct (String.eqb k key); [reflexivity|exact X].
      * rewrite IK. unfold dmem. now rewrite dget_dset, String.eqb_refl.
Qed.
(** ** the plugin *)
Record closed (tree : list stmt) (r : reg) : Prop := {
  cl_scope : scoped (given r) tree;
  cl_fwd : forall n, In n (r_fwd r) -> exists b body d, In (SClass n b body d) tree;
  cl_defs : Forall definition tree;
  cl_cls : forall name b body d n, In (SClass name b body d) tree -> In n (class_quotes body) ->
             In name (r_fwd r) /\ (given r n \/ quotable n) }.
Lemma closed_rle : forall tree r r', rle r r' -> r_fwd r' = r_fwd r -> closed tree r -> closed tree r'.
Proof.
  intros tree r r' R F [A B D E]. split; auto.
  - eapply scoped_mono; [|exact A]. intros n. apply given_rle, R.
  - rewrite F. exact B.
  - intros name b body d n H1 H2. rewrite F. destruct (E name b body d n H1 H2) as [X Y]. split; [exact X|eapply quotable_given; eassumption].
Qed.
Lemma closed_alias : forall tree r n e, (forall x, In x (loads e) -> given r x \/ In x (binds tree)) -> closed tree r -> closed (tree ++ [SAssign (EName n) e]) r.
Proof.
  intros tree r n e H [A B D E]. split.
  - apply scoped_snoc; [exact A|exact H].
  - intros m Hm. destruct (B m Hm) as (b & body & d & X). do 3 eexists. apply in_or_app. left; exact X.
  - apply Forall_app. split; [exact D|]. repeat constructor.
  - intros nm b body d m Hin Hq. apply in_app_or in Hin. destruct Hin as [Hin|[[=]|[]]]. eauto.
Qed.
Definition union_alias (kv : string * list string) : M stmt :=
  register_import "typing.Union" ;; ret (SAssign (EName (fst kv)) (union_of (map EName (snd kv)))).
Lemma unions_scope : forall l tree r us r', (forall kv n, In kv l -> In n (snd kv) -> In n (binds tree)) -> closed tree r ->
  mmap union_alias l r = (Ok us, r') -> closed (tree ++ us) r' /\ (forall kv, In kv l -> In (fst kv) (binds us)).
Proof.
  induction l as [|kv l IH]; intros tree r us r' HL HC H; cbn in H.
  - apply ret_ok in H. destruct H as [-> ->]. rewrite app_nil_r. split; [exact HC|contradiction].
  - mb H y r1 H1. mb H ys r2 H2. apply ret_ok in H. destruct H as [-> ->]. unfold union_alias in H1. mb H1 u r3 H3. apply ret_ok in H1. destruct H1 as [-> ->].
    assert (E : evolve st [KImp; KBui] r r3) by (eapply ev_ok; [|exact H3]; ev_leaf).
    assert (C1 : closed (tree ++ [SAssign (EName (fst kv)) (union_of (map EName (snd kv)))]) r3).
    { apply closed_alias; [|eapply closed_rle; [eapply evolve_rle; exact E|eapply quiet_fwd; exact E|exact HC]].
      intros x Hx. apply union_loads in Hx. destruct Hx as [-> |Hx]; [left; exact (import_given bi Hbi _ _ _ _ H3)|right; eapply HL; [now left|exact Hx]]. }
    destruct (IH _ _ _ _ (fun kv' n Hk Hn => ltac:(rewrite binds_app; apply in_or_app; left; eapply HL; [right; exact Hk|exact Hn])) C1 H2) as [A B].
    rewrite <- app_assoc in A. split; [exact A|]. intros x [<-|Hx]; [now left|]. right. now apply B.
Qed.
Lemma lonely_scope : forall l tree r, (forall kv, In kv l -> In (snd kv) (binds tree)) -> closed tree r ->
  closed (tree ++ map (fun kv : string * string => SAssign (EName (fst kv)) (EName (snd kv))) l) r.
Proof.
  induction l as [|kv l IH]; intros tree r HL HC; cbn; [now rewrite app_nil_r|].
  change (SAssign (EName (fst kv)) (EName (snd kv)) :: map (fun kv : string * string => SAssign (EName (fst kv)) (EName (snd kv))) l)
    with ([SAssign (EName (fst kv)) (EName (snd kv))] ++ map (fun kv : string * string => SAssign (EName (fst kv)) (EName (snd kv))) l).
  rewrite app_assoc. apply IH.
  - intros x Hx. rewrite binds_app. apply in_or_app. left. apply HL. now right.
  - apply closed_alias; [|exact HC]. intros x [<-|[]]. right. apply HL. now left.
Qed.
Hypothesis Havail : composites_available s out.
Hypothesis Hnames : interfaces_unstyled s out (style_interface_class st).
Lemma sorted_in : forall kt, In kt (sorted_objects s) <-> In kt (s_types s) /\ composite_parts (snd kt) <> None.
Proof.
  intros [k t]. unfold sorted_objects. rewrite in_app_iff, !filter_In. cbn [snd]. destruct t; cbn; intuition discriminate.
Qed.
Lemma types_scope : forall tree0 r out0 r', (forall n, extra n -> In n (binds tree0)) -> r_objects r = [] -> r_iface_base r = [] ->
  ready r -> (forall n, registered r n -> In n (binds tree0)) -> closed tree0 r ->
  generate_types c st s pc r = (Ok out0, r') ->
  rle r r' /\ closed (tree0 ++ out0) r' /\ forall n, quotable n -> In n (binds (tree0 ++ out0)).
Proof.
  intros tree0 r out0 r' HX EO EI HR HG HC H. unfold generate_types in H. mb H u r1 H1. mb H x r2 H2. mb H us r3 H3. cbn zeta in H. mb H u4 r4 H4.
  apply ret_ok in H. destruct H as [-> ->].
  assert (E4 : r4 = r3) by (destruct (filter _ (os_base x)); [|destruct (c_always_resolve_interfaces c); [discriminate|]]; apply ret_ok in H4; apply H4). subst r4.
  assert (E1 : evolve st [KImp; KBui] r r1) by (eapply ev_ok; [|exact H1]; ev_tac).
  pose proof (quiet_step st "" _ _ E1) as S1. pose proof (step_rle _ _ _ _ S1) as R1.
  assert (J1 : JO tree0 r1).
  { destruct (closed_rle _ _ _ R1 (quiet_fwd _ _ _ E1) HC) as [A B D F]. split; auto.
    - eapply ready_step; eassumption.
    - exact (bases_given bi r1 Hbi _ _ _ H1).
    - intros n. unfold registered. rewrite (step_inputs _ _ _ _ S1), (step_enums _ _ _ _ S1). apply HG.
    - rewrite (step_objects _ _ _ _ S1), EO. discriminate.
    - rewrite (frame_ifc _ _ _ _ (ltac:(cbn; intuition discriminate) : ~ In KIfa [KImp; KBui]) E1), EI. discriminate. }
  assert (L : loop tree0 (sorted_objects s) x r2).
  { refine (mfold_ok _ (fun pre x r => loop tree0 pre x r) _ _ _ _ _ H2 _ _).
    - split; cbn; rewrite ?app_nil_r; try contradiction; try discriminate. exact J1.
    - intros pre [key t] post xa ra xb rb E L HS. assert (K : In (key, t) (sorted_objects s)) by (rewrite E; apply in_or_app; right; now left).
      apply sorted_in in K. destruct K as [K1 K2]. eapply step_scope; eassumption. }
  assert (R2 : rle r1 r2) by (eapply evolve_rle, ev_ok; [|exact H2]; apply ev_mfold; intros; apply ev_object_step).
  destruct L as [L1 L2 L3 L4 L5]. set (tree := tree0 ++ os_tree x) in *.
  assert (C2 : closed tree r2) by (destruct L1; split; assumption).
  assert (KI : NoDup (dkeys (os_implementing x)) /\ NoDup (dkeys (os_base x))).
  { refine (mfold_ok _ (fun _ x _ => NoDup (dkeys (os_implementing x)) /\ NoDup (dkeys (os_base x))) _ _ _ _ _ H2 _ _); [split; constructor|].
    intros pre [key t] post xa ra xb rb _ [N1 N2] HS. unfold object_step in HS. mb HS ab rc Hab. destruct (_ || _); [apply ret_ok in HS; destruct HS as [-> _]; auto|].
    mb HS nm rd Hnm. mb HS ib re Hib. mb HS fds rf Hfs. mb HS cf rg Hcf. cbn zeta in HS. apply ret_ok in HS. destruct HS as [-> _]. cbn [os_implementing os_base]. split.
    - clear - N1. revert N1. generalize (os_implementing xa). generalize (type_interfaces t). intros l. induction l as [|i l IH]; intros d N; [exact N|]. cbn. apply IH.
      unfold dextend. destruct (dget i d); now apply dset_NoDup.
    - destruct (is_interface_def t); [now apply dset_NoDup|exact N2]. }
  destruct KI as [KI1 KI2].
  destruct (unions_scope (os_implementing x) tree r2 us r3) as [C3 B3]; [|exact C2|exact H3|].
  { intros [i l] n Hk Hn. cbn [snd] in Hn. eapply L2; [|exact Hn]. apply dget_In_NoDup; eassumption. }
  set (lonely := filter (fun kv => negb (dmem (fst kv) (os_implementing x))) (os_base x)) in *.
  assert (C4 : closed ((tree ++ us) ++ map (fun kv : string * string => SAssign (EName (fst kv)) (EName (snd kv))) lonely) r3).
  { apply lonely_scope; [|exact C3]. intros [i n] Hk. unfold lonely in Hk. apply filter_In in Hk. destruct Hk as [Hk _]. cbn [snd]. rewrite binds_app. apply in_or_app. left.
    eapply L3. apply dget_In_NoDup; eassumption. }
  assert (R3 : rle r2 r3).
  { eapply evolve_rle. eapply (ev_ok st [KImp; KBui]); [|exact H3]. ev_tac. }
  split; [eapply rle_trans; [exact R1|]; eapply rle_trans; eassumption|].
  assert (EQ : tree0 ++ os_tree x ++ us ++ map (fun kv : string * string => SAssign (EName (fst kv)) (EName (snd kv))) lonely
             = (tree ++ us) ++ map (fun kv : string * string => SAssign (EName (fst kv)) (EName (snd kv))) lonely) by (unfold tree; now rewrite !app_assoc).
  rewrite EQ. split; [exact C4|]. intros n [Hn|(m & HT & HN)].
  - rewrite !binds_app. apply in_or_app. left. apply in_or_app. left. unfold tree. rewrite binds_app. apply in_or_app. left. now apply HX.
  - pose proof (Havail m HT) as NO. destruct HN as [(d & i & f & ds & G & ->)|(HI & ->)].
    + rewrite !binds_app. apply in_or_app. left. apply in_or_app. left. unfold tree. apply (L4 m (TObject d i f ds)); [|exact NO|reflexivity].
      apply sorted_in. split; [apply dget_Some_In; exact G|discriminate].
    + rewrite (Hnames m HT HI). destruct HI as (d & i & f & G).
      assert (M : dmem m (os_base x) = true) by (apply (L5 m (TInterface d i f)); [|exact NO|reflexivity]; apply sorted_in; split; [apply dget_Some_In; exact G|discriminate]).
      destruct (dmem m (os_implementing x)) eqn:DI.
      * unfold dmem in DI. destruct (dget m (os_implementing x)) as [l|] eqn:EL; [|discriminate]. apply dget_Some_In in EL.
        rewrite !binds_app. apply in_or_app. left. apply in_or_app. right. exact (B3 _ EL).
      * unfold dmem in M. destruct (dget m (os_base x)) as [b|] eqn:EB; [|discriminate]. apply dget_Some_In in EB.
        rewrite !binds_app. apply in_or_app. right. unfold binds. apply in_flat_map. exists (SAssign (EName m) (EName b)). split; [|now left].
        apply in_map_iff. exists (m, b). split; [reflexivity|]. unfold lonely. apply filter_In. split; [exact EB|]. cbn [fst]. now rewrite DI.
Qed.
End Objects.

(** ** modules *)
Theorem schema_scope : forall bi c st ec ic pc s documents iter t,
  incl simple_types bi ->
  (forall n x, dget n (r_scalars (init_reg c)) = Some x -> has_dot x = false -> In x bi) ->
  c_force_plugin_order c = true -> NoDup (dkeys (s_types s)) -> none_implements_itself s -> set_order iter ->
  inputs_available (ic_skip_underscore ic) (skipping c (ic_skip_unreferenced ic)) s documents ->
  composites_available s (left_out (ob_skip_underscore pc) (ob_skip_double_underscore pc)) ->
  interfaces_unstyled s (left_out (ob_skip_underscore pc) (ob_skip_double_underscore pc)) (style_interface_class st) ->
  forall a b e,
  generate_ast c iter [Plugin a (enums_plugin c st ec s documents); Plugin b (inputs_plugin c st ic s documents); Plugin e (generate_types c st s pc)] false = Ok t ->
  scoped (fun n => In n bi) t /\ quotes_resolved (fun n => In n bi) t /\ rebuilds_defined t.
Proof.
  intros bi c st ec ic pc s documents iter t Hbi Hsc Hforce ND Hself Hiter HAV HO1 HO2 na nb ne H.
  unfold generate_ast in H. cbn [run_plugins pl_generate pl_name] in H.
  destruct (enums_plugin c st ec s documents (init_reg c)) as [[t0|] r0] eqn:HE; [|discriminate].
  destruct (inputs_plugin c st ic s documents r0) as [[t1|] r1] eqn:HI0; [|discriminate].
  destruct (generate_types c st s pc r1) as [[t2|] r] eqn:HT; [|discriminate].
  cbn [rbind app] in H. destruct (generate_builtins iter r) as [bs|] eqn:HB; [|discriminate]. cbn [rbind] in H. injection H as <-.
  pose proof HI0 as HI. unfold inputs_plugin in HI. apply bind_ok in HI. destruct HI as (u & ra & HI1 & HI).
  unfold generate_inputs in HI. apply bind_ok in HI. destruct HI as (rf & r2 & HI2 & HI).
  pose proof (plugin_refs_state _ _ _ _ _ _ _ HI2); subst r2. apply bind_ok in HI. destruct HI as (u2 & r3 & HI3 & HI).
  pose proof (plugin_refs_inputs _ _ _ _ _ _ HI2) as HRF.
  destruct (available_ok _ _ _ _ _ ND HRF HAV) as [Hmain Hmember].
  set (ok := fun n => ~ input_skipped (ic_skip_underscore ic) (refd rf) n) in *.
  destruct (enums_scope st bi Hbi s (r_scalars (init_reg c)) ok c ec documents t0 r0 eq_refl HE) as [J0 GE].
  assert (QI : forall l ra v rb, miter register_import l ra = (Ok v, rb) -> evolve st [KImp; KBui] ra rb).
  { intros l rx v rb HX. eapply ev_ok; [|exact HX]. ev_tac. }
  assert (J1 : J st bi ic s (r_scalars (init_reg c)) ok t0 r3).
  { apply J_bases; [|apply (bases_given bi r3 Hbi _ _ _ HI3)].
    eapply J_quiet; [eapply QI; exact HI3|]. eapply J_quiet; [eapply QI; exact HI1|]. exact J0. }
  destruct (loops_scope st bi Hbi c ic s (r_scalars (init_reg c)) Hsc Hforce ND rf ok t0 r3 r1 Hmain Hmember t1 J1 HI) as [JF CV].
  assert (VI : evolve st inputs_kinds r0 r1) by (eapply ev_ok; [apply ev_inputs_plugin|exact HI0]).
  assert (VE : evolve st [KEnu; KImp] (init_reg c) r0) by (eapply ev_ok; [apply ev_enums_plugin|exact HE]).
  assert (EO : r_objects r1 = []).
  { rewrite (frame_objects _ _ _ _ (ltac:(cbn; intuition discriminate) : ~ In KObj inputs_kinds) VI). apply (frame_objects _ _ _ _ (ltac:(cbn; intuition discriminate) : ~ In KObj [KEnu; KImp]) VE). }
  assert (EI : r_iface_base r1 = []).
  { rewrite (frame_ifc _ _ _ _ (ltac:(cbn; intuition discriminate) : ~ In KIfa inputs_kinds) VI). apply (frame_ifc _ _ _ _ (ltac:(cbn; intuition discriminate) : ~ In KIfa [KEnu; KImp]) VE). }
  destruct JF as [F1 _ F3 F4 F5 FD F6].
  destruct (types_scope st bi Hbi c s pc (r_scalars (init_reg c)) Hsc Hforce (ok_target st s ok) Hself HO1 HO2 (t0 ++ t1) r1 t2 r) as (R & C & Q); auto.
  - intros n (key & Hok & (dd & ff & di & Hg) & ->). apply (CV key (InputDef dd ff di)); [|exact Hok].
    unfold schema_inputs. apply in_flat_map. exists (key, TInput dd ff di). split; [apply dget_Some_In; exact Hg|now left].
  - split; auto. intros name b body d n Hin Hq. destruct (F6 name b body d n Hin Hq) as [A [B|B]]; split; auto. right. now left.
  - destruct C as [C1 C2 C3 C4]. repeat rewrite <- app_assoc in *. repeat rewrite <- app_assoc.
    pose proof (assemble_all bi iter c r (t0 ++ t1 ++ t2) bs Hbi Hiter HB) as Z. repeat rewrite <- app_assoc in Z. apply Z; auto.
    + eapply given_rle; [exact R|]. eapply given_rle; [eapply evolve_rle; exact VI|exact GE].
    + intros name b body d n Hin Hq. destruct (C4 name b body d n Hin Hq) as [A [B|B]]; split; auto.
Qed.
Theorem enums_objects_scope : forall bi c st ec pc s documents iter t,
  incl simple_types bi ->
  (forall n x, dget n (r_scalars (init_reg c)) = Some x -> has_dot x = false -> In x bi) ->
  c_force_plugin_order c = true -> none_implements_itself s -> set_order iter ->
  composites_available s (left_out (ob_skip_underscore pc) (ob_skip_double_underscore pc)) ->
  interfaces_unstyled s (left_out (ob_skip_underscore pc) (ob_skip_double_underscore pc)) (style_interface_class st) ->
  forall a e,
  generate_ast c iter [Plugin a (enums_plugin c st ec s documents); Plugin e (generate_types c st s pc)] false = Ok t ->
  scoped (fun n => In n bi) t /\ quotes_resolved (fun n => In n bi) t /\ rebuilds_defined t.
Proof.
  intros bi c st ec pc s documents iter t Hbi Hsc Hforce Hself Hiter HO1 HO2 na ne H.
  unfold generate_ast in H. cbn [run_plugins pl_generate pl_name] in H.
  destruct (enums_plugin c st ec s documents (init_reg c)) as [[t0|] r0] eqn:HE; [|discriminate].
  destruct (generate_types c st s pc r0) as [[t2|] r] eqn:HT; [|discriminate].
  cbn [rbind app] in H. destruct (generate_builtins iter r) as [bs|] eqn:HB; [|discriminate]. cbn [rbind] in H. injection H as <-.
  destruct (enums_scope st bi Hbi s (r_scalars (init_reg c)) (fun _ => False) c ec documents t0 r0 eq_refl HE) as [J0 GE].
  assert (VE : evolve st [KEnu; KImp] (init_reg c) r0) by (eapply ev_ok; [apply ev_enums_plugin|exact HE]).
  assert (EO : r_objects r0 = []) by (apply (frame_objects _ _ _ _ (ltac:(cbn; intuition discriminate) : ~ In KObj [KEnu; KImp]) VE)).
  assert (EI : r_iface_base r0 = []) by (apply (frame_ifc _ _ _ _ (ltac:(cbn; intuition discriminate) : ~ In KIfa [KEnu; KImp]) VE)).
  destruct J0 as [F1 _ F3 F4 F5 FD F6].
  destruct (types_scope st bi Hbi c s pc (r_scalars (init_reg c)) Hsc Hforce (fun _ => False) Hself HO1 HO2 t0 r0 t2 r) as (R & C & Q); auto.
  - contradiction.
  - split; auto. intros name b body d n Hin Hq. destruct (F6 name b body d n Hin Hq) as [A [B|(k & [] & _)]]. split; auto.
  - destruct C as [C1 C2 C3 C4]. repeat rewrite <- app_assoc in *. repeat rewrite <- app_assoc.
    pose proof (assemble_all bi iter c r (t0 ++ t2) bs Hbi Hiter HB) as Z. repeat rewrite <- app_assoc in Z. apply Z; auto.
    + eapply given_rle; [exact R|exact GE].
    + intros name b body d n Hin Hq. destruct (C4 name b body d n Hin Hq) as [A [B|B]]; split; auto.
Qed.

(** the stylers of turms leave the names of objects and interfaces alone *)
Lemma unstyled_names : forall st s out, (forall x, In x st -> forall n, sty_object x n = n) ->
  (forall n, is_interface s n -> iskeyword n = false) -> interfaces_unstyled s out (style_interface_class st).
Proof.
  intros st s out H K n _ Hn. unfold style_interface_class, style_with. enough (E : fold_left (fun m x => sty_object x m) st n = n) by (rewrite E, (K n Hn); reflexivity).
  clear Hn K. induction st as [|x st IH]; [reflexivity|]. cbn. rewrite (H x) by (now left). apply IH. intros y Hy. apply H. now right.
Qed.
