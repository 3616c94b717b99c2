(** Proofs about the pipeline and the command line. *)
From Coq Require Import Lia.
From Verif Require Import Base PyAst Gql Config Stylers Registry Run Spec_Run P_Base.

(** ** Pipeline *)
Lemma run_plugins_ok : forall ps r tree tree' r',
  run_plugins ps r tree = Ok (tree', r') <-> ran plugin_step ps (r, tree) (r', tree').
Proof.
  induction ps as [|p ps IH]; intros r tree tree' r'; cbn.
  - split; [intros [= <- <-]; constructor|]. intros H; inversion H; subst; reflexivity.
  - split.
    + destruct (pl_generate p r) as [[l|e] r1] eqn:E; [|discriminate]. intros H. apply IH in H.
      econstructor; [|exact H]. exists l. split; [exact E|reflexivity].
    + intros H. inversion H as [|? ? ? [r1 t1] ? (l & E & F) H2]; subst. cbn in *. rewrite E. subst t1. now apply IH.
Qed.
Lemma parse_ast_ok : forall ps a b, parse_ast ps a = Ok b <-> ran parser_step ps a b.
Proof.
  induction ps as [|p ps IH]; intros a b; cbn.
  - split; [intros [= <-]; constructor|]. intros H; inversion H; subst; reflexivity.
  - split.
    + destruct (pa_parse p a) as [l|e] eqn:E; [|discriminate]. intros H. apply IH in H. econstructor; [exact E|exact H].
    + intros H. inversion H as [|? ? ? b1 ? E H2]; subst. unfold parser_step in E. rewrite E. now apply IH.
Qed.
Lemma process_code_ok : forall ps a b, process_code ps a = Ok b <-> ran processor_step ps a b.
Proof.
  induction ps as [|p ps IH]; intros a b; cbn.
  - split; [intros [= <-]; constructor|]. intros H; inversion H; subst; reflexivity.
  - split.
    + destruct (pr_run p a) as [l|e] eqn:E; [|discriminate]. intros H. apply IH in H. econstructor; [exact E|exact H].
    + intros H. inversion H as [|? ? ? b1 ? E H2]; subst. unfold processor_step in E. rewrite E. now apply IH.
Qed.
Theorem pipeline_C38 : forall c iter unparse plugins parsers processors code,
  generate_code c iter unparse plugins parsers processors = Ok code <->
  exists r tree helpers parsed text,
    ran plugin_step plugins (init_reg c, []) (r, tree)
    /\ generate_builtins iter r = Ok helpers
    /\ ran parser_step parsers (generate_imports iter r ++ helpers ++ tree
                                ++ (if c_skip_forwards c then [] else generate_forward_refs c r)) parsed
    /\ unparse parsed = Ok text
    /\ ran processor_step processors text code.
Proof.
  intros. unfold generate_code, generate_ast. split.
  - destruct (run_plugins plugins (init_reg c) []) as [[tree r]|e] eqn:E1; [|discriminate]. cbn.
    destruct (generate_builtins iter r) as [h|e] eqn:E2; [|discriminate]. cbn.
    destruct (parse_ast parsers _) as [p|e] eqn:E3; [|discriminate]. cbn.
    destruct (unparse p) as [t|e] eqn:E4; [|discriminate]. cbn. intros E5.
    exists r, tree, h, p, t. apply run_plugins_ok in E1. apply parse_ast_ok in E3. apply process_code_ok in E5. auto.
  - intros (r & tree & h & p & t & E1 & E2 & E3 & E4 & E5).
    apply run_plugins_ok in E1. apply parse_ast_ok in E3. apply process_code_ok in E5.
    rewrite E1. cbn. rewrite E2. cbn. rewrite E3. cbn. rewrite E4. exact E5.
Qed.
Lemma stage_error_reports : forall n e, reports n e (stage_error n e).
Proof.
  intros n e. split; [reflexivity|]. exists (" failed!" +s+ nl +s+ " "). reflexivity.
Qed.
Lemma plugins_fail : forall pre p post r tree r1 t1 e r2,
  ran plugin_step pre (r, tree) (r1, t1) -> pl_generate p r1 = (Err e, r2) ->
  run_plugins (pre ++ p :: post) r tree = Err (stage_error (pl_name p) e).
Proof.
  induction pre as [|q pre IH]; intros p post r tree r1 t1 e r2 H HE; cbn.
  - inversion H; subst. now rewrite HE.
  - inversion H as [|? ? ? [r3 t3] ? (l & E & F) H2]; subst. cbn in *. rewrite E. subst t3. eapply IH; eassumption.
Qed.
Lemma parsers_fail : forall pre p post a b e,
  ran parser_step pre a b -> pa_parse p b = Err e -> parse_ast (pre ++ p :: post) a = Err (stage_error (pa_cls p) e).
Proof.
  induction pre as [|q pre IH]; intros p post a b e H HE; cbn.
  - inversion H; subst. now rewrite HE.
  - inversion H as [|? ? ? b1 ? E H2]; subst. unfold parser_step in E. rewrite E. eapply IH; eassumption.
Qed.
Lemma processors_fail : forall pre p post a b e,
  ran processor_step pre a b -> pr_run p b = Err e -> process_code (pre ++ p :: post) a = Err (stage_error (pr_name p) e).
Proof.
  induction pre as [|q pre IH]; intros p post a b e H HE; cbn.
  - inversion H; subst. now rewrite HE.
  - inversion H as [|? ? ? b1 ? E H2]; subst. unfold processor_step in E. rewrite E. eapply IH; eassumption.
Qed.
Theorem plugin_failure_C38 : forall c iter unparse pre p post parsers processors r t e r',
  ran plugin_step pre (init_reg c, []) (r, t) -> pl_generate p r = (Err e, r') ->
  exists err, generate_code c iter unparse (pre ++ p :: post) parsers processors = Err err
  /\ reports (pl_name p) e err.
Proof.
  intros. eexists. split; [|apply stage_error_reports]. unfold generate_code, generate_ast.
  erewrite plugins_fail by eassumption. reflexivity.
Qed.
Theorem parser_failure_C38 : forall c iter unparse plugins pre p post processors r t helpers mid e,
  ran plugin_step plugins (init_reg c, []) (r, t) -> generate_builtins iter r = Ok helpers ->
  ran parser_step pre (generate_imports iter r ++ helpers ++ t
                       ++ (if c_skip_forwards c then [] else generate_forward_refs c r)) mid ->
  pa_parse p mid = Err e ->
  exists err, generate_code c iter unparse plugins (pre ++ p :: post) processors = Err err
  /\ reports (pa_cls p) e err.
Proof.
  intros c iter unparse plugins pre p post processors r t h mid e H1 H2 H3 H4. eexists. split; [|apply stage_error_reports].
  unfold generate_code, generate_ast. apply run_plugins_ok in H1. rewrite H1. cbn. rewrite H2. cbn.
  erewrite parsers_fail by eassumption. reflexivity.
Qed.
Theorem processor_failure_C38 : forall c iter unparse plugins parsers pre p post tree parsed text mid e,
  generate_ast c iter plugins (c_skip_forwards c) = Ok tree -> ran parser_step parsers tree parsed ->
  unparse parsed = Ok text -> ran processor_step pre text mid -> pr_run p mid = Err e ->
  exists err, generate_code c iter unparse plugins parsers (pre ++ p :: post) = Err err
  /\ reports (pr_name p) e err.
Proof.
  intros c iter unparse plugins parsers pre p post tree parsed text mid e H1 H2 H3 H4 H5. eexists.
  split; [|apply stage_error_reports]. unfold generate_code. rewrite H1. cbn. apply parse_ast_ok in H2. rewrite H2. cbn.
  rewrite H3. cbn. erewrite processors_fail by eassumption. reflexivity.
Qed.

(** ** Files *)
Section Files.
Variable writable : string -> bool.
Lemma write_other : forall content dir name f q, q <> path_join dir name ->
  snd (write_to_file writable content dir name f) q = f q.
Proof.
  intros content dir name f q H. unfold write_to_file. destruct (writable _); [|reflexivity].
  unfold fset. destruct content; cbn; (destruct (String.eqb_spec q (path_join dir name)); [contradiction|reflexivity]).
Qed.
Lemma fbind_other : forall x k (f : fs) q, snd x q = f q -> (forall g, g q = f q -> snd (k g) q = f q) ->
  snd (fbind x k) q = f q.
Proof. intros [[u|e] g] k f q H1 H2; cbn in *; auto. Qed.
Lemma fbind_keep : forall x k (v : option string) q, snd x q = v -> (forall g, g q = v -> snd (k g) q = v) ->
  snd (fbind x k) q = v.
Proof. intros [[u|e] g] k v q H1 H2; cbn in *; auto. Qed.
Lemma generate_one_other : forall p f q, (is_ok (p_generate p) = true -> ~ may_write p q) ->
  snd (generate_one writable p f) q = f q.
Proof.
  intros p f q H. unfold generate_one. destruct (p_generate p) as [[code schema]|e]; [|reflexivity].
  specialize (H eq_refl). unfold may_write in H.
  apply fbind_other; [apply write_other; intros ->; apply H; now left|]. intros g Hg.
  apply fbind_keep.
  - destruct (p_dump_schema p); [|exact Hg]. rewrite write_other; [exact Hg|]. intros ->; apply H; auto.
  - intros g' Hg'. destruct (p_dump_configuration p); [|exact Hg']. rewrite write_other; [exact Hg'|]. intros ->; apply H; auto.
Qed.
Lemma generate_one_written : forall p f code schema,
  p_generate p = Ok (code, schema) -> writable (p_out p) = true ->
  (p_dump_schema p = true -> p_out p <> path_join (p_out_dir p) (p_schema_name p)) ->
  (p_dump_configuration p = true -> p_out p <> path_join (p_out_dir p) (p_configuration_name p)) ->
  snd (generate_one writable p f) (p_out p) = Some code.
Proof.
  intros p f code schema HG HW H1 H2. unfold generate_one. rewrite HG.
  apply fbind_keep.
  - unfold write_to_file. fold (p_out p). rewrite HW. cbn. unfold fset. now rewrite String.eqb_refl.
  - intros g Hg. apply fbind_keep.
    + destruct (p_dump_schema p); [|exact Hg]. rewrite write_other; auto.
    + intros g' Hg'. destruct (p_dump_configuration p); [|exact Hg']. rewrite write_other; auto.
Qed.
Lemma generate_one_result : forall p f, is_ok (fst (generate_one writable p f)) = false <-> project_fails writable p.
Proof.
  intros p f. unfold generate_one, project_fails, dump_fails. destruct (p_generate p) as [[code schema]|e]; cbn; [|tauto].
  unfold write_to_file at 1. fold (p_out p). destruct (writable (p_out p)) eqn:W1; cbn; [|tauto].
  destruct (p_dump_schema p) eqn:D1; cbn.
  - unfold write_to_file at 1. destruct (writable (path_join (p_out_dir p) (p_schema_name p))) eqn:W2; cbn; [|tauto].
    destruct schema as [s|e]; cbn; [|tauto].
    destruct (p_dump_configuration p) eqn:D2; cbn; [|intuition discriminate].
    unfold write_to_file. destruct (writable (path_join (p_out_dir p) (p_configuration_name p))) eqn:W3; cbn; intuition discriminate.
  - destruct (p_dump_configuration p) eqn:D2; cbn; [|intuition discriminate].
    unfold write_to_file. destruct (writable (path_join (p_out_dir p) (p_configuration_name p))) eqn:W3; cbn; intuition discriminate.
Qed.
Lemma generate_projects_fs : forall ps f, snd (generate_projects writable ps f) = snd (generate_loop writable ps f).
Proof. intros ps f. unfold generate_projects. destruct (generate_loop writable ps f) as [[|e l] g]; reflexivity. Qed.
Lemma loop_cons : forall k p ps f,
  snd (generate_loop writable ((k, p) :: ps) f) = snd (generate_loop writable ps (snd (generate_one writable p f))).
Proof.
  intros. cbn. destruct (generate_one writable p f) as [x f1]. cbn. destruct (generate_loop writable ps f1) as [errs f2]. reflexivity.
Qed.
Theorem untouched_C39 : forall ps f path,
  (forall k p, In (k, p) ps -> is_ok (p_generate p) = true -> ~ may_write p path) ->
  snd (generate_projects writable ps f) path = f path.
Proof.
  intros ps f path. rewrite generate_projects_fs. revert f. induction ps as [|[k p] ps IH]; intros f H; [reflexivity|].
  rewrite loop_cons, IH; [|intros; eapply H; [right; eassumption|assumption]].
  apply generate_one_other. eapply H. now left.
Qed.
Theorem written_C39 : forall pre k p post f code schema,
  p_generate p = Ok (code, schema) -> writable (p_out p) = true ->
  (p_dump_schema p = true -> p_out p <> path_join (p_out_dir p) (p_schema_name p)) ->
  (p_dump_configuration p = true -> p_out p <> path_join (p_out_dir p) (p_configuration_name p)) ->
  (forall k' p', In (k', p') post -> is_ok (p_generate p') = true -> ~ may_write p' (p_out p)) ->
  snd (generate_projects writable (pre ++ (k, p) :: post) f) (p_out p) = Some code.
Proof.
  intros pre k p post f code schema HG HW H1 H2 H3. rewrite generate_projects_fs. revert f.
  induction pre as [|[k0 p0] pre IH]; intros f; cbn [app]; rewrite loop_cons.
  - rewrite <- generate_projects_fs, untouched_C39 by exact H3. eapply generate_one_written; eassumption.
  - apply IH.
Qed.
Theorem exit_C39 : forall ps f,
  is_ok (fst (generate_projects writable ps f)) = false <->
  exists k p, In (k, p) ps /\ p_exit_on_error p = true /\ project_fails writable p.
Proof.
  intros ps f. unfold generate_projects.
  assert (H : fst (generate_loop writable ps f) <> [] <-> exists k p, In (k, p) ps /\ p_exit_on_error p = true /\ project_fails writable p).
  { revert f. induction ps as [|[k p] ps IH]; intros f.
    - cbn. split; [intros C; contradiction|]. intros (k & p & [] & _).
    - cbn. specialize (generate_one_result p f). intros HR. destruct (generate_one writable p f) as [x f1]. cbn in HR.
      specialize (IH f1). destruct (generate_loop writable ps f1) as [errs f2]. cbn in *.
      split.
      + intros C. destruct x as [u|e]; [|destruct (p_exit_on_error p) eqn:X].
        * apply IH in C. destruct C as (k' & p' & ? & ?). exists k', p'; auto.
        * exists k, p. split; [now left|]. split; [exact X|]. apply HR. reflexivity.
        * apply IH in C. destruct C as (k' & p' & ? & ?). exists k', p'; auto.
      + intros (k' & p' & [E|HI] & X & F).
        * injection E as <- <-. apply HR in F. destruct x; [discriminate|]. rewrite X. discriminate.
        * assert (C : errs <> []) by (apply IH; eauto). destruct x as [u|e]; [exact C|]. destruct (p_exit_on_error p); [discriminate|exact C]. }
  destruct (generate_loop writable ps f) as [[|e l] g]; cbn in *.
  - rewrite <- H. split; [discriminate|]. intros C; contradiction.
  - split; [|reflexivity]. intros _. apply H. discriminate.
Qed.

(** *** gen *)
Theorem gen_untouched_C40 : forall strict ow ps f path,
  (forall k p, In (k, p) ps -> is_ok (p_generate p) = false) ->
  snd (gen_loop writable strict ow ps f) path = f path.
Proof.
  intros strict ow ps f path. induction ps as [|[k p] ps IH]; intros H; [reflexivity|]. cbn.
  unfold gen_one. assert (E := H k p (or_introl eq_refl)). destruct (p_generate p); [discriminate|].
  destruct strict; [reflexivity|]. apply IH. intros; eapply H; right; eassumption.
Qed.
Theorem gen_destroys_C40 : forall strict ps k p f x,
  p_generate p = Ok x -> writable (p_out p) = true ->
  ps = [(k, p)] ->
  snd (gen_loop writable strict None ps f) (p_out p) = Some "".
Proof.
  intros strict ps k p f x HG HW ->. cbn. unfold gen_one. rewrite HG. cbn. unfold write_to_file at 1. fold (p_out p). rewrite HW. cbn.
  destruct strict; cbn; unfold fset; now rewrite String.eqb_refl.
Qed.
End Files.

(** ** Configuration discovery *)
Lemma str_lower_idem_known : forall n, In n scannable_file_names -> str_lower n = n.
Proof. intros n H. repeat (destruct H as [<-|H]; [reflexivity|]). contradiction. Qed.
Lemma recognised_spec : forall n, mem (str_lower n) scannable_file_names = true <-> recognised n.
Proof.
  intros n. rewrite mem_In. split.
  - intros H. assert (E : exists b e, In b ["graphql.config"; ".graphqlrc"] /\ In e ["yaml"; "yml"; "toml"; "json"]
                       /\ str_lower n = str_lower (b +s+ "." +s+ e)).
    { cbn [In scannable_file_names] in H. destruct H as [H|[H|[H|[H|[H|[H|[H|[H|[]]]]]]]]].
      - exists "graphql.config", "yaml"; repeat split; [cbn; tauto|cbn; tauto|now rewrite <- H].
      - exists ".graphqlrc", "yaml"; repeat split; [cbn; tauto|cbn; tauto|now rewrite <- H].
      - exists "graphql.config", "yml"; repeat split; [cbn; tauto|cbn; tauto|now rewrite <- H].
      - exists ".graphqlrc", "yml"; repeat split; [cbn; tauto|cbn; tauto|now rewrite <- H].
      - exists "graphql.config", "toml"; repeat split; [cbn; tauto|cbn; tauto|now rewrite <- H].
      - exists ".graphqlrc", "toml"; repeat split; [cbn; tauto|cbn; tauto|now rewrite <- H].
      - exists "graphql.config", "json"; repeat split; [cbn; tauto|cbn; tauto|now rewrite <- H].
      - exists ".graphqlrc", "json"; repeat split; [cbn; tauto|cbn; tauto|now rewrite <- H]. }
    exact E.
  - intros (b & e & Hb & He & E). unfold ci_eq in E. rewrite E.
    cbn [In] in Hb, He.
    repeat (destruct Hb as [<-|Hb]; [repeat (destruct He as [<-|He]; [vm_compute; tauto|]); contradiction|]). contradiction.
Qed.
Lemma filter_recognised : forall l n, In n (filter (fun n => mem (str_lower n) scannable_file_names) l) <-> In n l /\ recognised n.
Proof. intros l n. rewrite filter_In, recognised_spec. reflexivity. Qed.
Lemma NoDup_filter' : forall {A} (f : A -> bool) l, NoDup l -> NoDup (filter f l).
Proof.
  intros A f l H. induction H; cbn; [constructor|]. destruct (f x); [|assumption]. constructor; [|assumption].
  rewrite filter_In. tauto.
Qed.
Theorem single_config_C41 : forall folder listing, NoDup listing ->
  (forall path, scan_folder_for_single_config folder listing = Ok path <->
     exists n, path = path_join folder n /\ In n listing /\ recognised n
       /\ forall m, In m listing -> recognised m -> m = n)
  /\ ((forall n, In n listing -> ~ recognised n) \/ (exists n m, In n listing /\ In m listing /\ recognised n /\ recognised m /\ n <> m) ->
      exists msg, scan_folder_for_single_config folder listing = Err (Exn GenerationErrorC msg)).
Proof.
  intros folder listing HN. unfold scan_folder_for_single_config, scan_folder_for_configs.
  assert (FR := filter_recognised listing). assert (FN := NoDup_filter' (fun n => mem (str_lower n) scannable_file_names) _ HN).
  destruct (filter (fun n => mem (str_lower n) scannable_file_names) listing) as [|x [|y l]] eqn:E; cbn [map].
  - split.
    + intros path. split; [discriminate|]. intros (n & _ & H1 & H2 & _). destruct (proj2 (FR n) (conj H1 H2)).
    + intros _. eexists. reflexivity.
  - split.
    + intros path. split.
      * intros [= <-]. exists x. destruct (proj1 (FR x) (or_introl eq_refl)) as [? ?]. split; [reflexivity|]. split; [assumption|]. split; [assumption|].
        intros m H1 H2. destruct (proj2 (FR m) (conj H1 H2)) as [<-|[]]. reflexivity.
      * intros (n & -> & H1 & H2 & _). destruct (proj2 (FR n) (conj H1 H2)) as [<-|[]]. reflexivity.
    + intros [H|(n & m & H1 & H2 & H3 & H4 & H5)].
      * destruct (proj1 (FR x) (or_introl eq_refl)) as [? ?]. exfalso; eapply H; eassumption.
      * destruct (proj2 (FR n) (conj H1 H3)) as [<-|[]]. destruct (proj2 (FR m) (conj H2 H4)) as [<-|[]]. contradiction.
  - split; [|intros _; eexists; reflexivity].
    intros path. split; [discriminate|]. intros (n & _ & _ & _ & H).
    destruct (proj1 (FR x) (or_introl eq_refl)) as [A1 A2]. destruct (proj1 (FR y) (or_intror (or_introl eq_refl))) as [B1 B2].
    rewrite (H _ A1 A2), (H _ B1 B2) in FN. inversion FN as [|? ? C _]; subst. exfalso; apply C; now left.
Qed.
Lemma filter_key : forall {A} (d : dict A) n, NoDup (dkeys d) ->
  filter (fun kv => String.eqb (fst kv) n) d = match dget n d with Some p => [(n, p)] | None => [] end.
Proof.
  intros A d n. induction d as [|[k v] d IH]; intros H; [reflexivity|]. inversion H as [|? ? H1 H2]; subst.
  cbn. rewrite (String.eqb_sym n k). destruct (String.eqb_spec k n) as [<-|NE]; [|now apply IH].
  f_equal. rewrite IH by assumption. apply dget_None in H1. now rewrite H1.
Qed.
Theorem select_C41 : forall {A} (projects : dict A) n, NoDup (dkeys projects) -> n <> "" ->
  match dget n projects with
  | Some p => select_projects (Some n) projects = Ok [(n, p)]
  | None => is_ok (select_projects (Some n) projects) = false
  end.
Proof.
  intros A projects n HN HE. unfold select_projects. destruct n; [contradiction|]. cbn [truthy opt_str].
  rewrite filter_key by assumption. destruct (dget _ projects); reflexivity.
Qed.
Theorem cli_select_C41 : forall {A V} load (validate : V -> option (dict A)) cwd listing config n projects,
  NoDup (dkeys projects) -> n <> "" ->
  with_projects load validate cwd listing config None = Ok projects ->
  match dget n projects with
  | Some p => with_projects load validate cwd listing config (Some n) = Ok [(n, p)]
  | None => is_ok (with_projects load validate cwd listing config (Some n)) = false
  end.
Proof.
  intros A V load validate cwd listing config n projects HN HE H. unfold with_projects in *.
  destruct (if truthy config then _ else _) as [path|e]; [|discriminate]. cbn in *.
  destruct (load_projects_from_configpath load validate path None) as [ps|e]; [|discriminate]. cbn in *.
  injection H as ->. destruct n; [contradiction|]. cbn [truthy opt_str].
  rewrite filter_key by assumption. destruct (dget _ projects); reflexivity.
Qed.

(** ** Schema sources *)
Section Sources.
Context {S : Type}.
Variables (lu : string -> list (string * string) -> res string) (lg : string -> res string)
          (iu : string -> list (string * string) -> res S) (ig : string -> res S) (build : string -> res S).
Notation bs := (build_schema_from_schema_type S lu lg iu ig build).
Lemma is_url_http : forall s, is_url s = true <-> http s.
Proof.
  intros s. unfold is_url, startswith, http. split.
  - intros H. change (startswith "http" s || startswith "https" s = true) in H. apply orb_true_iff in H.
    destruct H as [H|H]; apply prefix_ex in H; destruct H as (r & ->); [exists r|exists (String "s" r)]; reflexivity.
  - intros (r & ->). change (startswith "http" ("http" +s+ r) || startswith "https" ("http" +s+ r) = true).
    apply orb_true_iff. left. apply prefix_ex. eauto.
Qed.
Lemma single_list : forall allow s, bs allow (Many [s]) = bs allow (One s).
Proof. reflexivity. Qed.
Lemma rmap_globs : forall gs dsls,
  (forall g, In g gs -> ~ http g) -> rmap lg gs = Ok dsls ->
  rmap (list_item lu lg) (map SrcStr gs) = Ok (map (fun d => [d]) dsls).
Proof.
  induction gs as [|g gs IH]; intros dsls H E; cbn in *; [injection E as <-; reflexivity|].
  destruct (lg g) as [d|e] eqn:EG; [|discriminate]. cbn in E. destruct (rmap lg gs) as [ds|e] eqn:ER; [|discriminate].
  cbn in E. injection E as <-. destruct (is_url g) eqn:U; [apply is_url_http in U; destruct (H g (or_introl eq_refl) U)|].
  cbn. rewrite (IH ds); [reflexivity| |reflexivity]. intros; apply H; now right.
Qed.
Lemma concat_singletons : forall {A} (l : list A), concat (map (fun d => [d]) l) = l.
Proof. induction l; cbn; congruence. Qed.
Lemma rmap_Forall2 : forall {A B} (f : A -> res B) l out, Forall2 (fun x y => f x = Ok y) l out -> rmap f l = Ok out.
Proof. intros A B f l out H. induction H as [|x y l out E H IH]; [reflexivity|]. cbn. rewrite E. cbn. now rewrite IH. Qed.
Theorem globs_C42 : forall allow gs dsls, (forall g, In g gs -> ~ http g) ->
  Forall2 (fun g d => contributes lu lg (SrcStr g) [d]) gs dsls -> (2 <= length gs)%nat ->
  bs allow (Many (map SrcStr gs)) = build (join " " dsls).
Proof.
  intros allow gs dsls HN HF HL. assert (E : rmap lg gs = Ok dsls).
  { apply rmap_Forall2. clear HL. induction HF as [|g d gs dsls HC HF IH]; constructor.
    - inversion HC; subst; [exfalso; eapply HN; [now left|eassumption]|assumption].
    - apply IH. intros; apply HN; now right. }
  apply rmap_globs in E; [|exact HN].
  destruct gs as [|g1 [|g2 gs]]; [cbn in HL; lia|cbn in HL; lia|].
  unfold build_schema_from_schema_type. cbn [map] in *. rewrite E. cbn [rbind]. now rewrite concat_singletons.
Qed.
Theorem dict_C42 : forall allow l dsls, contributes lu lg (SrcDict l) dsls -> (length l <> 1)%nat ->
  bs allow (One (SrcDict l)) = build (join " " dsls) /\ bs allow (Many [SrcDict l]) = build (join " " dsls).
Proof.
  intros allow l dsls H HL. rewrite single_list. assert (bs allow (One (SrcDict l)) = build (join " " dsls)); [|now split].
  inversion H as [? ? HF| |]; subst. apply rmap_Forall2 in HF. unfold build_schema_from_schema_type, build_one.
  destruct l as [|[k v] [|y l]]; [now rewrite HF|cbn in HL; lia|]. rewrite HF. reflexivity.
Qed.
Lemma or_introspect_spec : forall allow sdl intro, sdl_or_introspection allow sdl intro (or_introspect S allow sdl intro).
Proof. intros allow [x|e] intro; repeat split; cbn; intros; try discriminate; try reflexivity; subst; reflexivity. Qed.
Notation sdl_of := (sdl_of build).
Theorem single_C42 : forall allow,
  (forall url headers, sdl_or_introspection allow (sdl_of (lu url headers)) (iu url headers) (bs allow (One (SrcDict [(url, headers)]))))
  /\ (forall s, http s -> sdl_or_introspection allow (sdl_of (lu s [])) (iu s []) (bs allow (One (SrcStr s))))
  /\ (forall s, ~ http s -> sdl_or_introspection allow (sdl_of (lg s)) (ig s) (bs allow (One (SrcStr s))))
  /\ forall s, bs allow (Many [s]) = bs allow (One s).
Proof.
  intros allow. split; [|split; [|split]].
  - intros. apply or_introspect_spec.
  - intros s H. unfold build_schema_from_schema_type, build_one. apply is_url_http in H. rewrite H. apply or_introspect_spec.
  - intros s H. unfold build_schema_from_schema_type, build_one. destruct (is_url s) eqn:U; [apply is_url_http in U; contradiction|].
    apply or_introspect_spec.
  - reflexivity.
Qed.
End Sources.

(** ** Watching *)
Lemma split_no : forall c s, no_char c s -> split_on c s = [s].
Proof.
  intros c s. induction s as [|d s IH]; intros H; [reflexivity|]. cbn in *. unfold no_char in H. cbn in H.
  apply andb_true_iff in H. destruct H as [H1 H2]. apply negb_true_iff in H1. rewrite H1. now rewrite (IH H2).
Qed.
Lemma split_app : forall c a b, no_char c a -> split_on c (a +s+ String c b) = a :: split_on c b.
Proof.
  intros c a b. induction a as [|d a IH]; intros H; cbn.
  - now rewrite Ascii.eqb_refl.
  - unfold no_char in H. cbn in H. apply andb_true_iff in H. destruct H as [H1 H2]. apply negb_true_iff in H1.
    rewrite H1. now rewrite (IH H2).
Qed.
Lemma string_eq_dec_app : forall a b s, a +s+ s = b +s+ s -> a = b.
Proof.
  intros a b s H. assert (L : String.length a = String.length b).
  { assert (E := f_equal String.length H). rewrite !length_app_s in E. lia. }
  revert b H L. induction a as [|c a IH]; intros [|d b] H L; try discriminate; [reflexivity|].
  injection H as -> H. f_equal. apply IH; [exact H|]. now injection L.
Qed.
Theorem watch_C49 : forall path stem ending,
  basename path = stem +s+ "." +s+ ending -> no_char "." stem -> no_char "." ending ->
  graphql_filter true path = Ok (String.eqb ending "graphql").
Proof.
  intros path stem ending E H1 H2. unfold graphql_filter. cbn [negb].
  change (ascii_of_nat 46) with "."%char. rewrite E. change ("." +s+ ending) with (String "." ending).
  rewrite split_app by exact H1. rewrite split_no by exact H2. reflexivity.
Qed.
