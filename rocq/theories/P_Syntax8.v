(** The code for a server. *)
From Coq Require Import Lia Permutation.
From Verif Require Import Base PyAst Gql Config Stylers Registry Utils Recurse Objects Strawberry Run
  Spec_Naming Spec_Imports Spec_Scope2 Spec_Syntax Spec_Syntax2 Spec_Syntax3 P_Base P_Stylers P_Monad P_Registry P_Syntax P_Syntax2 P_Syntax3 P_Syntax7.

Definition convert_list := fix go (l : list vnode) : res (list expr) :=
  match l with [] => Ok [] | x :: r => let? e := convert_valuenode_to_ast x in let? es := go r in Ok (e :: es) end.
Lemma converted_ok : forall v e, no_enum v = true -> convert_valuenode_to_ast v = Ok e -> ev e.
Proof.
  fix IH 1. intros [x|x|x b|b| |x|l|l|x] e NE H; cbn in NE, H; try discriminate; try (injection H as <-; first [apply ev_str|apply ev_const]).
  assert (L : forall l es, forallb no_enum l = true -> convert_list l = Ok es -> Forall ev es).
  { fix IL 1. intros [|x l0] es HE HL; [injection HL as <-; constructor|]. cbn [forallb] in HE. apply andb_true_iff in HE as [H1 H2]. cbn [convert_list] in HL.
    destruct (convert_valuenode_to_ast x) as [y|] eqn:E1; [|discriminate]. cbn in HL. fold convert_list in HL.
    destruct (convert_list l0) as [ys|] eqn:E2; [|discriminate]. injection HL as <-. constructor; [exact (IH _ _ H1 E1)|exact (IL _ _ H2 E2)]. }
  fold convert_list in H. destruct (convert_list l) as [es|] eqn:E; [|discriminate]. injection H as <-. intros p. cbn. apply evs. exact (L _ _ NE E).
Qed.
Lemma default_ok : forall v, ev (convert_default_value_to_ast v).
Proof.
  fix IH 1. intros [|b|z|f|x|l|l] p; cbn; try reflexivity.
  - revert l. fix IL 1. intros [|x l]; [reflexivity|]. cbn. now rewrite (IH x p), (IL l).
  - revert l. fix IL 1. intros [|[k x] l]; [reflexivity|]. cbn. now rewrite (IH x p), (IL l).
Qed.
Lemma kw_call : forall f kws, ev f -> NoDup (map fst kws) -> (forall k e, In (k, e) kws -> exists n, k = Some n /\ pyname n = true /\ ev e) -> forall args, Forall ev args ->
  ev (ECall f args kws).
Proof.
  intros f kws F ND K args A p. cbn. rewrite (F p), (evs _ p A). cbn. apply andb_true_iff. split.
  - apply forallb_forall. intros [k e] H. destruct (K _ _ H) as (n & -> & P & E). cbn. now rewrite P, (E p).
  - apply nodupb_NoDup. revert ND K. clear. induction kws as [|[k e] kws IH]; intros ND K; cbn; [constructor|]. inversion ND as [|? ? N1 N2]; subst.
    destruct (K k e (or_introl eq_refl)) as (n & -> & _). cbn. constructor; [|apply IH; [exact N2|intros; apply (K k e0); now right]].
    intros I. apply N1. apply in_flat_map in I as ([k' e'] & H1 & H2). destruct (K k' e' (or_intror H1)) as (n' & -> & _). cbn in H2. destruct H2 as [->|[]].
    apply in_map_iff. now exists (Some n, e').
Qed.

Section Server.
Variable c : gconfig.
Variable st : list styler.
Variable s : schema.
Variable directives : list directivedef.
Variable applied : string -> list directive.
Variable pc : sbcfg.
Hypothesis C : config_named c.
Hypothesis S : forall x, In x st -> styler_named x.
Hypothesis N : schema_named s.
Hypothesis B : paths (sb_inputtype_bases pc).
Hypothesis SC : scaffold_named st s directives applied pc.

(** keyword arguments of decorators and fields *)
Definition kws_in (allowed : list string) (kws : list (option string * expr)) : Prop :=
  NoDup (map fst kws) /\ forall k e, In (k, e) kws -> exists n, k = Some n /\ In n allowed /\ pyname n = true /\ ev e.
Lemma kws_app : forall a b x y, kws_in a x -> kws_in b y -> (forall n, In n a -> ~ In n b) -> kws_in (a ++ b) (x ++ y).
Proof.
  intros a b x y [X1 X2] [Y1 Y2] D. split.
  - rewrite map_app. apply nodup_app. split; [exact X1|]. split; [exact Y1|]. intros k H1 H2. apply in_map_iff in H1 as ([k1 e1] & <- & H1), H2 as ([k2 e2] & E & H2).
    cbn in E. subst k2. destruct (X2 _ _ H1) as (n & -> & A & _), (Y2 _ _ H2) as (n' & [= ->] & A' & _). exact (D _ A A').
  - intros k e H. apply in_app_iff in H as [H|H]; [destruct (X2 _ _ H) as (n & E1 & E2 & E3)|destruct (Y2 _ _ H) as (n & E1 & E2 & E3)];
      exists n; rewrite in_app_iff; tauto.
Qed.
Lemma kws_opt : forall n v, pyname n = true -> kws_in [n] (opt_keyword n v).
Proof.
  intros n v P. unfold opt_keyword. destruct (truthy v); split; cbn; try (intros; contradiction); repeat constructor; cbn; try tauto.
  intros k e [[= <- <-]|[]]. exists n. split; [reflexivity|]. split; [now left|]. split; [exact P|apply ev_str].
Qed.
Lemma kws_one : forall n e, pyname n = true -> ev e -> kws_in [n] [kw n e].
Proof.
  intros n e P E. split; cbn; [repeat constructor; cbn; tauto|]. intros k e' [[= <- <-]|[]]. exists n. split; [reflexivity|]. split; [now left|]. split; [exact P|exact E].
Qed.
Lemma kws_none : forall l, kws_in l [].
Proof. intros l. split; [constructor|intros k e []]. Qed.
Lemma kws_call : forall l f kws args, ev f -> Forall ev args -> kws_in l kws -> ev (ECall f args kws).
Proof.
  intros l f kws args F A [K1 K2]. apply kw_call; try assumption. intros k e H. destruct (K2 _ _ H) as (n & E & _ & P & V). eauto.
Qed.
Lemma decorate_ok : forall l n kws, py_path n = true -> kws_in l kws -> Forall ev [decorate n kws].
Proof.
  intros l n kws P K. constructor; [|constructor]. unfold decorate. destruct kws; [now apply ev_path|]. eapply kws_call; [now apply ev_path|constructor|exact K].
Qed.
Lemma keywords_ok : forall ds, directives_named (sb_builtin_directives pc) ds -> ok (generate_directive_keywords pc ds) (kws_in ["directives"]).
Proof.
  intros ds H. unfold generate_directive_keywords. set (l := filter _ ds).
  assert (L : forall d, In d l -> pyname (dir_name d) = true /\ NoDup (map fst (dir_args d)) /\ forall a, In a (dir_args d) -> pyname (fst a) = true /\ no_enum (snd a) = true).
  { intros d Hd. apply filter_In in Hd as [H1 H2]. apply H; [exact H1|]. apply negb_true_iff, mem_false in H2. exact H2. }
  assert (M : ok (let* calls := mmap (fun d => let* kws := mmap (fun a => let* e := lift (convert_valuenode_to_ast (snd a)) in ret (kw (fst a) e)) (dir_args d) in
                                      ret (ECall (EName (dir_name d)) [] kws)) l in ret [kw "directives" (EList calls)]) (kws_in ["directives"])).
  { eapply ok_bind with (P := Forall ev).
    - apply ok_mmap. intros d Hd. destruct (L _ Hd) as (P & ND & K).
      eapply ok_bind with (P := fun kws => map fst kws = map (fun a => Some (fst a)) (dir_args d) /\ Forall (fun ke => exists n, fst ke = Some n /\ pyname n = true /\ ev (snd ke)) kws).
      + clear ND. induction (dir_args d) as [|a args IH]; [apply ok_ret; now split|]. cbn [mmap]. destruct (K a (or_introl eq_refl)) as [K1 K2].
        eapply ok_bind with (P := fun ke => fst ke = Some (fst a) /\ ev (snd ke)).
        { eapply ok_bind; [apply ok_lift; intros e E; exact (converted_ok _ _ K2 E)|]. intros e He. now apply ok_ret. }
        intros ke [E1 E2]. eapply ok_bind; [apply IH; intros; apply K; now right|]. intros kws [E3 E4]. apply ok_ret. cbn. rewrite E1, E3. split; [reflexivity|].
        constructor; [|exact E4]. rewrite E1. eauto.
      + intros kws [E1 E2]. apply ok_ret, kw_call; [now apply ev_name| | |constructor].
        * rewrite E1. replace (map _ (dir_args d)) with (map Some (map fst (dir_args d))) by (now rewrite map_map).
          apply FinFun.Injective_map_NoDup; [intros x y [=]; assumption|exact ND].
        * rewrite Forall_forall in E2. intros k e Hk. exact (E2 _ Hk).
    - intros calls HC. apply ok_ret, kws_one; [reflexivity|]. intros p. cbn. now apply evs. }
  destruct l; [apply ok_ret, kws_none|exact M].
Qed.

(** ** Directives *)
Lemma directive_annotation_ok : forall t o, ok (build_directive_type_annotation s t o) ev.
Proof.
  induction t as [n|t IH|t IH]; intros o; cbn [build_directive_type_annotation].
  - destruct (get_type s n) as [[]|]; try apply ok_raise.
    + eapply ok_bind; [now apply import_when|]. intros _ _. bnd; [apply scalar_ok|]. apply ok_ret. destruct o; [now apply ev_optional|assumption].
    + eapply ok_bind; [now apply import_when|]. intros _ _. apply ok_raise.
  - imp. eapply ok_bind; [now apply import_when|]. intros _ _. bnd; [apply IH|]. apply ok_ret. destruct o; [apply ev_optional|]; now apply ev_list.
  - apply IH.
Qed.
Lemma directive_class_ok : forall d, In d directives -> ~ In (dd_name d) (sb_builtin_directives pc) -> ok (directive_class c st s pc d) (Forall sv).
Proof.
  intros d Hd HB. destruct (sc_directives _ _ _ _ _ SC _ Hd HB) as (P & A & L). unfold directive_class. destruct (skipped _ _); [apply ok_ret; constructor|].
  bnd; [apply ok_mconcat with (Q := sv); intros [k a] Ha|].
  { unfold directive_arg. bnd; [apply directive_annotation_ok|]. apply ok_ret. constructor; [|constructor]. cbn [fst snd].
    apply sv_ann; [apply node_named; [exact S|exact (A _ Ha)]|assumption|]. intros e He. unfold directive_default in He.
    assert (G : forall n v, pyname n = true -> ev v -> ev (ECall (EName "strawberry.field") [] [kw n v])).
    { intros n v PN PV. eapply kws_call; [now apply ev_path|constructor|now apply kws_one]. }
    destruct (arg_default a) as [v|]; [|discriminate]. cbv zeta in He. assert (D := default_ok v). revert D He. generalize (convert_default_value_to_ast v). intros y D He.
    assert (DL : ev (ELambda [] y)) by (intros p; cbn; apply D).
    destruct v; try discriminate; injection He as <-; (apply G; [reflexivity|assumption]). }
  bnd; [apply config_ok, C|]. apply ok_ret. constructor; [|constructor]. apply sv_class; [exact P|constructor|destruct x; discriminate| |].
  - apply Forall_app. split; [destruct x; [now repeat constructor|assumption]|assumption].
  - constructor; [|constructor]. eapply kws_call; [now apply ev_path|constructor|apply kws_one; [reflexivity|]]. intros p. cbn. apply forallb_forall. intros e He.
    apply in_map_iff in He as (l & <- & Hl). cbn. exact (L _ Hl).
Qed.
Lemma directives_valid : ok (generate_directives c st s directives pc) (Forall sv).
Proof.
  unfold generate_directives. set (l := filter _ directives).
  assert (M : ok (register_import "strawberry.schema_directive.Location" ;; mconcat (directive_class c st s pc) l) (Forall sv)).
  { imp. apply ok_mconcat. intros d Hd. apply filter_In in Hd as [H1 H2]. apply negb_true_iff, mem_false in H2. now apply directive_class_ok. }
  destruct l; [apply ok_ret; constructor|exact M].
Qed.

(** ** Scalars *)
Lemma scalars_valid : ok (generate_scalars s applied pc) (Forall sv).
Proof.
  unfold generate_scalars. eapply ok_bind with (P := fun _ => True); [destruct (scalar_types _ _); [now apply ok_ret|now apply import_kept]|]. intros _ _.
  apply ok_mconcat. intros [n de] H. assert (HS : In (n, TScalar de) (s_types s) /\ ~ In n (sb_builtin_scalars pc)).
  { unfold scalar_types in H. apply in_flat_map in H as ([k t] & H1 & H2). cbn in H2. destruct t; try destruct H2. destruct (mem k _) eqn:M; [destruct H2|].
    destruct H2 as [[= <- <-]|[]]. split; [exact H1|now apply mem_false]. }
  destruct HS as [HS HB]. assert (P := sc_scalars _ _ _ _ _ SC _ _ HS HB). unfold scalar_assign.
  bnd; [apply keywords_ok, (sc_applied _ _ _ _ _ SC _ _ HS)|]. eapply ok_bind with (P := fun _ => True).
  { apply ok_modify. intros r []. constructor; cbn; auto. intros k t Hk. apply dset_In in Hk as [Hk|[-> ->]]; [eauto|now apply path_of_name]. }
  intros _ _. apply ok_ret. constructor; [|constructor]. apply sv_assign; [exact P|].
  assert (ID : ev identity_lambda) by (intros p; reflexivity).
  eapply kws_call; [now apply ev_path| |].
  - constructor; [|constructor]. apply ev_call; [now apply ev_name|]. constructor; [apply ev_str|]. constructor; [now apply ev_name|constructor].
  - apply (kws_app ["directives"] ["description"; "serialize"; "parse_value"]); [assumption| |cbn; intuition (subst; discriminate)].
    apply (kws_app ["description"] ["serialize"; "parse_value"]); [now apply kws_opt| |cbn; intuition (subst; discriminate)].
    apply (kws_app ["serialize"] ["parse_value"] [_] [_]); [now apply kws_one|now apply kws_one|cbn; intuition (subst; discriminate)].
Qed.

(** ** Enums *)
Lemma sb_enums_valid : ok (generate_enums st s applied pc) (Forall sv).
Proof.
  unfold generate_enums. apply ok_mconcat. intros [k t] H. cbn [fst snd]. destruct t as [| de vs | | | |]; try (apply ok_ret; constructor).
  unfold generate_enum_class. bnd; [apply keywords_ok, (sc_applied _ _ _ _ _ SC _ _ H)|]. destruct (skipped _ _); [apply ok_ret; constructor|].
  bnd; [apply gen_enum; [exact S|exact (sn_types _ N _ _ H)]|]. cbv zeta. imp. apply ok_ret. constructor; [|constructor].
  apply sv_class; [assumption|constructor; [now apply ev_name|constructor]|destruct (_ ++ _); discriminate| |].
  - assert (V : Forall sv (class_docs de ++ flat_map sb_enum_member vs)).
    { apply Forall_app. split; [unfold class_docs; destruct (truthy de); [constructor; [apply sv_doc|constructor]|constructor]|].
      apply Forall_forall. intros z Hz. apply in_flat_map in Hz as ([m v] & Hm & Hz). unfold sb_enum_member in Hz. cbn [fst snd] in Hz.
      destruct Hz as [<-|Hz]; [apply sv_assign; [exact (sn_values _ N _ _ _ _ _ H Hm)|apply ev_str]|]. destruct (truthy _) in Hz; [destruct Hz as [<-|[]]; apply sv_doc|destruct Hz]. }
    destruct (_ ++ _); [now repeat constructor|exact V].
  - eapply decorate_ok; [reflexivity|eassumption].
Qed.

(** ** Input types *)
Lemma argument_annotation_ok : forall t parent o, pyname parent = true -> ok (argument_annotation c st s t parent o) ev.
Proof.
  induction t as [n|t IH|t IH]; intros parent o P; cbn [argument_annotation].
  - eapply ok_bind; [now apply import_when|]. intros _ _. eapply ok_bind with (P := ev).
    + destruct (get_type s n) as [[]|]; try apply ok_raise; [apply scalar_ok|apply enum_ref; [exact S|auto]|now apply input_ref].
    + intros e He. apply ok_ret. destruct o; [now apply ev_optional|exact He].
  - imp. eapply ok_bind; [now apply import_when|]. intros _ _. bnd; [now apply IH|]. apply ok_ret. destruct o; [apply ev_optional|]; now apply ev_list.
  - now apply IH.
Qed.
Lemma field_annotation_ok : forall t parent o, pyname parent = true -> ok (field_annotation c st s t parent o) ev.
Proof.
  induction t as [n|t IH|t IH]; intros parent o P; cbn [field_annotation].
  - exact (object_annotation_ok c st s S N (GNamed n) parent o P).
  - imp. eapply ok_bind; [now apply import_when|]. intros _ _. bnd; [now apply IH|]. apply ok_ret. destruct o; [apply ev_optional|]; now apply ev_list.
  - now apply IH.
Qed.
Lemma class_docs_ok : forall d, Forall sv (class_docs d).
Proof. intros d. unfold class_docs. destruct (truthy d); [constructor; [apply sv_doc|constructor]|constructor]. Qed.
Lemma described : forall d r l, kws_in ["directives"] l -> kws_in ["description"; "deprecation_reason"; "directives"] (opt_keyword "description" d ++ opt_keyword "deprecation_reason" r ++ l).
Proof.
  intros d r l L. apply (kws_app ["description"] ["deprecation_reason"; "directives"]); [now apply kws_opt| |cbn; intuition (subst; discriminate)].
  apply (kws_app ["deprecation_reason"] ["directives"]); [now apply kws_opt|exact L|cbn; intuition (subst; discriminate)].
Qed.
Lemma field_value : forall l kws, kws_in l kws -> forall e, match kws with [] => None | _ => Some (ECall (EName "strawberry.field") [] kws) end = Some e -> ev e.
Proof. intros l kws K e H. destruct kws; [discriminate|]. injection H as <-. eapply kws_call; [now apply ev_path|constructor|exact K]. Qed.
Lemma sb_inputs_valid : ok (generate_inputs c st s pc) (Forall sv).
Proof.
  unfold generate_inputs. apply ok_mconcat. intros [k t] H. cbn [fst snd]. destruct t as [| | | | |de fs ds]; try (apply ok_ret; constructor).
  unfold input_class. cbn [id_desc id_fields id_dirs]. destruct (_ && _); [apply ok_ret; constructor|].
  bnd; [apply keywords_ok, (sc_applied _ _ _ _ _ SC _ _ H)|]. cbv zeta. bnd; [apply additional_bases_ok, C|].
  bnd; [apply gen_input; [exact S|exact (sn_types _ N _ _ H)]|].
  eapply ok_bind; [apply ok_concat_some with (Q := sv); intros [n f] Hf|].
  { unfold input_field. cbv zeta. cbn [fst snd]. bnd; [now apply argument_annotation_ok|]. apply ok_ret. split; [|discriminate]. constructor; [|constructor].
    apply sv_ann; [apply node_named; [exact S|]|assumption|].
    - apply (sn_fields _ N _ _ n H). cbn. apply in_map_iff. now exists (n, f).
    - apply (field_value ["description"; "deprecation_reason"]). rewrite <- (app_nil_r (opt_keyword "deprecation_reason" _)).
      destruct (described (if_desc f) (if_depr f) [] (kws_none _)) as [K1 K2]. split; [exact K1|]. intros k0 e0 H0. destruct (K2 _ _ H0) as (m & E1 & E2 & E3).
      exists m. split; [exact E1|]. split; [|exact E3]. subst k0. rewrite app_nil_r in H0. apply in_app_iff in H0 as [H0|H0]; unfold opt_keyword in H0;
        destruct (truthy _) in H0; first [destruct H0 as [[= <- _]|[]]; cbn; tauto|destruct H0]. }
  intros fl [F1 F2]. bnd; [apply config_ok, C|]. apply ok_ret. constructor; [|constructor]. apply sv_class; [assumption| | | |].
  - apply Forall_app. split; [assumption|]. apply Forall_forall. intros e He. apply in_map_iff in He as (b & <- & Hb). now apply ev_name, path_last, B.
  - intros E. apply app_eq_nil in E as [_ E]. apply app_eq_nil in E as [E _]. revert E. apply F2. exact (sc_bodies _ _ _ _ _ SC _ _ H).
  - repeat (apply Forall_app; split); try assumption. apply class_docs_ok.
  - eapply (decorate_ok (["directives"] ++ ["one_of"])); [reflexivity|]. apply kws_app; [assumption| |cbn; intuition (subst; discriminate)].
    destruct (is_oneof_input_type _); [now apply kws_one|apply kws_none].
Qed.

(** ** Object types and interfaces *)
Lemma sorted_args_In : forall args a, In a (sorted_args args) <-> In a args.
Proof.
  intros args a. unfold sorted_args. rewrite in_app_iff, !filter_In. destruct (is_undefined (snd a)); cbn; intuition discriminate.
Qed.
Lemma sorted_perm : forall args, Permutation (sorted_args args) args.
Proof.
  intros args. unfold sorted_args. induction args as [|a l IH]; [constructor|]. cbn. destruct (is_undefined (snd a)); cbn.
  - now constructor.
  - rewrite <- Permutation_middle. now constructor.
Qed.
Lemma defaults_count : forall args, (length (resolver_defaults args) <= length args)%nat.
Proof.
  intros args. unfold resolver_defaults. induction args as [|a l IH]; [constructor|]. cbn. rewrite app_length. destruct (arg_default (snd a)); cbn; lia.
Qed.
Lemma type_field_ok : forall key t cls kf, In (key, t) (s_types s) -> pyname cls = true -> In kf (fields_of t) ->
  ok (type_field c st s pc key cls kf) (fun l => Forall sv l /\ l <> []).
Proof.
  intros key t cls [k f] HT PC HF. destruct (sc_fields _ _ _ _ _ SC _ _ _ _ HT HF) as (DS & AN & ND). unfold type_field.
  assert (NK : is_name k = true).
  { apply (sn_fields _ N _ _ k HT). destruct t; cbn in HF |- *; try destruct HF; apply in_map_iff; now exists (k, f). }
  assert (NP := node_named st S _ NK).
  eapply ok_bind with (P := fun ps => Forall (fun a => exists e, pyname (pa_name a) = true /\ pa_ann a = Some e /\ ev e) ps
    /\ map pa_name ps = map (fun a => generate_parameter_name st (fst a)) (sorted_args (fd_args f))).
  { assert (Q : forall a, In a (sorted_args (fd_args f)) -> is_name (fst a) = true) by (intros a Ha; apply AN; now rewrite <- sorted_args_In).
    revert Q. generalize (sorted_args (fd_args f)). intros l0. induction l0 as [|a l IH]; intros Q; [apply ok_ret; now split|]. cbn [mmap].
    eapply ok_bind with (P := fun p => pa_name p = generate_parameter_name st (fst a) /\ exists e, pa_ann p = Some e /\ ev e).
    { unfold resolver_arg. bnd; [now apply argument_annotation_ok|]. apply ok_ret. split; [reflexivity|]. eexists. split; [reflexivity|assumption]. }
    intros p (P1 & e & P2 & P3). eapply ok_bind; [apply IH; intros; apply Q; now right|]. intros ps [Q1 Q2]. apply ok_ret. cbn. rewrite P1, Q2. split; [|reflexivity].
    constructor; [|exact Q1]. exists e. rewrite P1. split; [apply param_named; [exact S|apply Q; now left]|]. now split. }
  intros ps [PS PN]. bnd; [now apply field_annotation_ok|]. bnd; [now apply keywords_ok|]. cbv zeta.
  assert (KW := described (fd_desc f) (fd_depr f) _ Hx0). set (kws := opt_keyword _ _ ++ _) in *.
  destruct (_ && _).
  - apply ok_ret. split; [|discriminate]. constructor; [|constructor]. apply sv_ann; [exact NP|assumption|]. exact (field_value _ _ KW).
  - eapply ok_bind; [now apply import_when|]. intros _ _. apply ok_ret. split; [|discriminate]. constructor; [|constructor]. unfold resolver, sv.
    set (sub := String.eqb key "Subscription"). cbn [stmt_valid]. rewrite NP. cbn [andb].
    assert (A : args_valid Outside (PyArgs (PyArg "self" None :: ps) (resolver_defaults (sorted_args (fd_args f)))) = true).
    { unfold args_valid. cbn [a_args a_defaults forallb pa_name pa_ann map length]. rewrite !andb_true_iff. repeat split.
      - apply forallb_forall. intros a Ha. rewrite Forall_forall in PS. destruct (PS _ Ha) as (e & P1 & P2 & P3). rewrite P1, P2. exact (P3 Outside).
      - apply nodupb_NoDup. rewrite PN. eapply Permutation_NoDup; [|exact ND]. constructor. apply Permutation_map, Permutation_sym, sorted_perm.
      - apply evs, Forall_forall. intros e He. unfold resolver_defaults in He. apply in_flat_map in He as (a & _ & Ha). destruct (arg_default (snd a)); [|destruct Ha].
        destruct Ha as [<-|[]]. apply default_ok.
      - apply Nat.leb_le. etransitivity; [apply defaults_count|]. rewrite <- (map_length (fun a => generate_parameter_name st (fst a))), <- PN, map_length. lia. }
    rewrite A. cbn [andb].
    assert (R : forall p, expr_valid p (if sub then ESub (EName "AsyncGenerator") (ETuple [x; EName "None"]) else x) = true).
    { intros p. destruct sub; [|apply Hx]. cbn. now rewrite (Hx p). }
    cbn [opt_valid]. rewrite R. cbn [andb].
    assert (DE : Forall ev [ECall (EName (if String.eqb key "Mutation" then "strawberry.mutation" else if sub then "strawberry.subscription" else "strawberry.field")) [] kws]).
    { constructor; [|constructor]. eapply kws_call; [|constructor|exact KW]. apply ev_path. destruct (String.eqb key "Mutation"), sub; reflexivity. }
    rewrite (evs _ Outside DE). cbn [andb].
    unfold class_docs. destruct (truthy (fd_desc f)), sub; reflexivity.
Qed.
Lemma gen_plain_interface : forall n, is_name n = true -> ok (generate_interface st n false) (fun x => pyname x = true).
Proof.
  intros n NN. assert (P : pyname (style_interface_class st n) = true) by (apply styled_in; [exact S|cbn; tauto|exact NN]).
  unfold generate_interface. bnd; [apply ok_gets with (Q := fun _ => True); trivial|]. bnd; [apply ok_massert|].
  eapply ok_bind with (P := fun _ => True).
  - apply ok_modify. intros r []. constructor; cbn; auto. intros k t H. apply dset_In in H as [H|[-> ->]]; eauto.
  - intros _ _. now apply ok_ret.
Qed.
Lemma type_class_ok : forall kt, In kt (sorted_objects s) -> ok (type_class c st s applied pc kt) (Forall sv).
Proof.
  intros [key t] H. assert (HS : In (key, t) (s_types s) /\ (is_interface_def t = true \/ is_object_def t = true)).
  { unfold sorted_objects in H. apply in_app_iff in H as [H|H]; apply filter_In in H as [H1 H2]; auto. }
  destruct HS as [HT HK]. assert (NK := sn_types _ N _ _ HT). unfold type_class. bnd; [apply additional_bases_ok, C|].
  destruct (skipped _ _); [apply ok_ret; constructor|].
  bnd; [apply keywords_ok; exact (sc_applied _ _ _ _ _ SC _ _ HT)|].
  eapply ok_bind with (P := fun n => pyname n = true); [destruct (is_interface_def t); [now apply gen_plain_interface|now apply gen_object]|].
  intros cls Hc. eapply ok_bind with (P := Forall ev).
  { apply ok_mconcat. intros i Hi. destruct (extended_by_other _ _ _); [apply ok_ret; constructor|].
    bnd; [apply inherited_interface|]. apply ok_ret. constructor; [now apply ev_name|constructor]. }
  intros ib Hib. eapply ok_bind; [apply ok_concat_some with (Q := sv); intros kf Hf; eapply type_field_ok; [exact HT|exact Hc|destruct t; exact Hf]|].
  intros fl [F1 F2]. bnd; [apply config_ok, C|]. apply ok_ret. constructor; [|constructor]. apply sv_class; [exact Hc|now apply Forall_app| | |].
  - intros E. apply app_eq_nil in E as [_ E]. apply app_eq_nil in E as [E _]. revert E. apply F2.
    pose proof (sc_bodies _ _ _ _ _ SC _ _ HT) as BO. destruct t; cbn in HK; destruct HK; try discriminate; exact BO.
  - repeat (apply Forall_app; split); try assumption. apply class_docs_ok.
  - eapply decorate_ok; [destruct (is_interface_def t); reflexivity|eassumption].
Qed.
Lemma scaffold_valid : ok (strawberry_plugin c st s directives applied pc) (Forall sv).
Proof.
  unfold strawberry_plugin. imp.
  eapply ok_bind with (P := Forall sv); [destruct (sb_directives pc); [apply directives_valid|apply ok_ret; constructor]|intros l1 H1].
  eapply ok_bind with (P := Forall sv); [destruct (sb_directives pc); [apply scalars_valid|apply ok_ret; constructor]|intros l2 H2].
  eapply ok_bind with (P := Forall sv); [destruct (sb_enums pc); [apply sb_enums_valid|apply ok_ret; constructor]|intros l3 H3].
  eapply ok_bind with (P := Forall sv); [destruct (sb_inputs pc); [apply sb_inputs_valid|apply ok_ret; constructor]|intros l4 H4].
  eapply ok_bind with (P := Forall sv); [destruct (sb_types pc); [unfold generate_types; imp; apply ok_mconcat; apply type_class_ok|apply ok_ret; constructor]|intros l5 H5].
  apply ok_ret. repeat (apply Forall_app; split); assumption.
Qed.
End Server.

(** ** The module *)
Theorem code_valid : forall iter, set_order iter -> forall c st s d, config_named c -> (forall x, In x st -> styler_named x) ->
  schema_named s -> document_named d ->
  forall ps skip_forwards t, Forall (code_plugin st s d c) ps -> generate_ast c iter ps skip_forwards = Ok t -> valid_module t = true.
Proof.
  intros iter I c st s d C S N D ps skip t HP. apply module_valid; try assumption. revert HP. apply Forall_impl. intros p [p0 H|n ds ap pc B SC].
  - now apply (plugin_valid c st s d).
  - now apply scaffold_valid.
Qed.
