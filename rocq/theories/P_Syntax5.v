(** The classes of fragments and operations. *)
From Verif Require Import Base PyAst Gql Config Stylers Registry Utils Documents Inline Recurse Fragments Operations
  Spec_Naming Spec_Inputs Spec_Syntax Spec_Scope2 P_Base P_Stylers P_Monad P_Registry P_Gql P_Topo P_Syntax P_Syntax2 P_Syntax3 P_Syntax4.

(** an expression that may stand outside of functions may stand anywhere *)
Lemma outside_ev : forall e, expr_valid Outside e = true -> ev e.
Proof.
  fix IH 1. intros e.
  assert (IL : forall l, forallb (expr_valid Outside) l = true -> forall p, forallb (expr_valid p) l = true).
  { fix IL 1. intros [|x l] H p; [reflexivity|]. cbn in H |- *. apply andb_true_iff in H as [H1 H2]. rewrite (IH _ H1 p). now apply IL. }
  destruct e as [n|k|a b|l|l|items|f args kws|a n|a o b|a|a|ps b]; intros H p; cbn [expr_valid] in H |- *; try exact H; try discriminate.
  - apply andb_true_iff in H as [H1 H2]. now rewrite (IH _ H1 p), (IH _ H2 p).
  - now apply IL.
  - now apply IL.
  - revert items H. fix ID 1. intros [|[x y] l] H; [reflexivity|]. cbn in H |- *. apply andb_true_iff in H as [H H2]. apply andb_true_iff in H as [H0 H1].
    rewrite (IH _ H0 p), (IH _ H1 p). now apply ID.
  - apply andb_true_iff in H as [H H3]. apply andb_true_iff in H as [H H2]. apply andb_true_iff in H as [H0 H1].
    rewrite (IH _ H0 p), (IL _ H1 p), H3, andb_true_r. cbn. revert kws H2 H3. fix ID 1. intros [|[k x] l] H2 H3; [reflexivity|]. cbn in H2 |- *.
    apply andb_true_iff in H2 as [H2 H4]. apply andb_true_iff in H2 as [H2 H5]. rewrite H2, (IH _ H5 p). cbn. apply ID; [exact H4|].
    cbn in H3. destruct k; [|exact H3]. cbn in H3. now apply andb_true_iff in H3.
  - apply andb_true_iff in H as [H1 H2]. now rewrite (IH _ H1 p), H2.
  - apply andb_true_iff in H as [H1 H2]. now rewrite (IH _ H1 p), (IH _ H2 p).
Qed.

Section Docs.
Variable c : gconfig.
Variable st : list styler.
Variable s : schema.
Variable d : document.
Hypothesis C : config_named c.
Hypothesis S : forall x, In x st -> styler_named x.
Hypothesis N : schema_named s.
Hypothesis D : document_named d.
Notation tfn := (type_field_node c st s).

(** ** fragments *)
Section Fragments.
Variable pc : frcfg.
Variable pf : fragment -> string.
Variable add : string -> res string.
Hypothesis B : forall b, In b (fr_bases pc ++ fr_object_bases pc) -> py_path b = true.
Hypothesis FC : fragment_classes_named s d (style_fragment_class st).

Lemma fragment_bases_ok : forall b, ok (get_fragment_bases c pc b) (Forall ev).
Proof.
  intros b. unfold get_fragment_bases. bnd; [apply import_bases_ok; intros; apply B, in_app_iff; now left|].
  eapply ok_bind with (P := Forall ev); [destruct b; [apply import_bases_ok; intros; apply B, in_app_iff; now right|apply ok_ret; constructor]|]. intros x0 H0.
  bnd; [apply import_bases_ok, C|]. apply ok_ret. repeat (apply Forall_app; split); assumption.
Qed.
Lemma inline_kept : forall p, ok (replace_iteratively add p) (fun _ => True).
Proof. intros p. unfold replace_iteratively. eapply ok_bind; [apply ok_gets with (Q := fun _ => True); trivial|]. intros m _. now apply ok_lift. Qed.
Lemma named_fold : forall base l m, (forall i, In i l -> pyname (base +s+ i) = true) -> (forall i t, In (i, t) m -> pyname t = true) ->
  forall i t, In (i, t) (fold_left (fun m i => dset i (base +s+ i) m) l m) -> pyname t = true.
Proof.
  intros base l. induction l as [|x l IH]; intros m L M; [exact M|]. cbn [fold_left]. apply IH; [intros; apply L; now right|].
  intros i t H. apply dset_In in H as [H|[-> ->]]; [eauto|apply L; now left].
Qed.
Lemma interface_fragment_ok : forall f de fields, In (DFrag f) d -> ok (interface_fragment c st s pc f de fields) (Forall sv).
Proof.
  intros f de fields HF. destruct (dn_frags _ D _ HF) as (F1 & F2 & F3). unfold interface_fragment.
  assert (PB : pyname (style_fragment_class st (fr_name f)) = true) by (apply styled_in; [exact S|cbn; tauto|exact F1]).
  assert (PI : forall i, In i (implementations s (fr_on f)) -> pyname (style_fragment_class st (fr_name f) +s+ i) = true).
  { intros i Hi. apply (proj1 (FC _ HF)). left. apply implementations_In in Hi as (a & b & e & g & Hi & Ho). now exists a, b, e, g. }
  set (base := style_fragment_class st (fr_name f)) in *. cbv zeta.
  assert (PM : pyname (base +s+ "Base") = true) by (apply pyname_app; [now apply pyname_name|reflexivity|reflexivity]).
  assert (PC : pyname (base +s+ "Catch") = true) by (apply pyname_app; [now apply pyname_name|reflexivity|reflexivity]).
  bnd; [apply additional_bases_ok, C|]. eapply ok_bind with (P := ifok).
  { apply walk_ok; [|split; [|discriminate]; constructor; cbn; [constructor|constructor; [apply sv_doc|constructor]|intros k l z []|intros k l z []]].
    intros l [= <-] a y Hy Ha. apply iface_item_ok; [exact PB| |exact Ha]. pose proof (sels_ok c st s C S N _ F3) as Z. rewrite Forall_forall in Z. now apply Z. }
  intros p [HP HE]. bnd; [apply interface_bases_ok, C|]. bnd; [apply generic_typename_ok|].
  bnd; [apply ok_mmap with (Q := sv); intros i Hi; apply implementing_class_ok; [exact C|exact PM|now apply PI|exact HP]|].
  eapply ok_bind; [apply iffrag_kept, named_fold; [exact PI|intros i t []]|]. intros _ _. apply ok_ret.
  destruct HP as [A1 A2 A3 A4]. repeat (apply Forall_app; split); try assumption. constructor; [|constructor; [|constructor]].
  - apply sv_class; [exact PM|apply Forall_app; now split|exact HE|exact A2|constructor].
  - apply sv_class; [exact PC|constructor; [now apply ev_name|constructor]|discriminate| |constructor]. constructor; [apply sv_doc|]. constructor; [assumption|exact A2].
Qed.
Lemma object_fragment_item_ok : forall tn cls acc x, pyname cls = true -> sok tfn x ->
  Forall sv (fst (fst acc)) /\ Forall ev (snd (fst acc)) /\ Forall sv (snd acc) /\ snd acc <> [] ->
  ok (object_fragment_item c st s tn cls acc x) (fun acc => Forall sv (fst (fst acc)) /\ Forall ev (snd (fst acc)) /\ Forall sv (snd acc) /\ snd acc <> []).
Proof.
  intros tn cls [[classes bases] fields] x P X (A1 & A2 & A3 & E). cbn in A1, A2, A3, E. destruct x as [g|f ds|on ds sub]; cbn [object_fragment_item].
  - destruct (String.eqb _ _); [now apply ok_ret|].
    eapply ok_bind with (P := fun _ => True); [destruct (get_field_def _ _ _); [now apply ok_ret|apply ok_raise]|]. intros fd _.
    eapply ok_bind; [apply (X cls fd P)|]. intros [r1 r2] [R1 R2]. apply ok_ret. cbn.
    split; [apply Forall_app; now split|]. split; [exact A2|]. split; [apply Forall_app; now split|]. intros E'. apply app_eq_nil in E' as [E' _]. now apply E.
  - eapply ok_bind; [apply ok_gets with (Q := fun m => forall k m' i t, In (k, m') m -> In (i, t) m' -> pyname t = true)|].
    { intros r R. exact (rn_iffrag _ R). }
    intros m HM. eapply ok_bind with (P := fun b => pyname b = true).
    { destruct (dget f m) as [impls|] eqn:G; [|apply inherited_fragment]. unfold from_opt. destruct (dget tn impls) as [b|] eqn:G2; [|apply ok_raise].
      apply ok_ret. apply dget_Some_In in G, G2. exact (HM _ _ _ _ G G2). }
    intros b HB. apply ok_ret. cbn. split; [exact A1|]. split; [constructor; [now apply ev_name|exact A2]|now split].
  - now apply ok_ret.
Qed.
Lemma object_fragment_ok : forall f cls de, In (DFrag f) d -> pyname cls = true -> ok (object_fragment c st s pc pf add f cls de) (Forall sv).
Proof.
  intros f cls de HF P. destruct (dn_frags _ D _ HF) as (F1 & F2 & F3). unfold object_fragment.
  bnd; [apply additional_bases_ok, C|]. bnd; [apply typename_ok|].
  eapply ok_bind with (P := fun acc => Forall sv (fst (fst acc)) /\ Forall ev (snd (fst acc)) /\ Forall sv (snd acc) /\ snd acc <> []).
  { apply ok_mfold; [|cbn; split; [constructor|]; split; [assumption|]; split; [constructor; [apply sv_doc|constructor; [assumption|constructor]]|discriminate]].
    intros a y Hy Ha. apply object_fragment_item_ok; [exact P| |exact Ha]. pose proof (sels_ok c st s C S N _ F3) as Z. rewrite Forall_forall in Z. now apply Z. }
  intros [[classes bases] fields] (A1 & A2 & A3 & E). cbn in A1, A2, A3, E.
  eapply ok_bind with (P := Forall sv).
  { unfold fragment_meta. destruct (fr_meta pc); [|apply ok_ret; constructor]. eapply ok_bind; [apply inline_kept|]. intros doc _. apply ok_ret.
    constructor; [|constructor]. reflexivity. }
  intros meta HM. bnd; [apply fragment_bases_ok|]. bnd; [apply config_ok, C|]. apply ok_ret. apply snoc_ok; [exact A1|].
  apply sv_class; [exact P| | | |constructor]; try (repeat (apply Forall_app; split); assumption).
  intros E'. apply app_eq_nil in E' as [E' _]. now apply E.
Qed.
Definition spreads_py (sub : list selection) : Prop := forall g ds, In (SelSpread g ds) sub -> pyname g = true.
Lemma union_fragment_item_ok : forall cls p x, pyname cls = true -> sok tfn x -> (forall o ds sub, x = SelInline o ds sub -> spreads_py sub) -> ipok p ->
  ok (union_fragment_item c st s cls p x) ipok.
Proof.
  intros cls p x P X SP [A1 A2 A3 A4]. destruct x as [g|f ds|on ds sub]; cbn [union_fragment_item].
  - apply ok_raise.
  - eapply ok_bind; [apply union_members_ok|]. intros m HM. apply ok_ret. constructor; cbn; try assumption; [constructor|]. now apply extend_names.
  - destruct X as [O X]. eapply ok_bind with (P := fun _ => True); [destruct on; [now apply ok_ret|apply ok_raise]|]. intros n _.
    eapply ok_bind with (P := fun acc => Forall sv (fst (fst acc)) /\ pynames (snd (fst acc)) /\ Forall sv (snd acc)).
    { apply ok_mfold; [|repeat split; constructor]. intros [[classes bases] fields] y Hy (B1 & B2 & B3). cbn in B1, B2, B3. rewrite Forall_forall in X.
      specialize (X _ Hy). destruct y as [g|f' ds'|]; cbn [union_inline]; [|apply ok_ret|now apply ok_ret].
      - destruct (String.eqb _ _); [now apply ok_ret|].
        eapply ok_bind with (P := fun _ => True); [destruct (get_type _ _); [now apply ok_ret|apply ok_raise]|]. intros _ _.
        eapply ok_bind with (P := fun _ => True); [destruct (get_field_def _ _ _); [now apply ok_ret|apply ok_raise]|]. intros fd _.
        eapply ok_bind; [apply (X cls fd P)|]. intros [r1 r2] [R1 R2]. apply ok_ret. split; [|split]; cbn; [apply Forall_app; now split|exact B2|apply Forall_app; now split].
      - split; [exact B1|]. split; [|exact B3]. apply snoc_ok; [exact B2|]. exact (SP _ _ _ eq_refl _ _ Hy). }
    intros [[classes bases] fields] (B1 & B2 & B3). cbn in B1, B2, B3. apply ok_ret. constructor; cbn; [apply Forall_app; now split|constructor| |].
    + intros k l y Hk Hy. destruct (dextend_In _ _ _ _ _ _ Hk Hy) as [(l' & H1 & H2)|[_ H]]; [eauto|]. unfold pynames in B2. rewrite Forall_forall in B2. now apply B2.
    + intros k l y Hk Hy. destruct (dextend_In _ _ _ _ _ _ Hk Hy) as [(l' & H1 & H2)|[_ H]]; [eauto|]. rewrite Forall_forall in B3. now apply B3.
Qed.
Lemma union_fragment_ok : forall f de ms, In (DFrag f) d -> get_type s (fr_on f) = Some (TUnion de ms) -> ok (union_fragment c st s pc f de ms) (Forall sv).
Proof.
  intros f de ms HF HT. destruct (dn_frags _ D _ HF) as (F1 & F2 & F3). unfold union_fragment.
  assert (PB : pyname (style_fragment_class st (fr_name f)) = true) by (apply styled_in; [exact S|cbn; tauto|exact F1]).
  assert (PI : forall i, In i ms -> pyname (style_fragment_class st (fr_name f) +s+ i) = true).
  { intros i Hi. apply (proj1 (FC _ HF)). right. now exists de, ms. }
  set (base := style_fragment_class st (fr_name f)) in *. cbv zeta.
  bnd; [apply additional_bases_ok, C|]. eapply ok_bind with (P := ipok).
  { apply walk_ok; [|constructor; cbn; [constructor|constructor|intros k l z []|intros k l z []]].
    intros l [= <-] a y Hy Ha. apply union_fragment_item_ok; [exact PB| | |exact Ha].
    - pose proof (sels_ok c st s C S N _ F3) as Z. rewrite Forall_forall in Z. now apply Z.
    - intros o ds sub -> g ds' Hg. eapply (proj2 (FC _ HF)); [now exists de, ms|exact Hy|exact Hg]. }
  intros p [A1 A2 A3 A4]. bnd.
  { apply ok_mmap with (Q := sv). intros i Hi. bnd; [apply fragment_bases_ok|]. bnd; [apply typename_ok|]. apply ok_ret.
    apply sv_class; [now apply PI| |discriminate| |constructor].
    - apply Forall_app. split; [|assumption]. apply ev_names, Forall_forall. intros n Hn. apply dget_list_In in Hn as (l & H1 & H2). eauto.
    - constructor; [assumption|]. apply Forall_forall. intros n Hn. apply dget_list_In in Hn as (l & H1 & H2). eauto. }
  eapply ok_bind; [apply ufrag_kept, named_fold; [exact PI|intros i t []]|]. intros _ _. imp. apply ok_ret.
  repeat (apply Forall_app; split); try assumption.
  - constructor; [|constructor]. apply sv_assign; [exact PB|]. apply ev_union, Forall_map, Forall_forall. intros i Hi. now apply ev_name, PI.
  - destruct (truthy _ && _); [constructor; [apply sv_doc|constructor]|constructor].
Qed.
Lemma ordered_In : forall fs f, ordered_fragments d = Ok fs -> In f fs -> In (DFrag f) d.
Proof.
  intros fs f E H. unfold ordered_fragments in E. destruct (build_recursive_dependency_graph d) as [g|]; [|discriminate]. cbn in E.
  destruct (topological_sort g) as [l|]; [|discriminate]. injection E as <-. unfold reorder_definitions in H. apply in_flat_map in H as (n & _ & H).
  destruct (dget n (fragment_definitions d)) as [f'|] eqn:G; [|destruct H]. destruct H as [<-|[]]. apply dget_Some_In in G.
  assert (Z : forall l (m : dict fragment), (forall k x, In (k, x) m -> In (DFrag x) d) -> (forall x, In x l -> In (DFrag (snd x)) d) ->
    forall k x, In (k, x) (fold_left (fun acc kv => dset (fst kv) (snd kv) acc) l m) -> In (DFrag x) d).
  { intros l0. induction l0 as [|[k x] l0 IH]; intros m M L; [exact M|]. cbn [fold_left fst snd]. apply IH; [|intros; apply L; now right].
    intros k' x' Hx. apply dset_In in Hx as [Hx|[-> ->]]; [eauto|]. apply (L (k, x)). now left. }
  refine (Z _ _ _ _ _ _ G); [intros k x []|]. intros x Hx. apply in_map_iff in Hx as (f0 & <- & Hf). unfold fragments_of in Hf.
  apply in_flat_map in Hf as (x & H1 & H2). destruct x; try (destruct H2; fail). destruct H2 as [<-|[]]. exact H1.
Qed.
Lemma fragments_valid : ok (fragments_plugin c st s pc pf add d) (Forall sv).
Proof.
  unfold fragments_plugin. eapply ok_bind; [apply ok_lift with (Q := fun fs => forall f, In f fs -> In (DFrag f) d)|].
  { intros fs E f. now apply ordered_In. }
  intros fs HF. apply ok_mconcat. intros f Hf. specialize (HF _ Hf). destruct (dn_frags _ D _ HF) as (F1 & F2 & F3). unfold generate_fragment.
  eapply ok_bind with (P := fun t => get_type s (fr_on f) = Some t); [destruct (get_type _ _); [now apply ok_ret|apply ok_raise]|]. intros t HT.
  bnd; [now apply gen_fragment|]. eapply ok_bind; [apply fragdoc_kept|]. intros _ _. eapply ok_bind; [apply fragtype_kept|]. intros _ _.
  destruct t; try apply ok_raise; [now apply object_fragment_ok|now apply interface_fragment_ok|now apply union_fragment_ok].
Qed.
End Fragments.

(** ** operations *)
Section Operations.
Variable pc : ocfg.
Variable po : operation -> string.
Variable add : string -> res string.
Variable doc_of : operation -> option string.
Hypothesis B : forall b, In b (o_query_bases pc ++ o_arguments_bases pc ++ o_mutation_bases pc ++ o_subscription_bases pc) -> py_path b = true.
Hypothesis V : variables_plain d.

Lemma any_input_ok : forall n, ~ In n helper_names -> ok (reference_any_input st n "") ev.
Proof.
  intros n H. unfold reference_any_input. apply ok_try; [apply scalar_ok|]. intros _. apply ok_try; [apply input_ref; discriminate|]. intros _.
  apply ok_try; [apply enum_ref; [exact S|]|intros _; apply ok_raise]. intros [E|E]; [discriminate|now destruct H].
Qed.
Lemma type_annotation_ok : forall ow t o, (forall e, ow = Some e -> ev e) -> (ow = None -> ~ In (gty_name t) helper_names) -> ok (recurse_type_annotation st ow t o) ev.
Proof.
  intros ow. induction t as [n|t IH|t IH]; intros o W H; cbn [recurse_type_annotation].
  - eapply ok_bind with (P := ev); [destruct ow as [e|]; [now apply ok_ret, W|now apply any_input_ok, H]|intros; now apply opt_wrap_ok].
  - destruct o; imp; try imp; (eapply ok_bind; [now apply IH|]); intros; apply ok_ret; [apply ev_optional|]; now apply ev_list.
  - now apply IH.
Qed.
Lemma bases_default_ok : forall l, incl l (o_query_bases pc ++ o_arguments_bases pc ++ o_mutation_bases pc ++ o_subscription_bases pc) -> ok (bases_or_default c l) (Forall ev).
Proof. intros l I. unfold bases_or_default. apply import_bases_ok. intros b Hb. destruct l; [now apply C|apply B, I, Hb]. Qed.
Lemma argument_field_ok : forall o v, In (DOp o) d -> In v (op_vars o) -> ok (argument_field c st v) sv.
Proof.
  intros o v HO HV. assert (NV := proj2 (proj2 (dn_ops _ D _ HO)) _ HV). unfold argument_field.
  bnd; [apply type_annotation_ok; [discriminate|intros _; exact (V _ _ HO HV)]|].
  eapply ok_bind with (P := ev); [destruct (_ && _); [imp; apply ok_ret; now apply ev_optional|now apply ok_ret]|]. intros a Ha.
  eapply ok_bind with (P := fun _ => True); [destruct (v_default v); [eapply ok_bind with (P := fun _ => True); [now apply ok_lift|]; intros y _|]; now apply ok_ret|].
  intros dv _. bnd; [apply metadata_ok; [exact C|exact Ha|]|].
  { intros e. destruct dv as [[]|]; try discriminate; intros [= <-]; apply ev_str. }
  set (kws := (if String.eqb (v_name v) _ then [] else _) ++ _).
  eapply ok_bind with (P := fun _ => True); [destruct (String.eqb _ _); [now apply ok_ret|now apply import_kept]|]. intros _ _.
  apply ok_ret, sv_ann; [now apply param_named|assumption|]. intros e He.
  assert (K : ev (field_call kws)).
  { apply ev_kwcall; [now apply ev_name| |]; subst kws; destruct (String.eqb _ _), (_ || _); cbn.
    1-4: repeat constructor; cbn; intuition discriminate.
    all: kws. }
  destruct kws; [discriminate|injection He as <-; exact K].
Qed.
Lemma arguments_ok : forall o n, In (DOp o) d -> ok (arguments_class c st pc o n) (Forall sv).
Proof.
  intros o n HO. unfold arguments_class. destruct (o_create_arguments pc); [|apply ok_ret; constructor].
  bnd; [apply ok_mmap with (Q := sv); intros v Hv; now apply (argument_field_ok o)|].
  eapply ok_bind with (P := Forall sv).
  { unfold generate_arguments_config. imp. apply ok_ret. constructor; [|constructor].
    apply sv_assign; [reflexivity|]. intros p. cbn. now destruct (oc_allow_population_by_field_name _). }
  intros cfg HC. bnd; [apply bases_default_ok; intros b Hb; rewrite !in_app_iff; tauto|]. apply ok_ret. constructor; [|constructor].
  apply sv_class; [reflexivity|assumption|discriminate| |constructor]. constructor; [apply sv_doc|]. apply Forall_app. now split.
Qed.
Lemma operation_class_ok : forall o n, is_name n = true -> ok (operation_class c st pc o n) (fun x => pyname (fst x) = true /\ Forall ev (snd x)).
Proof.
  intros o n HN. unfold operation_class. destruct (op_kind o).
  - bnd; [now apply gen_query|]. bnd; [apply bases_default_ok; intros b Hb; rewrite !in_app_iff; tauto|]. now apply ok_ret.
  - bnd; [now apply gen_mutation|]. bnd; [apply bases_default_ok; intros b Hb; rewrite !in_app_iff; tauto|]. now apply ok_ret.
  - bnd; [now apply gen_subscription|]. bnd; [apply bases_default_ok; intros b Hb; rewrite !in_app_iff; tauto|]. now apply ok_ret.
Qed.
Definition rstate (x : list stmt * list (list stmt)) : Prop := Forall sv (fst x) /\ Forall (Forall sv) (snd x).
Lemma root_item_ok : forall root cls acc x, pyname cls = true -> sok tfn x -> rstate acc -> ok (root_item c st s root cls acc x) rstate.
Proof.
  intros root cls [a1 a2] x P X [A1 A2]. cbn in A1, A2. destruct x as [g|f ds|on ds sub]; cbn [root_item]; try apply ok_raise.
  eapply ok_bind with (P := fun _ => True); [destruct (get_field_def _ _ _); [now apply ok_ret|apply ok_raise]|]. intros fd _.
  eapply ok_bind; [apply (X cls fd P)|]. intros [r1 r2] [R1 R2]. apply ok_ret. split; cbn; [apply Forall_app; now split|now apply snoc_ok].
Qed.
Lemma op_In : forall o, In o (operations_of d) -> In (DOp o) d.
Proof. intros o H. unfold operations_of in H. apply in_flat_map in H as (x & H1 & H2). destruct x; try (destruct H2; fail). destruct H2 as [<-|[]]. exact H1. Qed.
Lemma sv_annotation : forall n a v, sv (SAnn n a v) -> expr_valid Outside a = true.
Proof. intros n a v H. unfold sv in H. cbn in H. apply andb_true_iff in H as [H _]. now apply andb_true_iff in H. Qed.
Lemma operations_valid : ok (operations_plugin c st s pc po add doc_of d) (Forall sv).
Proof.
  unfold operations_plugin. apply ok_mconcat. intros o HO. apply op_In in HO. destruct (dn_ops _ D _ HO) as (N1 & N2 & N3). unfold generate_operation.
  eapply ok_bind with (P := fun n => is_name n = true); [destruct (op_name o); [now apply ok_ret|apply ok_raise]|]. intros n HN.
  eapply ok_bind; [now apply operation_class_ok|]. intros cb [C1 C2].
  eapply ok_bind with (P := fun _ => True); [destruct (root_type _ _); [now apply ok_ret|apply ok_raise]|]. intros root _.
  eapply ok_bind with (P := rstate).
  { apply ok_mfold; [|split; constructor]. intros a x Hx Ha. apply root_item_ok; [exact C1| |exact Ha].
    pose proof (sels_ok c st s C S N _ N2) as Z. rewrite Forall_forall in Z. now apply Z. }
  intros [r1 r2] [R1 R2]. cbn in R1, R2. cbn [fst snd].
  eapply ok_bind with (P := fun _ => True).
  { destruct r2 as [|[|[] l] [|]]; try (now apply ok_ret). inversion R2 as [|? ? R3 _]; subst. inversion R3; subst. apply single_kept, outside_ev. eapply sv_annotation; eassumption. }
  intros _ _. eapply ok_bind; [apply inline_kept|]. intros doc _. bnd; [now apply arguments_ok|]. bnd; [apply config_ok, C|]. apply ok_ret.
  apply snoc_ok; [exact R1|]. apply sv_class; [exact C1|exact C2|discriminate| |constructor].
  constructor; [apply sv_doc|]. repeat (apply Forall_app; split); try assumption.
  - clear -R2. induction R2 as [|x l X _ IH]; [constructor|]. cbn. apply Forall_app. now split.
  - constructor; [|constructor]. unfold sv. cbn. now destruct (truthy (o_domain pc)).
Qed.
End Operations.
End Docs.
