(** Base classes of the generated classes. *)
From Verif Require Import Base PyAst Gql Config Stylers Registry Utils Documents Inline Enums Inputs Recurse Fragments Operations Objects Loaders Settings Components
  Spec_Types Spec_Imports Spec_Inputs Spec_Fields Spec_Naming Spec_Names Spec_Traits Spec_Settings Spec_Components Spec_Bases
  P_Base P_Monad P_Stylers P_Inputs P_Annot P_Recurse P_Fields P_Post P_Freeze P_Settings P_Components.

Section Models.
Variable c : gconfig.
Variable st : list styler.
Variable s : schema.
Variable b0 : string.
Variable own : list (list string).
Hypothesis HG : general_base c own b0.
Notation B0 := (EName (last_comp b0)).
Definition good (x : stmt) : Prop := match x with SClass _ b _ _ => In B0 b | _ => True end.
Notation goods := (Forall good).
Lemma in_names : forall l, In b0 l -> In B0 (names_of l).
Proof. intros l H. unfold names_of. exact (in_map (fun b => EName (last_comp b)) _ _ H). Qed.
Lemma post_import : forall l, post (fun es => es = names_of l) (import_bases l).
Proof. intros l r es r' H. now apply import_bases_spec in H. Qed.
Lemma post_interface_bases : post (fun es => In B0 es) (get_interface_bases c).
Proof.
  destruct HG as [G1 G2]. specialize (G2 _ (or_introl eq_refl)). unfold get_interface_bases. destruct (c_interface_bases c) as [[|x l]|];
    (eapply post_weaken; [apply post_import|]); intros es ->; apply in_names; try exact G1. destruct G2 as [E|G2]; [discriminate E|exact G2].
Qed.
Lemma post_own : forall l, In l own -> post (fun es => In B0 es) (bases_or_default c l).
Proof.
  intros l H. destruct HG as [G1 G2]. specialize (G2 _ (or_intror H)). unfold bases_or_default. eapply post_weaken; [apply post_import|]. intros es ->. apply in_names.
  destruct l; [exact G1|]. destruct G2 as [E|G2]; [discriminate E|exact G2].
Qed.
Lemma in_general : forall a, In B0 (a ++ names_of (c_object_bases c)).
Proof. intros a. apply in_or_app. right. apply in_names. exact (proj1 HG). Qed.
Lemma post_fragment_bases : forall pc o, post (fun es => In B0 es) (get_fragment_bases c pc o).
Proof.
  intros pc o. unfold get_fragment_bases. apply post_skip. intros a. apply post_skip. intros b. eapply post_bind; [apply post_import|]. intros e ->. apply post_ret. rewrite app_assoc. apply in_general.
Qed.

(** ** selections *)
Definition gsel (tfn : typer) (f : fieldnode) : Prop := forall parent fd, post (fun res => goods (fst res)) (tfn f parent fd).
Lemma post_walk : forall {A} (Q : A -> Prop) (item : A -> selection -> M A) sels a,
  Q a -> (forall l x a, sels = Some l -> In x l -> Q a -> post Q (item a x)) -> post Q (walk item sels a).
Proof.
  intros A Q item [l|] a Ha H; [|now apply post_ret]. unfold walk. apply post_mfold; [|exact Ha]. intros b x Hx Hb.
  destruct (is_typename_field x); [now apply post_ret|]. eapply H; eauto.
Qed.
Definition g3 {X Y} (acc : list stmt * X * Y) : Prop := goods (fst (fst acc)).
Definition g2 {X} (acc : list stmt * X) : Prop := goods (fst acc).
Lemma goods_app : forall a b, goods a -> goods b -> goods (a ++ b).
Proof. intros. now apply Forall_app. Qed.
Lemma goods_one : forall a n b body d, goods a -> In B0 b -> goods (a ++ [SClass n b body d]).
Proof. intros a n b body d H I. apply goods_app; [exact H|]. constructor; [exact I|constructor]. Qed.
Lemma post_inline_item : forall tfn cls on acc x, (forall g, x = SelField g -> gsel tfn g) -> g3 acc -> post g3 (inline_item s tfn cls on acc x).
Proof.
  intros tfn cls on [[a b] d] [g|n ds|cond ds l] H Ha; cbn [inline_item].
  - destruct (String.eqb _ _); [apply post_ret; exact Ha|]. destruct (get_type s on) as [[]|]; try apply post_raise.
    apply post_opt. intros fd _. eapply post_bind; [apply H; reflexivity|]. intros res R1. apply post_ret. now apply goods_app.
  - apply post_skip. intros i. destruct i; [apply post_raise|]. apply post_skip. intros b'. apply post_ret. exact Ha.
  - apply post_ret. exact Ha.
Qed.
Lemma post_union_item : forall tfn parent acc x, deep (gsel tfn) x -> g2 acc -> post g2 (union_item c s tfn parent acc x).
Proof.
  intros tfn parent [a b] [g|n ds|cond ds l] H Ha; cbn [union_item]; cbn in H.
  - now apply post_ret.
  - apply post_skip. intros. now apply post_ret.
  - apply post_opt. intros on _. cbn zeta. apply (post_bind g3).
    { apply post_mfold; [|constructor]. intros a' x Hx Ha'. apply post_inline_item; [|exact Ha']. intros g ->. auto. }
    intros [[nested bases] fields] G1. apply post_skip. intros body. apply post_skip. intros add. apply post_skip. intros cfg. apply post_ret.
    unfold g2. cbn [fst] in *. apply goods_app; [exact Ha|]. apply goods_one; [exact G1|apply in_general].
Qed.
Lemma post_union : forall tfn parent sels o, all_deep (gsel tfn) sels -> post g2 (union_annotation c s tfn parent sels o).
Proof.
  intros tfn parent sels o H. unfold union_annotation. eapply post_bind.
  - apply (post_walk g2); [constructor|]. intros l x a E Hx Ha. apply post_union_item; [eapply H; eauto|exact Ha].
  - intros [classes names] G. destruct names as [|n [|m names]]; [apply post_raise|now apply post_ret|].
    apply post_skip. intros _. apply post_skip. intros e. now apply post_ret.
Qed.
Definition gparts (p : iparts) : Prop := goods (ip_classes p).
Lemma post_inline_fields : forall tfn strict parent on sub, (forall g, In (SelField g) sub -> gsel tfn g) -> post g2 (inline_fields s tfn strict parent on sub).
Proof.
  intros tfn strict parent on sub H. unfold inline_fields. apply post_mfold; [|constructor].
  intros acc [g|n d|cond d l] Hx Ha; try now apply post_ret. destruct (String.eqb _ _); [now apply post_ret|].
  apply post_opt. intros fd _. eapply post_bind; [apply H; exact Hx|]. intros res R1. apply post_ret. now apply goods_app.
Qed.
Lemma post_iface_item : forall tfn strict fields parent p x, deep (gsel tfn) x -> gparts p -> post gparts (iface_item s tfn strict fields parent p x).
Proof.
  intros tfn strict fields parent p [g|n ds|cond ds l] H P1; cbn [iface_item]; cbn in H.
  - apply post_opt. intros fd _. eapply post_bind; [apply H|]. intros res R1. apply post_ret. now apply goods_app.
  - apply post_skip. intros b. apply post_ret. exact P1.
  - apply post_opt. intros on _. apply post_skip. intros _. eapply post_bind; [apply post_inline_fields; exact H|].
    intros res R1. apply post_ret. now apply goods_app.
Qed.
Lemma post_implementing : forall m n p i, post good (implementing_class c s m n p i).
Proof.
  intros m n p i. unfold implementing_class. apply post_skip. intros add. eapply post_bind; [apply post_interface_bases|]. intros ib Hib.
  apply post_skip. intros t. apply post_ret. cbn [good]. rewrite !in_app_iff. auto.
Qed.
Lemma post_interface : forall tfn parent target n desc fields sels o, all_deep (gsel tfn) sels ->
  post g2 (interface_annotation c s tfn parent target n desc fields sels o).
Proof.
  intros tfn parent target n desc fields sels o H. unfold interface_annotation. cbn zeta. eapply post_bind.
  { apply (post_walk gparts); [constructor|]. intros l x a E Hx Ha. apply post_iface_item; [eapply H; eauto|exact Ha]. }
  intros p Hp. apply post_skip. intros add. eapply post_bind; [apply post_interface_bases|]. intros ib Hib. apply post_skip. intros cfg.
  eapply post_bind; [apply post_mmap; intros i _; now apply post_implementing|]. intros impls Hi. apply post_skip. intros _. apply post_skip. intros _.
  apply (post_bind g2).
  { apply post_if; [|apply post_ret; constructor]. eapply post_bind; [apply post_interface_bases|]. intros ib' Hib'. apply post_skip. intros t.
    apply post_skip. intros _. apply post_ret. constructor; [|constructor]. right. exact Hib'. }
  intros rest Hr. apply post_skip. intros e. apply post_skip. intros _. apply post_ret.
  unfold g2. cbn [fst]. apply goods_app; [exact Hp|]. apply goods_app; [constructor; [cbn [good]; apply in_or_app; now right|constructor]|].
  now apply goods_app.
Qed.
Lemma post_object_item : forall tfn n cls fields acc x, deep (gsel tfn) x -> g3 acc -> post g3 (object_item tfn n cls fields acc x).
Proof.
  intros tfn n cls fields [[a b] d] [g|f ds|cond ds l] H Ha; cbn [object_item]; cbn in H.
  - destruct (String.eqb _ _); [apply post_ret; exact Ha|]. apply post_opt. intros fd _. eapply post_bind; [apply H|].
    intros res R1. apply post_ret. now apply goods_app.
  - apply post_skip. intros i. apply post_skip. intros b'. apply post_ret. exact Ha.
  - apply post_raise.
Qed.
Lemma post_object : forall tfn parent target n desc fields sels o, all_deep (gsel tfn) sels ->
  post g2 (object_annotation c st tfn parent target n desc fields sels o).
Proof.
  intros tfn parent target n desc fields sels o H. unfold object_annotation. cbn zeta. apply post_skip. intros t.
  assert (B : post g2 (let* r := walk (object_item tfn n (parent +s+ py_capitalize target) fields) sels ([], [], [doc_stmt desc; t]) in
      let '(classes, bases, body) := r in
      let* add := match bases with
                  | [] => get_additional_bases_for_type c n
                  | _ => ret (map EName bases)
                  end in
      let* cfg := generate_pydantic_config (KT KObject) c None in
      let* e := optional_if o (ret (EName (parent +s+ py_capitalize target))) in
      ret (classes ++ [SClass (parent +s+ py_capitalize target) (add ++ names_of (c_object_bases c)) (body ++ cfg) []], e))).
  { eapply post_bind.
    { apply (post_walk g3); [constructor|]. intros l x a E Hx Ha. apply post_object_item; [eapply H; eauto|exact Ha]. }
    intros [[classes bases] body] G1. apply post_skip. intros add. apply post_skip. intros cfg.
    apply post_skip. intros e. apply post_ret. unfold g2. cbn [fst] in *. apply goods_one; [exact G1|apply in_general]. }
  destruct (option_map non_typename sels) as [[|[g|f ds|cond ds l] [|y l']]|]; try exact B.
  apply post_skip. intros i. apply post_skip. intros e. apply post_skip. intros e'. apply post_ret. constructor.
Qed.
Lemma post_named : forall tfn parent target sels n o, all_deep (gsel tfn) sels ->
  post g2 (named_annotation c st s tfn parent target sels n o).
Proof.
  intros tfn parent target sels n o H. unfold named_annotation. destruct (get_type s n) as [[]|]; try apply post_raise.
  - apply post_skip. intros e. apply post_ret. constructor.
  - apply post_skip. intros e. apply post_ret. constructor.
  - now apply post_object.
  - now apply post_interface.
  - now apply post_union.
Qed.
Lemma post_wrap : forall (named : string -> bool -> M (list stmt * expr)), (forall n o, post g2 (named n o)) ->
  forall t o, post g2 (wrap_annotation c named t o).
Proof.
  intros named H t. induction t as [n|t IH|t IH]; intros o; cbn [wrap_annotation]; [apply H| |apply IH].
  apply post_skip. intros _. apply post_skip. intros _. eapply post_bind; [apply IH|]. intros r Hr. now apply post_ret.
Qed.
Lemma post_tfn : forall f, gsel (type_field_node c st s) f.
Proof.
  assert (STEP : forall a n ar ds sels, all_deep (gsel (type_field_node c st s)) sels -> gsel (type_field_node c st s) (FieldNode a n ar ds sels)).
  { intros a n ar ds sels H parent fd. rewrite tfn_eq. cbn zeta. eapply post_bind; [apply post_wrap; intros; now apply post_named|].
    intros r Hr. apply post_skip. intros body. apply post_ret. exact Hr. }
  apply fieldnode_rect'; [intros; apply STEP; intros l x [=]|intros a n ar ds l HL; apply STEP; intros l' x [= <-]; apply HL].
Qed.
Lemma all_gsel : forall sels, all_deep (gsel (type_field_node c st s)) sels.
Proof. intros sels l [g|f ds|cond ds m] E Hx; cbn; auto using post_tfn. Qed.

(** ** operations *)
Lemma post_operation : forall pc po add doc_of o, incl [o_query_bases pc; o_mutation_bases pc; o_subscription_bases pc] own -> post goods (generate_operation c st s pc po add doc_of o).
Proof.
  intros pc po add doc_of o HI. unfold generate_operation. apply post_skip. intros name.
  apply (post_bind (fun cb => In B0 (snd cb))).
  { unfold operation_class. destruct (op_kind o); apply post_skip; intros n; (eapply post_bind; [apply post_own; apply HI; cbn; auto|]); intros es He; apply post_ret; exact He. }
  intros cb Hcb. apply post_skip. intros root. cbn zeta.
  eapply (post_bind g2).
  { apply post_mfold; [|constructor]. intros acc [g|f ds|cond ds m] _ A1; cbn [root_item]; try apply post_raise.
    apply post_opt. intros fd _. eapply post_bind; [apply post_tfn|]. intros res R1. apply post_ret. now apply goods_app. }
  intros acc A1. do 3 (apply post_skip; intros ?). apply post_skip. intros cfg. apply post_ret. apply goods_one; assumption.
Qed.
(** ** fragments *)
(** a class without the base class inherits it from another class of the module *)
Definition rooted (l : list stmt) (x : stmt) : Prop :=
  good x \/ exists n m body b body', x = SClass n [EName m] body [] /\ In (SClass m b body' []) l /\ In B0 b.
Lemma rooted_incl : forall l l' x, incl l l' -> rooted l x -> rooted l' x.
Proof. intros l l' x H [G|(n & m & body & b & body' & E & I & G)]; [now left|]. right. exists n, m, body, b, body'. auto. Qed.
Definition rooteds (l : list stmt) : Prop := Forall (rooted l) l.
Lemma goods_rooteds : forall l, goods l -> rooteds l.
Proof. intros l H. apply (Forall_impl (rooted l)) in H; [exact H|]. intros x G. now left. Qed.
Lemma post_interface_fragment : forall pc f d fields, post rooteds (interface_fragment c st s pc f d fields).
Proof.
  intros pc f d fields. unfold interface_fragment. cbn zeta. apply post_skip. intros add. eapply post_bind.
  { apply (post_walk gparts); [constructor|]. intros l x a E Hx Ha. apply post_iface_item; [apply (all_gsel (Some (fr_sels f)) l x E Hx)|exact Ha]. }
  intros p Hp. eapply post_bind; [apply post_interface_bases|]. intros ib Hib. apply post_skip. intros t.
  eapply post_bind; [apply post_mmap; intros i _; now apply post_implementing|]. intros impls Hi. apply post_skip. intros _. apply post_ret.
  assert (G : In B0 (add ++ ib)) by (apply in_or_app; now right). unfold rooteds. apply Forall_app. split; [|cbn [app]; constructor; [|constructor]].
  - apply (Forall_impl (P := good)); [|exact Hp]. intros x G'. now left.
  - left. exact G.
  - right. do 5 eexists. split; [reflexivity|]. split; [apply in_or_app; right; left; reflexivity|exact G].
  - apply (Forall_impl (P := good)); [|exact Hi]. intros x G'. now left.
Qed.
Lemma post_object_fragment : forall pc pf add f cls d, post goods (object_fragment c st s pc pf add f cls d).
Proof.
  intros pc pf add f cls d. unfold object_fragment. apply post_skip. intros ab. apply post_skip. intros t.
  eapply (post_bind g3).
  { apply post_mfold; [|constructor]. intros [[a b] e] [g|h ds|cond ds m] _ A1; cbn [object_fragment_item].
    - destruct (String.eqb _ _); [apply post_ret; exact A1|]. apply post_opt. intros fd _. eapply post_bind; [apply post_tfn|].
      intros res R1. apply post_ret. now apply goods_app.
    - apply post_skip. intros m. apply post_skip. intros b'. apply post_ret. exact A1.
    - apply post_ret. exact A1. }
  intros [[classes bases] fields] G1. apply post_skip. intros meta. eapply post_bind; [apply (post_fragment_bases pc true)|]. intros fb Hfb. apply post_skip. intros cfg. apply post_ret.
  apply goods_one; [exact G1|]. apply in_or_app. now right.
Qed.
Lemma post_union_fragment : forall pc f d ms, post goods (union_fragment c st s pc f d ms).
Proof.
  intros pc f d ms. unfold union_fragment. cbn zeta. apply post_skip. intros _. eapply post_bind.
  { apply (post_walk gparts); [constructor|].
    intros l [g|h ds|cond ds m] p _ _ P1; cbn [union_fragment_item]; [apply post_raise| |].
    - apply post_skip. intros m. apply post_ret. exact P1.
    - apply post_opt. intros on _. eapply (post_bind g3).
      { apply post_mfold; [|constructor]. intros [[a b] e] [g|h ds'|cond' ds' m'] _ A1; cbn [union_inline].
        - destruct (String.eqb _ _); [apply post_ret; exact A1|]. apply post_opt. intros t _. apply post_opt. intros fd _.
          eapply post_bind; [apply post_tfn|]. intros res R1. apply post_ret. now apply goods_app.
        - apply post_ret. exact A1.
        - apply post_ret. exact A1. }
      intros [[classes bases] fields] G1. apply post_ret. now apply goods_app. }
  intros p P1. eapply post_bind.
  { apply (post_mmap good). intros i _. eapply post_bind; [apply (post_fragment_bases pc false)|]. intros fb Hfb. apply post_skip. intros t. apply post_ret.
    cbn [good]. apply in_or_app. now right. }
  intros classes Hc. apply post_skip. intros _. apply post_skip. intros _. apply post_ret. apply goods_app; [exact P1|]. apply goods_app; [exact Hc|].
  apply goods_app; [repeat constructor|]. destruct (_ && _); repeat constructor.
Qed.
Lemma post_fragment : forall pc pf add f, post rooteds (generate_fragment c st s pc pf add f).
Proof.
  intros pc pf add f. unfold generate_fragment. apply post_opt. intros t _. apply post_skip. intros name. apply post_skip. intros _.
  apply post_skip. intros _. destruct t; try apply post_raise.
  - eapply post_weaken; [apply post_object_fragment|exact goods_rooteds].
  - apply post_interface_fragment.
  - eapply post_weaken; [apply post_union_fragment|exact goods_rooteds].
Qed.
Lemma concat_rooteds : forall ls, Forall rooteds ls -> rooteds (List.concat ls).
Proof.
  intros ls H. unfold rooteds. apply Forall_concat. apply Forall_forall. intros l Hl. rewrite Forall_forall in H. apply (Forall_impl (P := rooted l)); [|exact (H l Hl)].
  intros x. apply rooted_incl. intros y Hy. apply in_concat. eauto.
Qed.
Lemma post_fragments : forall pc pf add d, post rooteds (fragments_plugin c st s pc pf add d).
Proof.
  intros pc pf add d. unfold fragments_plugin. apply post_skip. intros fs r ys r' H. apply mconcat_ok in H as (ls & H & ->). apply concat_rooteds.
  eapply post_mmap in H; [exact H|]. intros f _. apply post_fragment.
Qed.
Lemma post_operations : forall pc po add doc_of d, incl [o_query_bases pc; o_mutation_bases pc; o_subscription_bases pc] own -> post goods (operations_plugin c st s pc po add doc_of d).
Proof. intros. unfold operations_plugin. apply post_mconcat. intros. now apply post_operation. Qed.
Lemma rooted_inherits : forall l n b body d, rooted l (SClass n b body d) -> In (SClass n b body d) l -> inherits l (last_comp b0) n.
Proof.
  intros l n b body d [G|(n' & m & body1 & b' & body' & E & I & G)] H.
  - eapply inherits_own; [exact H|exact G].
  - injection E as -> -> -> ->. eapply inherits_base; [exact H|now left|]. eapply inherits_own; [exact I|exact G].
Qed.
End Models.
Lemma models_based : forall c st s d pc pf addt oc po doc_of r lf r1 lo r2 b, general_base c [o_query_bases oc; o_mutation_bases oc; o_subscription_bases oc] b ->
  fragments_plugin c st s pc pf addt d r = (Ok lf, r1) -> operations_plugin c st s oc po addt doc_of d r1 = (Ok lo, r2) ->
  forall n bases body decs, In (SClass n bases body decs) (lf ++ lo) -> inherits (lf ++ lo) (last_comp b) n.
Proof.
  intros c st s d pc pf addt oc po doc_of r lf r1 lo r2 b HG H1 H2 n bases body decs H. apply (post_fragments c st s b _ HG) in H1. apply (post_operations c st s b _ HG) in H2; [|apply incl_refl].
  eapply rooted_inherits; [|exact H]. apply in_app_or in H as [H|H].
  - eapply rooted_incl; [apply incl_appl; apply incl_refl|]. unfold rooteds in H1. rewrite Forall_forall in H1. exact (H1 _ H).
  - left. rewrite Forall_forall in H2. exact (H2 _ H).
Qed.
