(** Names looked up by calls. *)
From Verif Require Import Base PyAst Gql Config Stylers Registry Utils Documents Inline Referencer Enums Inputs Recurse Fragments Operations Objects Funcs InputFuncs Run
  Spec_Types Spec_Inputs Spec_Imports Spec_Scope Spec_Refs Spec_Funcs Spec_Classes Spec_Calls
  P_Base P_Monad P_Stylers P_Inputs P_Annot P_Recurse P_Fields P_Post P_Imports P_InlineProps P_Return P_Scope P_Classes.

(** ** A check that paths obey *)
Fixpoint uses (x : stmt) : list string :=
  match x with
  | SAnn _ _ v => opt_loads v
  | SAssign (EName _) v => loads v
  | SAssign t v => loads v ++ loads t
  | SExpr e | SRaise e => loads e
  | SReturn e => opt_loads e
  | SIf t b => loads t ++ flat_map uses b
  | SFor _ ns it b => loads it ++ filter (fun n => negb (mem n ns)) (flat_map uses b)
  | _ => []
  end.
Definition sets (x : stmt) : list string :=
  match x with SAnn n _ (Some _) => [n] | SAssign (EName n) _ => [n] | _ => [] end.
Section Check.
Variables (L : list string) (G : string -> Prop).
Definition okn (have : list string) (n : string) : Prop := In n have \/ (~ In n L /\ G n).
Lemma okn_incl : forall h h' n, incl h h' -> okn h n -> okn h' n.
Proof. intros h h' n I [H|H]; [left; auto|right; auto]. Qed.
Fixpoint checked (have : list string) (l : list stmt) : Prop :=
  match l with [] => True | x :: l => (forall n, In n (uses x) -> okn have n) /\ checked (sets x ++ have) l end.
Lemma in_order_incl : forall e h h', incl h h' -> in_order L G h e -> in_order L G h' e.
Proof.
  induction e as [|[n|n] e IH]; intros h h' I H; [exact H| |]; cbn in *.
  - destruct H as (H1 & H2). split; [now apply (okn_incl h)|eauto].
  - eapply IH; [|exact H]. intros m [->|Hm]; [now left|right; auto].
Qed.
Lemma in_order_app : forall e e' h, in_order L G h e -> in_order L G h e' -> in_order L G h (e ++ e').
Proof.
  induction e as [|[n|n] e IH]; intros e' h H H'; [exact H'| |]; cbn in *.
  - destruct H as (H1 & H2). auto.
  - apply IH; [exact H|]. eapply in_order_incl; [|exact H']. intros m; now right.
Qed.
Lemma in_order_looks : forall l h, (forall n, In n l -> okn h n) -> in_order L G h (looks l).
Proof. induction l as [|n l IH]; intros h H; [exact I|]. cbn. split; [apply H; now left|apply IH; intros m Hm; apply H; now right]. Qed.
Lemma in_order_binds : forall ns e h, in_order L G (rev ns ++ h) e -> in_order L G h (map Bind ns ++ e).
Proof. induction ns as [|n ns IH]; intros e h H; [exact H|]. cbn in *. apply IH. now rewrite <- app_assoc in H. Qed.
Lemma in_order_look_app : forall l e h, (forall n, In n l -> okn h n) -> in_order L G h e -> in_order L G h (looks l ++ e).
Proof. intros. apply in_order_app; [now apply in_order_looks|assumption]. Qed.
Scheme path_m := Induction for path Sort Prop with rounds_m := Induction for rounds Sort Prop.
Lemma block_ordered : forall l e, path l e -> forall h, (forall n, In n (flat_map uses l) -> okn h n) -> in_order L G h e.
Proof.
  apply (path_m (fun l e _ => forall h, (forall n, In n (flat_map uses l) -> okn h n) -> in_order L G h e)
                (fun ns b e _ => forall h, (forall n, In n (flat_map uses b) -> In n ns \/ okn h n) -> in_order L G h e)); cbn [flat_map uses];
    try (intros; try (apply in_order_look_app; [intros m Hm; auto with datatypes|]); auto with datatypes; fail).
  - intros; exact I.
  - intros n a v l e _ IH h H. apply in_order_look_app; [auto with datatypes|]. cbn. apply IH. intros m Hm. apply (okn_incl h); [intros k; now right|auto with datatypes].
  - intros n v l e _ IH h H. apply in_order_look_app; [auto with datatypes|]. cbn. apply IH. intros m Hm. apply (okn_incl h); [intros k; now right|auto with datatypes].
  - intros t v l e N _ IH h H. assert (E : uses (SAssign t v) = loads v ++ loads t) by (destruct t; try reflexivity; now destruct (N id)). cbn [uses] in E. rewrite E in H.
    apply in_order_look_app; [auto 6 with datatypes|]. apply in_order_look_app; [auto 6 with datatypes|]. auto with datatypes.
  - intros t b l e _ IH h H. apply in_order_look_app; [auto 6 with datatypes|]. auto with datatypes.
  - intros t b l e1 e _ IH1 _ IH h H. apply in_order_look_app; [auto 6 with datatypes|]. apply in_order_app; [apply IH1; auto 6 with datatypes|auto with datatypes].
  - intros a ns it b l e1 e _ IH1 _ IH h H. apply in_order_look_app; [auto 6 with datatypes|]. apply in_order_app; [apply IH1|auto with datatypes].
    intros n Hn. destruct (mem n ns) eqn:M; [left; now apply mem_In|right]. apply H. rewrite !in_app_iff. left; right. apply filter_In. split; [exact Hn|now rewrite M].
  - intros; exact I.
  - intros ns b e1 e2 _ IH1 _ IH2 h H. apply in_order_binds. apply in_order_app.
    + apply IH1. intros n Hn. destruct (H n Hn) as [Y|Y]; [left; apply in_app_iff; left; now apply -> in_rev|]. apply (okn_incl h); [apply incl_appr, incl_refl|exact Y].
    + eapply in_order_incl; [|apply IH2; exact H]. apply incl_appr, incl_refl.
Qed.
Lemma checked_ordered : forall l e, path l e -> forall h, checked h l -> in_order L G h e.
Proof.
  intros l e H. induction H; intros h C; cbn [checked uses sets] in C; try destruct C as (C1 & C2); cbn [sets app] in *;
    try (repeat (apply in_order_look_app; [now auto with datatypes|]); now auto);
    try (apply in_order_look_app; [exact C1|now apply IHpath]).
  - assert (E : uses (SAssign t v) = loads v ++ loads t) by (destruct t; try reflexivity; now destruct (H id)). cbn [uses] in E. rewrite E in C1.
    apply in_order_look_app; [auto with datatypes|]. apply in_order_look_app; [auto with datatypes|]. apply IHpath. destruct t; try exact C2. now destruct (H id).
  - apply in_order_look_app; [auto with datatypes|]. apply in_order_app; [|auto]. apply (block_ordered _ _ H). auto with datatypes.
  - assert (P : path [SFor a ns it b] (looks (loads it) ++ e1 ++ [])) by (constructor; [assumption|constructor]). rewrite app_nil_r in P.
    rewrite app_assoc. apply in_order_app; [|auto]. apply (block_ordered _ _ P). cbn [flat_map uses]. rewrite app_nil_r. exact C1.
Qed.
End Check.
Lemma checked_callable : forall G a n args body ret decs,
  checked (map pa_name (a_args args) ++ flat_map assigns body) G (map pa_name (a_args args)) body -> callable G (SFunc a n args body ret decs).
Proof. intros G a n args body ret decs H e P. eapply checked_ordered; eassumption. Qed.
Lemma callable_mono : forall (G G' : string -> Prop) f, (forall n, G n -> G' n) -> callable G f -> callable G' f.
Proof.
  intros G G' f I H. destruct f; try exact Logic.I. cbn in *. intros e P. specialize (H e P). revert H. generalize (map pa_name (a_args args)) at 2 4. clear P.
  induction e as [|[n|n] e IH]; intros h H; [exact H| |]; cbn in *; [|now apply IH]. destruct H as (H1 & H2). split; [|now apply IH]. destruct H1 as [Y|(Y1 & Y2)]; auto.
Qed.

(** ** Modules without functions of their own *)
Fixpoint good (x : stmt) : Prop :=
  match x with
  | SFunc _ _ _ _ _ _ => forall G, callable G x
  | SClass _ _ body _ => (fix all (l : list stmt) : Prop := match l with [] => True | y :: r => good y /\ all r end) body
  | _ => True
  end.
Notation goods := (Forall good).
Lemma good_class : forall n b body d, good (SClass n b body d) <-> goods body.
Proof.
  intros n b body d. cbn [good]. induction body as [|y l IH]; [split; constructor|]. split.
  - intros [H1 H2]. constructor; [exact H1|]. now apply IH.
  - intros H. inversion H; subst. split; [assumption|]. now apply IH.
Qed.
Lemma good_functions : forall l f, goods l -> In f (flat_map functions_of l) -> forall G, callable G f.
Proof.
  assert (H : forall x f, good x -> In f (functions_of x) -> forall G, callable G f).
  { fix IH 1. intros [ | | |n b body d| | | | | | | | | | ] f H Hf; try destruct Hf.
    - cbn [good] in H. cbn [functions_of] in Hf. induction body as [|y l IHl]; [destruct Hf|]. destruct H as [Hy Hl]. cbn [flat_map] in Hf. apply in_app_or in Hf as [Hf|Hf].
      + exact (IH y f Hy Hf).
      + exact (IHl Hl Hf).
    - subst f. exact H.
    - contradiction. }
  intros l f HL Hf. apply in_flat_map in Hf as (x & Hx & Hf). rewrite Forall_forall in HL. eapply H; eauto.
Qed.
Lemma good_post_init : forall ds, good (post_init ds).
Proof.
  intros ds G. apply checked_callable. cbn. split; [|exact I]. rewrite app_nil_r. intros n [<-|Hn]; [left; now left|]. exfalso. induction ds as [|d ds IH]; [exact Hn|]. apply IH. exact Hn.
Qed.
Section Walk.
Variable st : list styler.
(** ** pieces *)
Lemma good_doc : forall d, good (docstring d).
Proof. intros. exact I. Qed.
Variable c : gconfig.
Variable s : schema.
Lemma post_config : forall k t, post goods (generate_pydantic_config k c t).
Proof.
  intros k t r a r' H. unfold generate_pydantic_config in H. destruct (String.eqb _ _).
  - unfold generate_config_dict in H. cbn zeta in H. destruct (_ ++ _ ++ _); minv; repeat constructor.
  - minv. unfold generate_config_class_pydantic. destruct (_ ++ _ ++ _) as [|kv l]; constructor; [|constructor].
    apply good_class. constructor; [exact I|]. apply Forall_forall. intros x Hx. apply in_map_iff in Hx as (y & <- & _). exact I.
Qed.
Lemma post_typename : forall n, post good (generate_typename_field c n).
Proof. intros n r a r' H. unfold generate_typename_field in H. minv. exact I. Qed.
Lemma post_generic_typename : post good (generate_generic_typename_field c).
Proof. intros r a r' H. unfold generate_generic_typename_field in H. minv. exact I. Qed.
Lemma post_field_statements : forall k fd a, post goods (field_statements c st k fd a).
Proof.
  intros k fd a r l r' H. unfold field_statements in H. cbn zeta in H.
  apply bind_ok in H as (a' & r1 & H1 & H). apply bind_ok in H as (u & r2 & H2 & H). apply ret_ok in H as [-> ->].
  constructor; [exact I|destruct (compose_field_documentation _ _ _ _); repeat constructor].
Qed.
Lemma post_argument : forall v, post good (argument_field c st v).
Proof.
  intros v r x r' H. unfold argument_field in H. cbn zeta in H. repeat (apply bind_ok in H as (? & ? & _ & H)). apply ret_ok in H as [-> _].
  exact I.
Qed.

(** ** selections *)
Definition gsel (tfn : typer) (f : fieldnode) : Prop := forall parent fd, post (fun res => goods (fst res) /\ goods (snd res)) (tfn f parent fd).
Lemma post_walk : forall {A} (Q : A -> Prop) (item : A -> selection -> M A) sels a,
  Q a -> (forall l x a, sels = Some l -> In x l -> Q a -> post Q (item a x)) -> post Q (walk item sels a).
Proof.
  intros A Q item [l|] a Ha H; [|now apply post_ret]. unfold walk. apply post_mfold; [|exact Ha]. intros b x Hx Hb.
  destruct (is_typename_field x); [now apply post_ret|]. eapply H; eauto.
Qed.
Definition g3 {B} (acc : list stmt * B * list stmt) : Prop := goods (fst (fst acc)) /\ goods (snd acc).
Definition g2 {B} (acc : list stmt * B) : Prop := goods (fst acc).
Lemma goods_app : forall a b, goods a -> goods b -> goods (a ++ b).
Proof. intros. now apply Forall_app. Qed.
Lemma post_inline_item : forall tfn cls on acc x, (forall g, x = SelField g -> gsel tfn g) -> g3 acc -> post g3 (inline_item s tfn cls on acc x).
Proof.
  intros tfn cls on [[a b] d] [g|n ds|cond ds l] H [Ha Hd]; cbn [inline_item].
  - destruct (String.eqb _ _); [apply post_ret; split; assumption|]. destruct (get_type s on) as [[]|]; try apply post_raise.
    apply post_opt. intros fd _. eapply post_bind; [apply H; reflexivity|]. intros res [R1 R2]. apply post_ret. split; now apply goods_app.
  - apply post_skip. intros i. destruct i; [apply post_raise|]. apply post_skip. intros b'. apply post_ret. split; assumption.
  - apply post_ret. split; assumption.
Qed.
Lemma post_union_item : forall tfn parent acc x, deep (gsel tfn) x -> g2 acc -> post g2 (union_item c s tfn parent acc x).
Proof.
  intros tfn parent [a b] [g|n ds|cond ds l] H Ha; cbn [union_item]; cbn in H.
  - now apply post_ret.
  - apply post_skip. intros. now apply post_ret.
  - apply post_opt. intros on _. cbn zeta. apply (post_bind g3).
    { apply post_mfold; [|split; constructor]. intros a' x Hx Ha'. apply post_inline_item; [|exact Ha']. intros g ->. auto. }
    intros [[nested bases] fields] [G1 G2]. apply (post_bind goods).
    { destruct bases; [|apply post_ret; exact G2]. eapply post_bind; [apply post_typename|]. intros t Ht. apply post_ret. now constructor. }
    intros body Hb. apply post_skip. intros add. eapply post_bind; [apply post_config|]. intros cfg Hc. apply post_ret.
    unfold g2. cbn [fst] in *. apply goods_app; [exact Ha|]. apply goods_app; [exact G1|]. constructor; [|constructor]. apply good_class.
    assert (G := goods_app _ _ Hb Hc). destruct (body ++ cfg); [repeat constructor|exact G].
Qed.
Lemma post_union : forall tfn parent sels o, all_deep (gsel tfn) sels -> post g2 (union_annotation c s tfn parent sels o).
Proof.
  intros tfn parent sels o H. unfold union_annotation. eapply post_bind.
  - apply (post_walk g2); [constructor|]. intros l x a E Hx Ha. apply post_union_item; [eapply H; eauto|exact Ha].
  - intros [classes names] G. destruct names as [|n [|m names]]; [apply post_raise|now apply post_ret|].
    apply post_skip. intros _. apply post_skip. intros e. now apply post_ret.
Qed.
Definition gparts (p : iparts) : Prop := goods (ip_classes p) /\ goods (ip_fields p) /\ forall i, goods (dget_list i (ip_inline p)).
Lemma goods_dextend : forall k l d, goods l -> (forall i, goods (dget_list i d)) -> forall i, goods (dget_list i (dextend k l d)).
Proof.
  intros k l d Hl Hd i. unfold dget_list, dextend. destruct (dget k d) eqn:G; rewrite dget_dset; destruct (String.eqb_spec i k) as [->|N].
  - apply goods_app; [|exact Hl]. specialize (Hd k). unfold dget_list in Hd. now rewrite G in Hd.
  - apply Hd.
  - exact Hl.
  - apply Hd.
Qed.
Lemma post_inline_fields : forall tfn strict parent on sub, (forall g, In (SelField g) sub -> gsel tfn g) ->
  post (fun r => goods (fst r) /\ goods (snd r)) (inline_fields s tfn strict parent on sub).
Proof.
  intros tfn strict parent on sub H. unfold inline_fields. apply post_mfold; [|split; constructor].
  intros acc [g|n d|cond d l] Hx Ha; try now apply post_ret. destruct (String.eqb _ _); [now apply post_ret|].
  apply post_opt. intros fd _. eapply post_bind; [apply H; exact Hx|]. intros res [R1 R2]. apply post_ret.
  destruct Ha. split; now apply goods_app.
Qed.
Lemma post_iface_item : forall tfn strict fields parent p x, deep (gsel tfn) x -> gparts p -> post gparts (iface_item s tfn strict fields parent p x).
Proof.
  intros tfn strict fields parent p [g|n ds|cond ds l] H (P1 & P2 & P3); cbn [iface_item]; cbn in H.
  - apply post_opt. intros fd _. eapply post_bind; [apply H|]. intros res [R1 R2]. apply post_ret.
    split; [now apply goods_app|]. split; [now apply goods_app|exact P3].
  - apply post_skip. intros b. apply post_ret. repeat split; assumption.
  - apply post_opt. intros on _. apply post_skip. intros _. eapply post_bind; [apply post_inline_fields; exact H|].
    intros res [R1 R2]. apply post_ret. split; [now apply goods_app|]. split; [exact P2|]. now apply goods_dextend.
Qed.
Lemma post_implementing : forall m n p i, gparts p -> post good (implementing_class c s m n p i).
Proof.
  intros m n p i (_ & _ & P3). unfold implementing_class. apply post_skip. intros add. apply post_skip. intros ib.
  eapply post_bind; [apply post_typename|]. intros t Ht. apply post_ret. apply good_class. constructor; [exact I|]. now constructor.
Qed.
Lemma post_interface : forall tfn parent target n desc fields sels o, all_deep (gsel tfn) sels ->
  post g2 (interface_annotation c s tfn parent target n desc fields sels o).
Proof.
  intros tfn parent target n desc fields sels o H. unfold interface_annotation. cbn zeta. eapply post_bind.
  { apply (post_walk gparts); [split; [constructor|split; [constructor; [exact I|constructor]|intros; constructor]]|].
    intros l x a E Hx Ha. apply post_iface_item; [eapply H; eauto|exact Ha]. }
  intros p Hp. apply post_skip. intros add. apply post_skip. intros ib. eapply post_bind; [apply post_config|]. intros cfg Hc.
  eapply post_bind; [apply post_mmap; intros i _; now apply post_implementing|]. intros impls Hi. apply post_skip. intros _. apply post_skip. intros _.
  apply (post_bind g2).
  { apply post_if; [|apply post_ret; constructor]. apply post_skip. intros ib'. eapply post_bind; [apply post_generic_typename|]. intros t Ht.
    apply post_skip. intros _. apply post_ret. constructor; [|constructor]. apply good_class. constructor; [exact I|]. constructor; [exact Ht|constructor]. }
  intros rest Hr. apply post_skip. intros e. apply post_skip. intros _. apply post_ret. destruct Hp as (P1 & P2 & P3).
  unfold g2. cbn [fst]. apply goods_app; [exact P1|]. apply goods_app; [constructor; [apply good_class; now apply goods_app|constructor]|].
  now apply goods_app.
Qed.
Lemma post_object_item : forall tfn n cls fields acc x, deep (gsel tfn) x -> g3 acc -> post g3 (object_item tfn n cls fields acc x).
Proof.
  intros tfn n cls fields [[a b] d] [g|f ds|cond ds l] H [Ha Hd]; cbn [object_item]; cbn in H.
  - destruct (String.eqb _ _); [apply post_ret; split; assumption|]. apply post_opt. intros fd _. eapply post_bind; [apply H|].
    intros res [R1 R2]. apply post_ret. split; now apply goods_app.
  - apply post_skip. intros i. apply post_skip. intros b'. apply post_ret. split; assumption.
  - apply post_raise.
Qed.
Lemma post_object : forall tfn parent target n desc fields sels o, all_deep (gsel tfn) sels ->
  post g2 (object_annotation c st tfn parent target n desc fields sels o).
Proof.
  intros tfn parent target n desc fields sels o H. unfold object_annotation. cbn zeta. eapply post_bind; [apply post_typename|]. intros t Ht.
  assert (B : post g2 (let* r := walk (object_item tfn n (parent +s+ py_capitalize target) fields) sels ([], [], [doc_stmt desc; t]) in
      let '(classes, bases, body) := r in
      let* add := match bases with
                  | [] => get_additional_bases_for_type c n
                  | _ => ret (map EName bases)
                  end in
      let* cfg := generate_pydantic_config (KT KObject) c None in
      let* e := optional_if o (ret (EName (parent +s+ py_capitalize target))) in
      ret (classes ++ [SClass (parent +s+ py_capitalize target) (add ++ names_of (c_object_bases c)) (body ++ cfg) []], e))).
  { eapply post_bind.
    { apply (post_walk g3); [split; [constructor|constructor; [exact I|constructor; [exact Ht|constructor]]]|].
      intros l x a E Hx Ha. apply post_object_item; [eapply H; eauto|exact Ha]. }
    intros [[classes bases] body] [G1 G2]. apply post_skip. intros add. eapply post_bind; [apply post_config|]. intros cfg Hc.
    apply post_skip. intros e. apply post_ret. unfold g2. cbn [fst] in *. apply goods_app; [exact G1|]. constructor; [|constructor].
    apply good_class. now apply goods_app. }
  destruct (option_map non_typename sels) as [[|[g|f ds|cond ds l] [|y l']]|]; try exact B.
  apply post_skip. intros i. apply post_skip. intros e. apply post_skip. intros e'. apply post_ret. constructor.
Qed.
Lemma post_named : forall tfn parent target sels n o, all_deep (gsel tfn) sels ->
  post g2 (named_annotation c st s tfn parent target sels n o).
Proof.
  intros tfn parent target sels n o H. unfold named_annotation. destruct (get_type s n) as [[]|]; try apply post_raise.
  - apply post_skip. intros e. apply post_ret. constructor.
  - apply post_skip. intros e. apply post_ret. constructor.
  - now apply post_object.
  - now apply post_interface.
  - now apply post_union.
Qed.
Lemma post_wrap : forall (named : string -> bool -> M (list stmt * expr)), (forall n o, post g2 (named n o)) ->
  forall t o, post g2 (wrap_annotation c named t o).
Proof.
  intros named H t. induction t as [n|t IH|t IH]; intros o; cbn [wrap_annotation]; [apply H| |apply IH].
  apply post_skip. intros _. apply post_skip. intros _. eapply post_bind; [apply IH|]. intros r Hr. now apply post_ret.
Qed.
Lemma post_tfn : forall f, gsel (type_field_node c st s) f.
Proof.
  assert (STEP : forall a n ar ds sels, all_deep (gsel (type_field_node c st s)) sels -> gsel (type_field_node c st s) (FieldNode a n ar ds sels)).
  { intros a n ar ds sels H parent fd. rewrite tfn_eq. cbn zeta. eapply post_bind; [apply post_wrap; intros; now apply post_named|].
    intros r Hr. eapply post_bind; [apply post_field_statements|]. intros body Hb. apply post_ret. split; assumption. }
  apply fieldnode_rect'; [intros; apply STEP; intros l x [=]|intros a n ar ds l HL; apply STEP; intros l' x [= <-]; apply HL].
Qed.
Lemma all_gsel : forall sels, all_deep (gsel (type_field_node c st s)) sels.
Proof. intros sels l [g|f ds|cond ds m] E Hx; cbn; auto using post_tfn. Qed.

(** ** operations *)
Lemma post_operation : forall pc po add doc_of o, post goods (generate_operation c st s pc po add doc_of o).
Proof.
  intros pc po add doc_of o. unfold generate_operation. apply post_skip. intros name. apply post_skip. intros cb. apply post_skip. intros root. cbn zeta.
  eapply (post_bind (fun acc => goods (fst acc) /\ Forall goods (snd acc))).
  { apply post_mfold; [|split; constructor]. intros acc [g|f ds|cond ds m] _ [A1 A2]; cbn [root_item]; try apply post_raise.
    apply post_opt. intros fd _. eapply post_bind; [apply post_tfn|]. intros res [R1 R2]. apply post_ret. split; [now apply goods_app|].
    apply Forall_app. split; [exact A2|now constructor]. }
  intros acc [A1 A2]. apply post_skip. intros _. apply post_skip. intros doc. apply (post_bind goods).
  { unfold arguments_class. destruct (o_create_arguments pc); [|apply post_ret; constructor].
    eapply post_bind; [apply post_mmap; intros v _; apply post_argument|]. intros fs Hf. apply (post_bind goods).
    { unfold generate_arguments_config. apply post_skip. intros _. apply post_ret. repeat constructor. }
    intros cfg Hc. apply post_skip. intros b. apply post_ret. constructor; [|constructor]. apply good_class. constructor; [exact I|]. now apply goods_app. }
  intros args Ha. eapply post_bind; [apply post_config|]. intros cfg Hc. apply post_ret. apply goods_app; [exact A1|]. constructor; [|constructor].
  apply good_class. apply goods_app; [repeat constructor|]. apply goods_app; [now apply Forall_concat|]. apply goods_app; [exact Ha|].
  apply goods_app; [|exact Hc]. constructor; [|constructor]. apply good_class. destruct (truthy _); repeat constructor.
Qed.
Lemma post_operations : forall pc po add doc_of d, post goods (operations_plugin c st s pc po add doc_of d).
Proof. intros. unfold operations_plugin. apply post_mconcat. intros. apply post_operation. Qed.

(** ** fragments *)
Lemma post_interface_fragment : forall pc f d fields, post goods (interface_fragment c st s pc f d fields).
Proof.
  intros pc f d fields. unfold interface_fragment. cbn zeta. apply post_skip. intros add. eapply post_bind.
  { apply (post_walk gparts); [split; [constructor|split; [constructor; [exact I|constructor]|intros; constructor]]|].
    intros l x a E Hx Ha. apply post_iface_item; [apply (all_gsel (Some (fr_sels f)) l x E Hx)|exact Ha]. }
  intros p Hp. apply post_skip. intros ib. eapply post_bind; [apply post_generic_typename|]. intros t Ht.
  eapply post_bind; [apply post_mmap; intros i _; now apply post_implementing|]. intros impls Hi. apply post_skip. intros _. apply post_ret.
  destruct Hp as (P1 & P2 & P3). apply goods_app; [exact P1|]. apply goods_app; [|exact Hi].
  constructor; [now apply good_class|]. constructor; [|constructor]. apply good_class. constructor; [exact I|]. constructor; assumption.
Qed.
Lemma post_object_fragment : forall pc pf add f cls d, post goods (object_fragment c st s pc pf add f cls d).
Proof.
  intros pc pf add f cls d. unfold object_fragment. apply post_skip. intros ab. eapply post_bind; [apply post_typename|]. intros t Ht.
  eapply (post_bind g3).
  { apply post_mfold; [|split; [constructor|constructor; [exact I|constructor; [exact Ht|constructor]]]].
    intros [[a b] e] [g|h ds|cond ds m] _ [A1 A2]; cbn [object_fragment_item].
    - destruct (String.eqb _ _); [apply post_ret; split; assumption|]. apply post_opt. intros fd _. eapply post_bind; [apply post_tfn|].
      intros res [R1 R2]. apply post_ret. split; now apply goods_app.
    - apply post_skip. intros m. apply post_skip. intros b'. apply post_ret. split; assumption.
    - apply post_ret. split; assumption. }
  intros [[classes bases] fields] [G1 G2]. apply (post_bind goods).
  { unfold fragment_meta. destruct (fr_meta pc); [|apply post_ret; constructor]. apply post_skip. intros doc. apply post_ret.
    constructor; [|constructor]. apply good_class. repeat constructor. }
  intros meta Hm. apply post_skip. intros fb. eapply post_bind; [apply post_config|]. intros cfg Hc. apply post_ret.
  apply goods_app; [exact G1|]. constructor; [|constructor]. apply good_class. apply goods_app; [exact G2|]. now apply goods_app.
Qed.
Lemma post_union_fragment : forall pc f d ms, post goods (union_fragment c st s pc f d ms).
Proof.
  intros pc f d ms. unfold union_fragment. cbn zeta. apply post_skip. intros _. eapply post_bind.
  { apply (post_walk gparts); [split; [constructor|split; [constructor|intros; constructor]]|].
    intros l [g|h ds|cond ds m] p _ _ (P1 & P2 & P3); cbn [union_fragment_item]; [apply post_raise| |].
    - apply post_skip. intros m. apply post_ret. split; [exact P1|]. split; [constructor|exact P3].
    - apply post_opt. intros on _. eapply (post_bind g3).
      { apply post_mfold; [|split; constructor]. intros [[a b] e] [g|h ds'|cond' ds' m'] _ [A1 A2]; cbn [union_inline].
        - destruct (String.eqb _ _); [apply post_ret; split; assumption|]. apply post_opt. intros t _. apply post_opt. intros fd _.
          eapply post_bind; [apply post_tfn|]. intros res [R1 R2]. apply post_ret. split; now apply goods_app.
        - apply post_ret. split; assumption.
        - apply post_ret. split; assumption. }
      intros [[classes bases] fields] [G1 G2]. apply post_ret. split; [now apply goods_app|]. split; [constructor|]. now apply goods_dextend. }
  intros p (P1 & P2 & P3). eapply post_bind.
  { apply (post_mmap good). intros i _. apply post_skip. intros fb. eapply post_bind; [apply post_typename|]. intros t Ht. apply post_ret.
    apply good_class. constructor; [exact Ht|apply P3]. }
  intros classes Hc. apply post_skip. intros _. apply post_skip. intros _. apply post_ret. apply goods_app; [exact P1|]. apply goods_app; [exact Hc|].
  apply goods_app; [repeat constructor|]. destruct (_ && _); repeat constructor.
Qed.
Lemma post_fragment : forall pc pf add f, post goods (generate_fragment c st s pc pf add f).
Proof.
  intros pc pf add f. unfold generate_fragment. apply post_opt. intros t _. apply post_skip. intros name. apply post_skip. intros _.
  apply post_skip. intros _. destruct t; try apply post_raise.
  - apply post_object_fragment.
  - apply post_interface_fragment.
  - apply post_union_fragment.
Qed.

Lemma post_fragments : forall pc pf add d, post goods (fragments_plugin c st s pc pf add d).
Proof. intros. unfold fragments_plugin. apply post_skip. intros fs. apply post_mconcat. intros. apply post_fragment. Qed.

(** ** object types *)
Lemma post_types : forall pc, post goods (generate_types c st s pc).
Proof.
  intros pc. unfold generate_types. apply post_skip. intros _. eapply (post_bind (fun x => goods (os_tree x))).
  { apply post_mfold; [|constructor]. intros x [key t] _ Hx. unfold object_step. apply post_skip. intros add. apply post_if; [now apply post_ret|].
    apply post_skip. intros cn. apply post_skip. intros ib. eapply post_bind.
    { apply (post_mconcat good). intros kv _. unfold object_field. apply post_skip. intros a. apply post_field_statements. }
    intros fs Hf. eapply post_bind; [apply post_config|]. intros cfg Hc. cbn zeta. apply post_ret. cbn [os_tree].
    apply goods_app; [exact Hx|]. constructor; [|constructor]. apply good_class. apply goods_app; [destruct (truthy _); repeat constructor|]. now apply goods_app. }
  intros x Hx. eapply post_bind.
  { apply (post_mmap good). intros kv _. apply post_skip. intros _. apply post_ret. exact I. }
  intros us Hu. cbn zeta. apply post_skip. intros _. apply post_ret. apply goods_app; [exact Hx|]. apply goods_app; [exact Hu|].
  apply Forall_forall. intros y Hy. apply in_map_iff in Hy as (z & <- & _). exact I.
Qed.

(** ** input types *)
Lemma post_input_field : forall name k v, post goods (generate_input_field c st s name k v).
Proof.
  intros name k v r l r' H. unfold generate_input_field in H. cbn zeta in H.
  apply bind_ok in H. destruct H as (a0 & r1 & H0 & H). apply bind_ok in H. destruct H as (a & r2 & H1 & H).
  apply bind_ok in H. destruct H as (val & r3 & H2 & H). apply ret_ok in H. destruct H as [-> ->].
  assert (G : good (SAnn (generate_node_name st k) a val)) by exact I.
  destruct (_ && _); (constructor; [exact G|]); repeat constructor.
Qed.
Lemma post_input_class : forall pc name key d fields ab ds, post good (input_class c st pc s name key d fields ab ds).
Proof.
  intros pc name key d fields ab ds. unfold input_class. eapply post_bind.
  { apply (post_mmap good). intros x _ r a r' H. unfold discriminator_field in H. minv. exact I. }
  intros dfs Hd. eapply post_bind.
  { apply (post_mconcat good). intros kv _. apply post_if; [apply post_ret; constructor|apply post_input_field]. }
  intros fs Hf. cbn zeta. eapply post_bind; [apply post_config|]. intros cfg Hc. apply post_ret. apply good_class. constructor; [exact I|].
  apply goods_app; [exact Hd|]. apply goods_app; [exact Hf|]. apply goods_app; [|exact Hc].
  destruct ds as [|d0 ds]; [constructor|]. destruct (String.eqb _ _); [|constructor]. constructor; [apply good_post_init|constructor].
Qed.
Lemma post_input_type : forall pc name key d fields ds, post good (generate_input_type c st pc s name key d fields ds).
Proof. intros. unfold generate_input_type. apply post_skip. intros. apply post_input_class. Qed.
Lemma post_wrapper : forall pc key fields, post goods (generate_oneof_wrapper_input c st pc s key fields).
Proof.
  intros pc key fields. unfold generate_oneof_wrapper_input. apply post_skip. intros ab. eapply post_bind.
  { apply (post_mmap (fun x => good (snd x))). intros [k v] _. unfold oneof_wrapper_class. apply post_skip. intros cn. cbn zeta.
    apply post_skip. intros a0. apply post_skip. intros a. apply post_skip. intros val. eapply post_bind; [apply post_config|]. intros cfg Hc. apply post_ret. apply good_class. constructor; [exact I|].
    constructor; [exact I|exact Hc]. }
  intros l Hl. apply post_skip. intros al. apply (post_bind good).
  { unfold generate_union_alias. destruct (map fst l) as [|m [|m' ms]]; try (apply post_skip; intros); apply post_ret; exact I. }
  intros a Ha. apply post_ret. apply goods_app; [|now constructor]. apply Forall_forall. intros x Hx. apply in_map_iff in Hx as (y & <- & Hy).
  rewrite Forall_forall in Hl. auto.
Qed.

Lemma post_enums : forall pc docs, post goods (enums_plugin c st pc s docs).
Proof.
  intros pc docs. unfold enums_plugin, generate_enums. apply post_skip. intros _. apply post_skip. intros rf. apply post_mconcat. intros kv _. apply post_if; [apply post_ret; constructor|].
  apply post_skip. intros cls. apply post_ret. constructor; [|constructor]. apply good_class. constructor; [exact I|]. apply Forall_forall. intros x Hx.
  apply in_flat_map in Hx as ([k v] & _ & Hx). cbn in Hx. destruct Hx as [<-|Hx]; [exact I|]. destruct (truthy _); [|destruct Hx]. destruct Hx as [<-|[]]. exact I.
Qed.
Definition members_input (km : string * list (string * string)) : Prop := forall m, In m (snd km) -> Spec_Refs.is_input s (snd m).
Lemma member_map : forall fields ms, get_oneof_member_map s fields = Some ms -> forall m, In m ms -> Spec_Refs.is_input s (snd m).
Proof.
  intros fields ms H. unfold get_oneof_member_map in H.
  set (F := fold_right _ (Some []) fields) in H. assert (P : forall l, F = Some l -> forall m, In m l -> Spec_Refs.is_input s (snd m)).
  { subst F. clear H. induction fields as [|[k f] fields IH]; cbn; intros l E m Hm; [injection E as <-; destruct Hm|].
    cbn [fst snd] in E. destruct (if_type f) as [n| |]; try discriminate. destruct (fold_right _ _ fields) as [l0|]; [|discriminate]. destruct (get_type s n) as [[]|] eqn:GT; try discriminate.
    destruct (existsb _ _); [discriminate|]. injection E as <-. destruct Hm as [<-|Hm]; [|eapply IH; [reflexivity|exact Hm]]. cbn. do 3 eexists. exact GT. }
  destruct F as [[|x l]|] eqn:E; try discriminate. destruct (nodupb _); [|discriminate]. injection H as <-. now apply P.
Qed.
Lemma post_prepass : forall pc rf l, post (fun x => goods (snd x)) (mfold (prepass_type c st pc s rf) l (Prepass [] [] [], [])).
Proof.
  intros pc rf l. apply post_mfold; [|constructor]. intros [p tree] [key t] _ Hx. cbn [prepass_type]. apply post_skip. intros [ms discr].
  destruct ms; [now apply post_ret|]. apply post_skip. intros ds. apply post_skip. intros name. eapply post_bind; [apply post_input_type|].
  intros cls Hc. apply post_ret. cbn [snd] in *. apply goods_app; [exact Hx|now constructor].
Qed.
Lemma post_main : forall pc rf p l t0, goods t0 -> post (fun y => goods (fst y) /\ Forall members_input (snd y)) (mfold (main_type c st pc s rf p) l (t0, [])).
Proof.
  intros pc rf p l t0 H0. apply post_mfold; [|split; [exact H0|constructor]]. intros [tree deferred] [key t] _ [Hy HD]. cbn [main_type]. cbn [fst snd] in Hy, HD.
  apply post_if; [now apply post_ret|]. apply post_if; [now apply post_ret|]. apply post_if; [now apply post_ret|]. apply post_if.
  - apply post_skip. intros _. assert (MM : forall ms, (if String.eqb (c_pydantic_version c) "v2" then get_oneof_member_map s (id_fields t) else None) = Some ms -> members_input (key, ms)).
    { intros ms E. destruct (String.eqb _ _); [|discriminate]. intros m Hm. eapply member_map; eassumption. }
    destruct (if String.eqb _ _ then _ else _) as [ms|]; [apply post_if|].
    + eapply post_bind; [apply post_wrapper|]. intros l' Hl. apply post_ret. split; [now apply goods_app|exact HD].
    + apply post_ret. split; [exact Hy|]. apply Forall_app. split; [exact HD|]. constructor; [now apply MM|constructor].
    + eapply post_bind; [apply post_wrapper|]. intros l' Hl. apply post_ret. split; [now apply goods_app|exact HD].
  - destruct (dget key _).
    + do 3 (apply post_skip; intros _). apply post_skip. intros al. apply post_ret. split; [|exact HD]. apply goods_app; [exact Hy|repeat constructor].
    + apply post_skip. intros ab. apply post_skip. intros name. eapply post_bind; [apply post_input_class|]. intros cls Hc. apply post_ret.
      split; [|exact HD]. apply goods_app; [exact Hy|now constructor].
Qed.
End Walk.
