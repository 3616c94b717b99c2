(** Where the attributes of generated classes come from. *)
From Verif Require Import Base PyAst Gql Config Stylers Registry Utils Documents Inline Enums Inputs Recurse Fragments Operations Objects
  Spec_Types Spec_Inputs Spec_Fields Spec_Naming Spec_Names P_Base P_Monad P_Stylers P_Inputs P_Annot P_Recurse P_Fields P_Post.

Section Attr.
Variable st : list styler.
Definition origin (n w : string) : Prop :=
  n = style_with sty_node st w \/ n = style_with sty_parameter st w \/ (n = "typename" /\ w = "__typename") \/ n = w.
Fixpoint good (x : stmt) : Prop :=
  match x with
  | SAnn n _ v => origin n (wire_name n v)
  | SClass _ _ body _ => (fix all (l : list stmt) : Prop := match l with [] => True | y :: r => good y /\ all r end) body
  | _ => True
  end.
Notation goods := (Forall good).
Lemma good_class : forall n b body d, good (SClass n b body d) <-> goods body.
Proof.
  intros n b body d. cbn [good]. induction body as [|y l IH]; [split; constructor|]. split.
  - intros [H1 H2]. constructor; [exact H1|]. now apply IH.
  - intros H. inversion H; subst. split; [assumption|]. now apply IH.
Qed.
Lemma bodies_class : forall n b body d, class_bodies (SClass n b body d) = body :: flat_map class_bodies body.
Proof. reflexivity. Qed.
Lemma good_bodies : forall l, goods l -> Forall goods (flat_map class_bodies l).
Proof.
  assert (H : forall x, good x -> Forall goods (class_bodies x)).
  { fix IH 1. intros [ | | |n b body d| | | | | | | | | | ] H; try constructor.
    - now apply good_class in H.
    - cbn [good] in H. induction body as [|y l IHl]; [constructor|]. destruct H as [Hy Hl].
      apply Forall_app. split; [exact (IH y Hy)|exact (IHl Hl)]. }
  intros l HL. induction HL as [|x l Hx HL IH]; [constructor|]. cbn [flat_map]. apply Forall_app. split; [now apply H|exact IH].
Qed.
Lemma good_fields : forall body fld, goods body -> In fld (class_fields body) -> origin (attribute fld) (wire fld).
Proof.
  intros body fld H Hf. apply in_flat_map in Hf as (x & Hx & Hf). rewrite Forall_forall in H. apply H in Hx.
  destruct x; try contradiction. destruct Hf as [<-|[]]. exact Hx.
Qed.

(** ** pieces *)
Lemma good_doc : forall d, good (docstring d).
Proof. intros. exact I. Qed.
Variable c : gconfig.
Variable s : schema.
Lemma post_config : forall k t, post goods (generate_pydantic_config k c t).
Proof.
  intros k t r a r' H. unfold generate_pydantic_config in H. destruct (String.eqb _ _).
  - unfold generate_config_dict in H. cbn zeta in H. destruct (_ ++ _ ++ _); minv; repeat constructor.
  - minv. unfold generate_config_class_pydantic. destruct (_ ++ _ ++ _) as [|kv l]; constructor; [|constructor].
    apply good_class. constructor; [exact I|]. apply Forall_forall. intros x Hx. apply in_map_iff in Hx as (y & <- & _). exact I.
Qed.
Lemma post_typename : forall n, post good (generate_typename_field c n).
Proof. intros n r a r' H. unfold generate_typename_field in H. minv. right; right; left. split; reflexivity. Qed.
Lemma post_generic_typename : post good (generate_generic_typename_field c).
Proof. intros r a r' H. unfold generate_generic_typename_field in H. minv. right; right; left. split; reflexivity. Qed.
Lemma post_field_statements : forall k fd a, post goods (field_statements c st k fd a).
Proof.
  intros k fd a r l r' H. unfold field_statements in H. cbn zeta in H.
  apply bind_ok in H as (a' & r1 & H1 & H). apply bind_ok in H as (u & r2 & H2 & H). apply ret_ok in H as [-> ->].
  pose proof (kws_spec (generate_node_name st k) k (is_nonnull (fd_type fd))) as K. cbn zeta in K.
  constructor; [|destruct (compose_field_documentation _ _ _ _); repeat constructor].
  left. destruct K as [K _]. cbn [good] in *. now rewrite K.
Qed.
Lemma post_argument : forall v, post good (argument_field c st v).
Proof.
  intros v r x r' H. unfold argument_field in H. cbn zeta in H. repeat (apply bind_ok in H as (? & ? & _ & H)). apply ret_ok in H as [-> _].
  unfold origin, generate_parameter_name. right; left. cbn [good]. destruct (String.eqb_spec (v_name v) (style_with sty_parameter st (v_name v))) as [E|E].
  - destruct (_ || _); cbn; now rewrite <- E.
  - destruct (_ || _); reflexivity.
Qed.

(** ** selections *)
Definition gsel (tfn : typer) (f : fieldnode) : Prop := forall parent fd, post (fun res => goods (fst res) /\ goods (snd res)) (tfn f parent fd).
Lemma post_walk : forall {A} (Q : A -> Prop) (item : A -> selection -> M A) sels a,
  Q a -> (forall l x a, sels = Some l -> In x l -> Q a -> post Q (item a x)) -> post Q (walk item sels a).
Proof.
  intros A Q item [l|] a Ha H; [|now apply post_ret]. unfold walk. apply post_mfold; [|exact Ha]. intros b x Hx Hb.
  destruct (is_typename_field x); [now apply post_ret|]. eapply H; eauto.
Qed.
Definition g3 {B} (acc : list stmt * B * list stmt) : Prop := goods (fst (fst acc)) /\ goods (snd acc).
Definition g2 {B} (acc : list stmt * B) : Prop := goods (fst acc).
Lemma goods_app : forall a b, goods a -> goods b -> goods (a ++ b).
Proof. intros. now apply Forall_app. Qed.
Lemma post_inline_item : forall tfn cls on acc x, (forall g, x = SelField g -> gsel tfn g) -> g3 acc -> post g3 (inline_item s tfn cls on acc x).
Proof.
  intros tfn cls on [[a b] d] [g|n ds|cond ds l] H [Ha Hd]; cbn [inline_item].
  - destruct (String.eqb _ _); [apply post_ret; split; assumption|]. destruct (get_type s on) as [[]|]; try apply post_raise.
    apply post_opt. intros fd _. eapply post_bind; [apply H; reflexivity|]. intros res [R1 R2]. apply post_ret. split; now apply goods_app.
  - apply post_skip. intros i. destruct i; [apply post_raise|]. apply post_skip. intros b'. apply post_ret. split; assumption.
  - apply post_ret. split; assumption.
Qed.
Lemma post_union_item : forall tfn parent acc x, deep (gsel tfn) x -> g2 acc -> post g2 (union_item c s tfn parent acc x).
Proof.
  intros tfn parent [a b] [g|n ds|cond ds l] H Ha; cbn [union_item]; cbn in H.
  - now apply post_ret.
  - apply post_skip. intros. now apply post_ret.
  - apply post_opt. intros on _. cbn zeta. apply (post_bind g3).
    { apply post_mfold; [|split; constructor]. intros a' x Hx Ha'. apply post_inline_item; [|exact Ha']. intros g ->. auto. }
    intros [[nested bases] fields] [G1 G2]. apply (post_bind goods).
    { destruct bases; [|apply post_ret; exact G2]. eapply post_bind; [apply post_typename|]. intros t Ht. apply post_ret. now constructor. }
    intros body Hb. apply post_skip. intros add. eapply post_bind; [apply post_config|]. intros cfg Hc. apply post_ret.
    unfold g2. cbn [fst] in *. apply goods_app; [exact Ha|]. apply goods_app; [exact G1|]. constructor; [|constructor]. apply good_class.
    assert (G := goods_app _ _ Hb Hc). destruct (body ++ cfg); [repeat constructor|exact G].
Qed.
Lemma post_union : forall tfn parent sels o, all_deep (gsel tfn) sels -> post g2 (union_annotation c s tfn parent sels o).
Proof.
  intros tfn parent sels o H. unfold union_annotation. eapply post_bind.
  - apply (post_walk g2); [constructor|]. intros l x a E Hx Ha. apply post_union_item; [eapply H; eauto|exact Ha].
  - intros [classes names] G. destruct names as [|n [|m names]]; [apply post_raise|now apply post_ret|].
    apply post_skip. intros _. apply post_skip. intros e. now apply post_ret.
Qed.
Definition gparts (p : iparts) : Prop := goods (ip_classes p) /\ goods (ip_fields p) /\ forall i, goods (dget_list i (ip_inline p)).
Lemma goods_dextend : forall k l d, goods l -> (forall i, goods (dget_list i d)) -> forall i, goods (dget_list i (dextend k l d)).
Proof.
  intros k l d Hl Hd i. unfold dget_list, dextend. destruct (dget k d) eqn:G; rewrite dget_dset; destruct (String.eqb_spec i k) as [->|N].
  - apply goods_app; [|exact Hl]. specialize (Hd k). unfold dget_list in Hd. now rewrite G in Hd.
  - apply Hd.
  - exact Hl.
  - apply Hd.
Qed.
Lemma post_inline_fields : forall tfn strict parent on sub, (forall g, In (SelField g) sub -> gsel tfn g) ->
  post (fun r => goods (fst r) /\ goods (snd r)) (inline_fields s tfn strict parent on sub).
Proof.
  intros tfn strict parent on sub H. unfold inline_fields. apply post_mfold; [|split; constructor].
  intros acc [g|n d|cond d l] Hx Ha; try now apply post_ret. destruct (String.eqb _ _); [now apply post_ret|].
  apply post_opt. intros fd _. eapply post_bind; [apply H; exact Hx|]. intros res [R1 R2]. apply post_ret.
  destruct Ha. split; now apply goods_app.
Qed.
Lemma post_iface_item : forall tfn strict fields parent p x, deep (gsel tfn) x -> gparts p -> post gparts (iface_item s tfn strict fields parent p x).
Proof.
  intros tfn strict fields parent p [g|n ds|cond ds l] H (P1 & P2 & P3); cbn [iface_item]; cbn in H.
  - apply post_opt. intros fd _. eapply post_bind; [apply H|]. intros res [R1 R2]. apply post_ret.
    split; [now apply goods_app|]. split; [now apply goods_app|exact P3].
  - apply post_skip. intros b. apply post_ret. repeat split; assumption.
  - apply post_opt. intros on _. apply post_skip. intros _. eapply post_bind; [apply post_inline_fields; exact H|].
    intros res [R1 R2]. apply post_ret. split; [now apply goods_app|]. split; [exact P2|]. now apply goods_dextend.
Qed.
Lemma post_implementing : forall m n p i, gparts p -> post good (implementing_class c s m n p i).
Proof.
  intros m n p i (_ & _ & P3). unfold implementing_class. apply post_skip. intros add. apply post_skip. intros ib.
  eapply post_bind; [apply post_typename|]. intros t Ht. apply post_ret. apply good_class. constructor; [exact I|]. now constructor.
Qed.
Lemma post_interface : forall tfn parent target n desc fields sels o, all_deep (gsel tfn) sels ->
  post g2 (interface_annotation c s tfn parent target n desc fields sels o).
Proof.
  intros tfn parent target n desc fields sels o H. unfold interface_annotation. cbn zeta. eapply post_bind.
  { apply (post_walk gparts); [split; [constructor|split; [constructor; [exact I|constructor]|intros; constructor]]|].
    intros l x a E Hx Ha. apply post_iface_item; [eapply H; eauto|exact Ha]. }
  intros p Hp. apply post_skip. intros add. apply post_skip. intros ib. eapply post_bind; [apply post_config|]. intros cfg Hc.
  eapply post_bind; [apply post_mmap; intros i _; now apply post_implementing|]. intros impls Hi. apply post_skip. intros _. apply post_skip. intros _.
  apply (post_bind g2).
  { apply post_if; [|apply post_ret; constructor]. apply post_skip. intros ib'. eapply post_bind; [apply post_generic_typename|]. intros t Ht.
    apply post_skip. intros _. apply post_ret. constructor; [|constructor]. apply good_class. constructor; [exact I|]. constructor; [exact Ht|constructor]. }
  intros rest Hr. apply post_skip. intros e. apply post_skip. intros _. apply post_ret. destruct Hp as (P1 & P2 & P3).
  unfold g2. cbn [fst]. apply goods_app; [exact P1|]. apply goods_app; [constructor; [apply good_class; now apply goods_app|constructor]|].
  now apply goods_app.
Qed.
Lemma post_object_item : forall tfn n cls fields acc x, deep (gsel tfn) x -> g3 acc -> post g3 (object_item tfn n cls fields acc x).
Proof.
  intros tfn n cls fields [[a b] d] [g|f ds|cond ds l] H [Ha Hd]; cbn [object_item]; cbn in H.
  - destruct (String.eqb _ _); [apply post_ret; split; assumption|]. apply post_opt. intros fd _. eapply post_bind; [apply H|].
    intros res [R1 R2]. apply post_ret. split; now apply goods_app.
  - apply post_skip. intros i. apply post_skip. intros b'. apply post_ret. split; assumption.
  - apply post_raise.
Qed.
Lemma post_object : forall tfn parent target n desc fields sels o, all_deep (gsel tfn) sels ->
  post g2 (object_annotation c st tfn parent target n desc fields sels o).
Proof.
  intros tfn parent target n desc fields sels o H. unfold object_annotation. cbn zeta. eapply post_bind; [apply post_typename|]. intros t Ht.
  assert (B : post g2 (let* r := walk (object_item tfn n (parent +s+ py_capitalize target) fields) sels ([], [], [doc_stmt desc; t]) in
      let '(classes, bases, body) := r in
      let* add := match bases with
                  | [] => get_additional_bases_for_type c n
                  | _ => ret (map EName bases)
                  end in
      let* cfg := generate_pydantic_config (KT KObject) c None in
      let* e := optional_if o (ret (EName (parent +s+ py_capitalize target))) in
      ret (classes ++ [SClass (parent +s+ py_capitalize target) (add ++ names_of (c_object_bases c)) (body ++ cfg) []], e))).
  { eapply post_bind.
    { apply (post_walk g3); [split; [constructor|constructor; [exact I|constructor; [exact Ht|constructor]]]|].
      intros l x a E Hx Ha. apply post_object_item; [eapply H; eauto|exact Ha]. }
    intros [[classes bases] body] [G1 G2]. apply post_skip. intros add. eapply post_bind; [apply post_config|]. intros cfg Hc.
    apply post_skip. intros e. apply post_ret. unfold g2. cbn [fst] in *. apply goods_app; [exact G1|]. constructor; [|constructor].
    apply good_class. now apply goods_app. }
  destruct (option_map non_typename sels) as [[|[g|f ds|cond ds l] [|y l']]|]; try exact B.
  apply post_skip. intros i. apply post_skip. intros e. apply post_skip. intros e'. apply post_ret. constructor.
Qed.
Lemma post_named : forall tfn parent target sels n o, all_deep (gsel tfn) sels ->
  post g2 (named_annotation c st s tfn parent target sels n o).
Proof.
  intros tfn parent target sels n o H. unfold named_annotation. destruct (get_type s n) as [[]|]; try apply post_raise.
  - apply post_skip. intros e. apply post_ret. constructor.
  - apply post_skip. intros e. apply post_ret. constructor.
  - now apply post_object.
  - now apply post_interface.
  - now apply post_union.
Qed.
Lemma post_wrap : forall (named : string -> bool -> M (list stmt * expr)), (forall n o, post g2 (named n o)) ->
  forall t o, post g2 (wrap_annotation c named t o).
Proof.
  intros named H t. induction t as [n|t IH|t IH]; intros o; cbn [wrap_annotation]; [apply H| |apply IH].
  apply post_skip. intros _. apply post_skip. intros _. eapply post_bind; [apply IH|]. intros r Hr. now apply post_ret.
Qed.
Lemma post_tfn : forall f, gsel (type_field_node c st s) f.
Proof.
  assert (STEP : forall a n ar ds sels, all_deep (gsel (type_field_node c st s)) sels -> gsel (type_field_node c st s) (FieldNode a n ar ds sels)).
  { intros a n ar ds sels H parent fd. rewrite tfn_eq. cbn zeta. eapply post_bind; [apply post_wrap; intros; now apply post_named|].
    intros r Hr. eapply post_bind; [apply post_field_statements|]. intros body Hb. apply post_ret. split; assumption. }
  apply fieldnode_rect'; [intros; apply STEP; intros l x [=]|intros a n ar ds l HL; apply STEP; intros l' x [= <-]; apply HL].
Qed.
Lemma all_gsel : forall sels, all_deep (gsel (type_field_node c st s)) sels.
Proof. intros sels l [g|f ds|cond ds m] E Hx; cbn; auto using post_tfn. Qed.

(** ** operations *)
Lemma post_operation : forall pc po add doc_of o, post goods (generate_operation c st s pc po add doc_of o).
Proof.
  intros pc po add doc_of o. unfold generate_operation. apply post_skip. intros name. apply post_skip. intros cb. apply post_skip. intros root. cbn zeta.
  eapply (post_bind (fun acc => goods (fst acc) /\ Forall goods (snd acc))).
  { apply post_mfold; [|split; constructor]. intros acc [g|f ds|cond ds m] _ [A1 A2]; cbn [root_item]; try apply post_raise.
    apply post_opt. intros fd _. eapply post_bind; [apply post_tfn|]. intros res [R1 R2]. apply post_ret. split; [now apply goods_app|].
    apply Forall_app. split; [exact A2|now constructor]. }
  intros acc [A1 A2]. apply post_skip. intros _. apply post_skip. intros doc. apply (post_bind goods).
  { unfold arguments_class. destruct (o_create_arguments pc); [|apply post_ret; constructor].
    eapply post_bind; [apply post_mmap; intros v _; apply post_argument|]. intros fs Hf. apply (post_bind goods).
    { unfold generate_arguments_config. apply post_skip. intros _. apply post_ret. repeat constructor. }
    intros cfg Hc. apply post_skip. intros b. apply post_ret. constructor; [|constructor]. apply good_class. constructor; [exact I|]. now apply goods_app. }
  intros args Ha. eapply post_bind; [apply post_config|]. intros cfg Hc. apply post_ret. apply goods_app; [exact A1|]. constructor; [|constructor].
  apply good_class. apply goods_app; [repeat constructor|]. apply goods_app; [now apply Forall_concat|]. apply goods_app; [exact Ha|].
  apply goods_app; [|exact Hc]. constructor; [|constructor]. apply good_class. destruct (truthy _); repeat constructor.
Qed.
Lemma post_operations : forall pc po add doc_of d, post goods (operations_plugin c st s pc po add doc_of d).
Proof. intros. unfold operations_plugin. apply post_mconcat. intros. apply post_operation. Qed.

(** ** fragments *)
Lemma post_interface_fragment : forall pc f d fields, post goods (interface_fragment c st s pc f d fields).
Proof.
  intros pc f d fields. unfold interface_fragment. cbn zeta. apply post_skip. intros add. eapply post_bind.
  { apply (post_walk gparts); [split; [constructor|split; [constructor; [exact I|constructor]|intros; constructor]]|].
    intros l x a E Hx Ha. apply post_iface_item; [apply (all_gsel (Some (fr_sels f)) l x E Hx)|exact Ha]. }
  intros p Hp. apply post_skip. intros ib. eapply post_bind; [apply post_generic_typename|]. intros t Ht.
  eapply post_bind; [apply post_mmap; intros i _; now apply post_implementing|]. intros impls Hi. apply post_skip. intros _. apply post_ret.
  destruct Hp as (P1 & P2 & P3). apply goods_app; [exact P1|]. apply goods_app; [|exact Hi].
  constructor; [now apply good_class|]. constructor; [|constructor]. apply good_class. constructor; [exact I|]. constructor; assumption.
Qed.
Lemma post_object_fragment : forall pc pf add f cls d, post goods (object_fragment c st s pc pf add f cls d).
Proof.
  intros pc pf add f cls d. unfold object_fragment. apply post_skip. intros ab. eapply post_bind; [apply post_typename|]. intros t Ht.
  eapply (post_bind g3).
  { apply post_mfold; [|split; [constructor|constructor; [exact I|constructor; [exact Ht|constructor]]]].
    intros [[a b] e] [g|h ds|cond ds m] _ [A1 A2]; cbn [object_fragment_item].
    - destruct (String.eqb _ _); [apply post_ret; split; assumption|]. apply post_opt. intros fd _. eapply post_bind; [apply post_tfn|].
      intros res [R1 R2]. apply post_ret. split; now apply goods_app.
    - apply post_skip. intros m. apply post_skip. intros b'. apply post_ret. split; assumption.
    - apply post_ret. split; assumption. }
  intros [[classes bases] fields] [G1 G2]. apply (post_bind goods).
  { unfold fragment_meta. destruct (fr_meta pc); [|apply post_ret; constructor]. apply post_skip. intros doc. apply post_ret.
    constructor; [|constructor]. apply good_class. repeat constructor. }
  intros meta Hm. apply post_skip. intros fb. eapply post_bind; [apply post_config|]. intros cfg Hc. apply post_ret.
  apply goods_app; [exact G1|]. constructor; [|constructor]. apply good_class. apply goods_app; [exact G2|]. now apply goods_app.
Qed.
Lemma post_union_fragment : forall pc f d ms, post goods (union_fragment c st s pc f d ms).
Proof.
  intros pc f d ms. unfold union_fragment. cbn zeta. apply post_skip. intros _. eapply post_bind.
  { apply (post_walk gparts); [split; [constructor|split; [constructor|intros; constructor]]|].
    intros l [g|h ds|cond ds m] p _ _ (P1 & P2 & P3); cbn [union_fragment_item]; [apply post_raise| |].
    - apply post_skip. intros m. apply post_ret. split; [exact P1|]. split; [constructor|exact P3].
    - apply post_opt. intros on _. eapply (post_bind g3).
      { apply post_mfold; [|split; constructor]. intros [[a b] e] [g|h ds'|cond' ds' m'] _ [A1 A2]; cbn [union_inline].
        - destruct (String.eqb _ _); [apply post_ret; split; assumption|]. apply post_opt. intros t _. apply post_opt. intros fd _.
          eapply post_bind; [apply post_tfn|]. intros res [R1 R2]. apply post_ret. split; now apply goods_app.
        - apply post_ret. split; assumption.
        - apply post_ret. split; assumption. }
      intros [[classes bases] fields] [G1 G2]. apply post_ret. split; [now apply goods_app|]. split; [constructor|]. now apply goods_dextend. }
  intros p (P1 & P2 & P3). eapply post_bind.
  { apply (post_mmap good). intros i _. apply post_skip. intros fb. eapply post_bind; [apply post_typename|]. intros t Ht. apply post_ret.
    apply good_class. constructor; [exact Ht|apply P3]. }
  intros classes Hc. apply post_skip. intros _. apply post_skip. intros _. apply post_ret. apply goods_app; [exact P1|]. apply goods_app; [exact Hc|].
  apply goods_app; [repeat constructor|]. destruct (_ && _); repeat constructor.
Qed.
Lemma post_fragment : forall pc pf add f, post goods (generate_fragment c st s pc pf add f).
Proof.
  intros pc pf add f. unfold generate_fragment. apply post_opt. intros t _. apply post_skip. intros name. apply post_skip. intros _.
  apply post_skip. intros _. destruct t; try apply post_raise.
  - apply post_object_fragment.
  - apply post_interface_fragment.
  - apply post_union_fragment.
Qed.

Lemma post_fragments : forall pc pf add d, post goods (fragments_plugin c st s pc pf add d).
Proof. intros. unfold fragments_plugin. apply post_skip. intros fs. apply post_mconcat. intros. apply post_fragment. Qed.

(** ** object types *)
Lemma post_types : forall pc, post goods (generate_types c st s pc).
Proof.
  intros pc. unfold generate_types. apply post_skip. intros _. eapply (post_bind (fun x => goods (os_tree x))).
  { apply post_mfold; [|constructor]. intros x [key t] _ Hx. unfold object_step. apply post_skip. intros add. apply post_if; [now apply post_ret|].
    apply post_skip. intros cn. apply post_skip. intros ib. eapply post_bind.
    { apply (post_mconcat good). intros kv _. unfold object_field. apply post_skip. intros a. apply post_field_statements. }
    intros fs Hf. eapply post_bind; [apply post_config|]. intros cfg Hc. cbn zeta. apply post_ret. cbn [os_tree].
    apply goods_app; [exact Hx|]. constructor; [|constructor]. apply good_class. apply goods_app; [destruct (truthy _); repeat constructor|]. now apply goods_app. }
  intros x Hx. eapply post_bind.
  { apply (post_mmap good). intros kv _. apply post_skip. intros _. apply post_ret. exact I. }
  intros us Hu. cbn zeta. apply post_skip. intros _. apply post_ret. apply goods_app; [exact Hx|]. apply goods_app; [exact Hu|].
  apply Forall_forall. intros y Hy. apply in_map_iff in Hy as (z & <- & _). exact I.
Qed.

(** ** input types *)
Lemma post_input_field : forall name k v, post goods (generate_input_field c st s name k v).
Proof.
  intros name k v r l r' H. unfold generate_input_field in H. cbn zeta in H.
  apply bind_ok in H. destruct H as (a0 & r1 & H0 & H). apply bind_ok in H. destruct H as (a & r2 & H1 & H).
  apply bind_ok in H. destruct H as (val & r3 & H2 & H). apply ret_ok in H. destruct H as [-> ->].
  apply field_value_spec in H2 as [W _].
  assert (G : good (SAnn (generate_node_name st k) a val)) by (left; cbn [good]; now rewrite W).
  destruct (_ && _); (constructor; [exact G|]); repeat constructor.
Qed.
Lemma post_input_class : forall pc name key d fields ab ds, post good (input_class c st pc s name key d fields ab ds).
Proof.
  intros pc name key d fields ab ds. unfold input_class. eapply post_bind.
  { apply (post_mmap good). intros x _ r a r' H. unfold discriminator_field in H. minv. right; right; right. reflexivity. }
  intros dfs Hd. eapply post_bind.
  { apply (post_mconcat good). intros kv _. apply post_if; [apply post_ret; constructor|apply post_input_field]. }
  intros fs Hf. cbn zeta. eapply post_bind; [apply post_config|]. intros cfg Hc. apply post_ret. apply good_class. constructor; [exact I|].
  apply goods_app; [exact Hd|]. apply goods_app; [exact Hf|]. apply goods_app; [|exact Hc].
  destruct ds; [constructor|]. destruct (String.eqb _ _); repeat constructor.
Qed.
Lemma post_input_type : forall pc name key d fields ds, post good (generate_input_type c st pc s name key d fields ds).
Proof. intros. unfold generate_input_type. apply post_skip. intros. apply post_input_class. Qed.
Lemma post_wrapper : forall pc key fields, post goods (generate_oneof_wrapper_input c st pc s key fields).
Proof.
  intros pc key fields. unfold generate_oneof_wrapper_input. apply post_skip. intros ab. eapply post_bind.
  { apply (post_mmap (fun x => good (snd x))). intros [k v] _. unfold oneof_wrapper_class. apply post_skip. intros cn. cbn zeta.
    apply post_skip. intros a0. apply post_skip. intros a. eapply (post_bind (fun val => wire_name (generate_node_name st k) val = k)).
    { intros r val r' H. apply field_value_spec in H as [W _]. exact W. }
    intros val W. eapply post_bind; [apply post_config|]. intros cfg Hc. apply post_ret. apply good_class. constructor; [exact I|].
    constructor; [left; now rewrite W|exact Hc]. }
  intros l Hl. apply post_skip. intros al. apply (post_bind good).
  { unfold generate_union_alias. destruct (map fst l) as [|m [|m' ms]]; try (apply post_skip; intros); apply post_ret; exact I. }
  intros a Ha. apply post_ret. apply goods_app; [|now constructor]. apply Forall_forall. intros x Hx. apply in_map_iff in Hx as (y & <- & Hy).
  rewrite Forall_forall in Hl. auto.
Qed.
Lemma post_inputs : forall pc documents, post goods (generate_inputs c st pc s documents).
Proof.
  intros pc documents. unfold generate_inputs. apply post_skip. intros rf. apply post_skip. intros _.
  eapply (post_bind (fun x => goods (snd x))).
  { apply post_mfold; [|constructor]. intros [p tree] [key t] _ Hx. cbn [prepass_type]. apply post_skip. intros [ms discr].
    destruct ms; [now apply post_ret|]. apply post_skip. intros ds. apply post_skip. intros name. eapply post_bind; [apply post_input_type|].
    intros cls Hc. apply post_ret. cbn [snd] in *. apply goods_app; [exact Hx|now constructor]. }
  intros x Hx. eapply (post_bind (fun y => goods (fst y))).
  { apply post_mfold; [|exact Hx]. intros [tree deferred] [key t] _ Hy. cbn [main_type]. cbn [fst] in Hy.
    apply post_if; [now apply post_ret|]. apply post_if; [now apply post_ret|]. apply post_if; [now apply post_ret|]. apply post_if.
    - apply post_skip. intros _. destruct (if String.eqb _ _ then _ else _) as [ms|]; [apply post_if|].
      + eapply post_bind; [apply post_wrapper|]. intros l Hl. apply post_ret. now apply goods_app.
      + now apply post_ret.
      + eapply post_bind; [apply post_wrapper|]. intros l Hl. apply post_ret. now apply goods_app.
    - destruct (dget key _).
      + do 3 (apply post_skip; intros _). apply post_skip. intros al. apply post_ret. apply goods_app; [exact Hy|repeat constructor].
      + apply post_skip. intros ab. apply post_skip. intros name. eapply post_bind; [apply post_input_class|]. intros cls Hc. apply post_ret.
        apply goods_app; [exact Hy|now constructor]. }
  intros y Hy. eapply post_bind.
  { apply (post_mconcat good). intros km _. unfold generate_oneof_direct_union. apply post_skip. intros al. cbn zeta. apply post_skip. intros cl.
    do 3 (apply post_skip; intros _). apply post_ret. repeat constructor. }
  intros l Hl. apply post_ret. now apply goods_app.
Qed.
End Attr.

(** ** Names that agree up to case and underscores *)
Lemma no_under_ins : forall a b, us_ins a b -> no_under b = no_under a.
Proof. intros a b H. induction H; cbn [no_under]; [reflexivity|now rewrite IHus_ins|assumption]. Qed.
Lemma no_under_app : forall a b, no_under (a +s+ b) = no_under a +s+ no_under b.
Proof. induction a as [|x a IH]; intros b; [reflexivity|]. cbn. destruct (is_under x); [apply IH|]. cbn. now rewrite IH. Qed.
Lemma lower_app : forall a b, str_lower (a +s+ b) = str_lower a +s+ str_lower b.
Proof. induction a as [|x a IH]; intros b; [reflexivity|]. cbn. f_equal. apply IH. Qed.
Lemma app_nil_s : forall a, a +s+ "" = a.
Proof. induction a as [|x a IH]; [reflexivity|]. cbn. now rewrite IH. Qed.
Lemma lower_id : forall s, no_upper s -> str_lower s = s.
Proof.
  induction s as [|x s IH]; intros H; [reflexivity|]. unfold no_upper in H. cbn in H. apply andb_true_iff in H as [H1 H2].
  cbn. rewrite to_lower_id; [|now destruct (is_upper x)]. f_equal. now apply IH.
Qed.
Lemma folded_snake : forall s, folded (camel_to_snake s) = folded s.
Proof. intros s. unfold folded. rewrite lower_id by apply snake_no_upper. apply no_under_ins, snake_ins. Qed.
Lemma folded_escape : forall s, folded (s +s+ "_") = folded s.
Proof. intros s. unfold folded. rewrite lower_app, no_under_app. cbn. apply app_nil_s. Qed.
Lemma folded_shipped : forall x n, shipped x -> folded (sty_node x n) = folded n /\ folded (sty_parameter x n) = folded n.
Proof. intros x n H. destruct H; cbn; split; try reflexivity; apply folded_snake. Qed.
Lemma folded_style : forall (sel : styler -> string -> string) st n, (forall x m, In x st -> folded (sel x m) = folded m) ->
  folded (style_with sel st n) = folded n.
Proof.
  intros sel st n H. unfold style_with.
  assert (E : folded (fold_left (fun m x => sel x m) st n) = folded n).
  { revert n. induction st as [|x st IH]; intros n; [reflexivity|]. cbn [fold_left]. rewrite IH by (intros; apply H; now right). apply H. now left. }
  destruct (iskeyword _); [now rewrite folded_escape|exact E].
Qed.
Lemma origin_folded : forall st n w, Forall shipped st -> origin st n w -> folded n = folded w.
Proof.
  intros st n w H [->|[->|[[-> ->]| ->]]]; try reflexivity; apply folded_style; intros x m Hx; rewrite Forall_forall in H;
    now apply folded_shipped, H.
Qed.
Lemma goods_same_letters : forall st l, Forall shipped st -> Forall (good st) l -> same_letters l.
Proof.
  intros st l HS H body f g Hb Hf Hg E. apply good_bodies in H. rewrite Forall_forall in H. specialize (H _ Hb).
  rewrite <- (origin_folded st (attribute f) (wire f)), <- (origin_folded st (attribute g) (wire g)), E; auto; eapply good_fields; eassumption.
Qed.
(** ** Names without styling *)
Lemma style_keeps : forall (sel : styler -> string -> string) st n, (forall x m, In x st -> sel x m = m) ->
  (~ In n kwlist /\ style_with sel st n = n) \/ (In n kwlist /\ style_with sel st n = n +s+ "_").
Proof.
  intros sel st n H. unfold style_with.
  assert (E : fold_left (fun m x => sel x m) st n = n).
  { induction st as [|x st IH]; [reflexivity|]. cbn. rewrite H by now left. apply IH. intros; apply H; now right. }
  rewrite E. unfold iskeyword. destruct (mem n kwlist) eqn:K.
  - right. split; [now apply mem_In|reflexivity].
  - left. split; [|reflexivity]. intros Hn. apply mem_In in Hn. congruence.
Qed.
Lemma origin_keeps : forall st n w, Forall keeps_fields st -> origin st n w ->
  n = w \/ escape_of w n \/ (w = "__typename" /\ n = "typename").
Proof.
  intros st n w H [->|[->|[[-> ->]| ->]]]; auto; rewrite Forall_forall in H.
  - destruct (style_keeps sty_node st w) as [[_ E]|[K E]]; [intros x m Hx; now apply H|auto|right; left; split; auto].
  - destruct (style_keeps sty_parameter st w) as [[_ E]|[K E]]; [intros x m Hx; now apply H|auto|right; left; split; auto].
Qed.
Lemma escape_inj : forall a b, a +s+ "_" = b +s+ "_" -> a = b.
Proof.
  induction a as [|x a IH]; intros [|y b] E; cbn in E; [reflexivity| | |].
  - injection E as _ E. destruct b; discriminate.
  - injection E as _ E. destruct a; discriminate.
  - injection E as -> E. f_equal. now apply IH.
Qed.
Lemma typename_no_escape : forall a, ~ escape_of a "typename".
Proof.
  intros a [H E]. repeat (destruct H as [<-|H]; [discriminate|]). destruct H.
Qed.
Lemma goods_same_escaped : forall st l, Forall keeps_fields st -> Forall (good st) l -> same_escaped l.
Proof.
  intros st l HS H body f g Hb Hf Hg E. apply good_bodies in H. rewrite Forall_forall in H. specialize (H _ Hb).
  apply (good_fields _ _ _ H) in Hf. apply (good_fields _ _ _ H) in Hg. cbn zeta.
  apply origin_keeps in Hf; [|assumption]. apply origin_keeps in Hg; [|assumption]. rewrite E in Hf.
  destruct Hf as [Hf|[Hf|[Hf1 Hf2]]], Hg as [Hg|[Hg|[Hg1 Hg2]]].
  - left. congruence.
  - right; right; left. rewrite Hf in Hg. exact Hg.
  - right; right; right; right. split; congruence.
  - right; left. rewrite Hg in Hf. exact Hf.
  - left. destruct Hf as [_ Hf], Hg as [_ Hg]. apply escape_inj. congruence.
  - exfalso. rewrite Hg2 in Hf. eapply typename_no_escape; exact Hf.
  - right; right; right; left. split; congruence.
  - exfalso. rewrite Hf2 in Hg. eapply typename_no_escape; exact Hg.
  - left. congruence.
Qed.
(** ** Fields of one class *)
Lemma nodup_attributes : forall st body names, Forall shipped st -> Forall (good st) body ->
  map wire (class_fields body) = names -> NoDup (map folded names) -> NoDup (map attribute (class_fields body)).
Proof.
  intros st body names HS H E N. subst names. rewrite map_map in N.
  assert (O : forall f, In f (class_fields body) -> folded (attribute f) = folded (wire f)).
  { intros f Hf. eapply origin_folded; [exact HS|]. eapply good_fields; eassumption. }
  revert O N. generalize (class_fields body). intros l. induction l as [|f l IH]; intros O N; [constructor|].
  inversion N as [|? ? N1 N2]; subst. constructor.
  - intros Hin. apply in_map_iff in Hin as (g & Eg & Hg). apply N1. apply in_map_iff. exists g. split; [|exact Hg].
    rewrite <- (O f) by now left. rewrite <- (O g) by now right. now rewrite Eg.
  - apply IH; [|exact N2]. intros g Hg. apply O. now right.
Qed.
Definition both (st : list styler) (l : list stmt) : Prop :=
  (Forall shipped st -> same_letters l) /\ (Forall keeps_fields st -> same_escaped l).
Lemma goods_both : forall st l, Forall (good st) l -> both st l.
Proof. intros st l H. split; intros; [eapply goods_same_letters|eapply goods_same_escaped]; eassumption. Qed.
Lemma operations_C09 : forall c st s pc po add doc_of d r l r', operations_plugin c st s pc po add doc_of d r = (Ok l, r') -> both st l.
Proof. intros until r'. intros H. apply goods_both. eapply post_operations; exact H. Qed.
Lemma fragments_C09 : forall c st s pc pf add d r l r', fragments_plugin c st s pc pf add d r = (Ok l, r') -> both st l.
Proof. intros until r'. intros H. apply goods_both. eapply post_fragments; exact H. Qed.
Lemma objects_C09 : forall c st s pc r l r', generate_types c st s pc r = (Ok l, r') -> both st l.
Proof. intros until r'. intros H. apply goods_both. eapply post_types; exact H. Qed.
Lemma inputs_C09 : forall c st s pc documents r l r', generate_inputs c st pc s documents r = (Ok l, r') -> both st l.
Proof. intros until r'. intros H. apply goods_both. eapply post_inputs; exact H. Qed.
Lemma class_goods : forall st l n b body d, Forall (good st) l -> In (SClass n b body d) l -> Forall (good st) body.
Proof. intros st l n b body d H Hin. rewrite Forall_forall in H. apply H in Hin. now apply good_class in Hin. Qed.
Lemma object_type_C09 : forall c st s pc r body r' key t fields, Forall shipped st ->
  generate_types c st s pc r = (Ok body, r') -> In (key, t) (s_types s) -> output_fields t = Some fields ->
  ~ object_skipped (ob_skip_underscore pc) (ob_skip_double_underscore pc) key ->
  NoDup (map folded (map fst fields)) ->
  exists bases b, In (SClass (schema_class_name st key t) bases b []) body
    /\ map wire (class_fields b) = map fst fields /\ NoDup (map attribute (class_fields b)).
Proof.
  intros c st s pc r body r' key t fields HS H Hin Ho Hs N. assert (G := post_types _ _ _ _ _ _ _ H).
  destruct (objects_C08 _ _ _ _ _ _ _ _ _ _ H Hin Ho Hs) as (bases & b & Hb & W). exists bases, b. split; [exact Hb|]. split; [exact W|].
  eapply nodup_attributes; [exact HS| |exact W|exact N]. eapply class_goods; eassumption.
Qed.
