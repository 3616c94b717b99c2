(** Basic facts about type_field_node, fragments and operations. *)
From Verif Require Import Base PyAst Gql Config Stylers Registry Utils Documents Inline Recurse Fragments Operations
  P_Base P_Gql P_Monad P_Annot.

(** ** Induction over field nodes: the hypothesis covers the fields of the selection set and
    those of inline fragments directly in it *)
Definition deep (Q : fieldnode -> Prop) (x : selection) : Prop :=
  match x with
  | SelField g => Q g
  | SelInline _ _ m => forall g, In (SelField g) m -> Q g
  | SelSpread _ _ => True
  end.
Lemma fieldnode_rect' : forall Q : fieldnode -> Prop,
  (forall a n ar ds, Q (FieldNode a n ar ds None)) ->
  (forall a n ar ds l, (forall x, In x l -> deep Q x) -> Q (FieldNode a n ar ds (Some l))) ->
  forall f, Q f.
Proof.
  intros Q H0 H1 f. change (deep Q (SelField f)). generalize (SelField f). clear f.
  apply sel_ind; cbn.
  - exact H0.
  - intros. apply H1. rewrite Forall_forall in H. exact H.
  - auto.
  - intros cond d l H g Hg. rewrite Forall_forall in H. apply (H _ Hg).
Qed.

Lemma tfn_eq : forall c st s alias name args ds sels parent fd,
  type_field_node c st s (FieldNode alias name args ds sels) parent fd =
  let target := match alias with Some a => a | None => name end in
  bind (wrap_annotation c (named_annotation c st s (type_field_node c st s) parent target sels) (fd_type fd) true)
    (fun r => bind (field_statements c st target fd (snd r)) (fun body => ret (fst r, body))).
Proof. reflexivity. Qed.

(** ** Frame *)
Definition Ksel := [KImp; KBui; KFwd].
Section EvRec.
Variable c : gconfig.
Variable st : list styler.
Variable s : schema.
Notation EV := (ev st Ksel).
Lemma ev_optional_if : forall b m, EV m -> EV (optional_if b m).
Proof. intros b m H. unfold optional_if. ev_tac. Qed.
Definition Qev (tfn : typer) (f : fieldnode) : Prop := forall parent fd, EV (tfn f parent fd).
Lemma ev_walk : forall {A} (item : A -> selection -> M A) sels a,
  (forall l x a, sels = Some l -> In x l -> EV (item a x)) -> EV (walk item sels a).
Proof.
  intros A item [l|] a H; [|apply ev_ret]. unfold walk. apply ev_mfold. intros a' x Hx.
  destruct (is_typename_field x); [apply ev_ret|]. eapply H; eauto.
Qed.
Lemma ev_inline_item : forall tfn cls on acc x, (forall g, x = SelField g -> Qev tfn g) -> EV (inline_item s tfn cls on acc x).
Proof. intros tfn cls on [[a b] d] [g|n ds|cond ds l] H; unfold inline_item; ev_tac. now apply H. Qed.
Lemma ev_union_item : forall tfn parent acc x, deep (Qev tfn) x -> EV (union_item c s tfn parent acc x).
Proof.
  intros tfn parent [a b] [g|n ds|cond ds l] H; cbn in H; unfold union_item; ev_tac.
  apply ev_inline_item. intros g ->. auto.
Qed.
Definition all_deep (Q : fieldnode -> Prop) (sels : option (list selection)) : Prop :=
  forall l x, sels = Some l -> In x l -> deep Q x.
Lemma ev_union_annotation : forall tfn parent sels o, all_deep (Qev tfn) sels -> EV (union_annotation c s tfn parent sels o).
Proof.
  intros tfn parent sels o H. unfold union_annotation. apply ev_bind.
  - apply ev_walk. intros l x a E Hx. apply ev_union_item. eapply H; eauto.
  - intros [classes names]. destruct names as [|n [|m names]]; [apply ev_raise|apply ev_ret|].
    apply ev_bind; [ev_one|intros _]. apply ev_bind; [apply ev_optional_if, ev_ret|]. intros; apply ev_ret.
Qed.
Lemma ev_spread_bases : forall f b, EV (spread_bases f b).
Proof. intros. unfold spread_bases. ev_tac. Qed.
Lemma ev_inline_fields : forall tfn strict parent on sub, (forall g, In (SelField g) sub -> Qev tfn g) ->
  EV (inline_fields s tfn strict parent on sub).
Proof.
  intros tfn strict parent on sub H. unfold inline_fields. apply ev_mfold. intros acc [g|n d|cond d l] Hx; ev_tac. now apply H.
Qed.
Lemma ev_iface_item : forall tfn strict fields parent p x, deep (Qev tfn) x -> EV (iface_item s tfn strict fields parent p x).
Proof.
  intros tfn strict fields parent p [g|n ds|cond ds l] H; cbn in H; unfold iface_item.
  - apply ev_bind; [apply ev_from_opt|]. intros fd. apply ev_bind; [apply H|]. intros; apply ev_ret.
  - apply ev_bind; [apply ev_spread_bases|]. intros; apply ev_ret.
  - apply ev_bind; [apply ev_from_opt|]. intros on. apply ev_bind; [|intros _; apply ev_bind; [now apply ev_inline_fields|intros; apply ev_ret]].
    destruct (get_type s on) as [[]|]; ev_tac.
Qed.
Lemma ev_implementing_class : forall m n p i, EV (implementing_class c s m n p i).
Proof. intros. unfold implementing_class. ev_tac. Qed.
Lemma ev_interface_annotation : forall tfn parent target n d fields sels o, all_deep (Qev tfn) sels ->
  EV (interface_annotation c s tfn parent target n d fields sels o).
Proof.
  intros tfn parent target n d fields sels o H. unfold interface_annotation. cbn zeta.
  apply ev_bind.
  { apply ev_walk. intros l x a E Hx. apply ev_iface_item. eapply H; eauto. }
  intros p. do 3 (apply ev_bind; [ev_one|intros ?]). apply ev_bind.
  { apply ev_mmap. intros. apply ev_implementing_class. }
  intros ic. do 2 (apply ev_bind; [ev_one|intros _]). apply ev_bind; [ev_tac|]. intros rest.
  apply ev_bind; [apply ev_optional_if, ev_ret|]. intros e. ev_tac.
Qed.
Lemma ev_object_item : forall tfn n cls fields acc x, deep (Qev tfn) x -> EV (object_item tfn n cls fields acc x).
Proof. intros tfn n cls fields [[a b] d] [g|m ds|cond ds l] H; cbn in H; unfold object_item; ev_tac. Qed.
Lemma ev_object_annotation : forall tfn parent target n d fields sels o, all_deep (Qev tfn) sels ->
  EV (object_annotation c st tfn parent target n d fields sels o).
Proof.
  intros tfn parent target n d fields sels o H. unfold object_annotation. cbn zeta. apply ev_bind; [ev_one|]. intros t.
  assert (G : EV (
      let* r := walk (object_item tfn n (parent +s+ py_capitalize target) fields) sels ([], [], [doc_stmt d; t]) in
      let '(classes, bases, body) := r in
      let* add := match bases with [] => get_additional_bases_for_type c n | _ => ret (map EName bases) end in
      let* cfg := generate_pydantic_config (KT KObject) c None in
      let* e := optional_if o (ret (EName (parent +s+ py_capitalize target))) in
      ret (classes ++ [SClass (parent +s+ py_capitalize target) (add ++ names_of (c_object_bases c)) (body ++ cfg) []], e))).
  { apply ev_bind.
    - apply ev_walk. intros l x a E Hx. apply ev_object_item. eapply H; eauto.
    - intros [[classes bases] body]. apply ev_bind; [ev_tac|]. intros. apply ev_bind; [ev_one|]. intros.
      apply ev_bind; [apply ev_optional_if, ev_ret|]. intros; apply ev_ret. }
  destruct (option_map non_typename sels) as [[|[g|f ds|cond ds m] [|y l]]|]; try exact G.
  apply ev_bind; [ev_one|]. intros i. apply ev_bind; [destruct i; ev_tac|]. intros e.
  apply ev_bind; [apply ev_optional_if, ev_ret|]. intros; apply ev_ret.
Qed.
Lemma ev_named_annotation : forall tfn parent target sels n o, all_deep (Qev tfn) sels ->
  EV (named_annotation c st s tfn parent target sels n o).
Proof.
  intros tfn parent target sels n o H. unfold named_annotation.
  destruct (get_type s n) as [[]|]; try apply ev_raise.
  - apply ev_bind; [apply ev_optional_if; ev_one|]. intros; apply ev_ret.
  - apply ev_bind; [apply ev_optional_if; ev_one|]. intros; apply ev_ret.
  - now apply ev_object_annotation.
  - now apply ev_interface_annotation.
  - now apply ev_union_annotation.
Qed.
Lemma ev_wrap_annotation : forall named t o, (forall n o, EV (named n o)) -> EV (wrap_annotation c named t o).
Proof.
  intros named t. induction t as [n|t IH|t IH]; intros o H; cbn [wrap_annotation]; [apply H| |now apply IH].
  apply ev_bind; [ev_one|]. intros _. apply ev_bind; [ev_tac|]. intros _. apply ev_bind; [now apply IH|]. intros; apply ev_ret.
Qed.
Lemma ev_field_statements : forall target fd a, EV (field_statements c st target fd a).
Proof. intros. unfold field_statements. cbn zeta. ev_tac. Qed.
Lemma ev_type_field_node : forall f parent fd, EV (type_field_node c st s f parent fd).
Proof.
  intros f. change (Qev (type_field_node c st s) f). revert f. apply fieldnode_rect'; intros; intros parent fd; rewrite tfn_eq; cbn zeta;
    (apply ev_bind; [|intros r; apply ev_bind; [apply ev_field_statements|intros; apply ev_ret]]);
    apply ev_wrap_annotation; intros; apply ev_named_annotation.
  - intros l x E. discriminate.
  - intros l' x [= ->]. auto.
Qed.
End EvRec.
#[export] Hint Resolve ev_type_field_node : evdb.
