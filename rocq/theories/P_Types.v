(** Lemmas about annotations. *)
From Verif Require Import Base PyAst Gql Spec_Types.

Lemma accepts_all : forall e l,
  (fix all (l : list jval) : Prop := match l with [] => True | x :: r => accepts e x /\ all r end) l
  <-> forall x, In x l -> accepts e x.
Proof.
  intros e l. induction l as [|a l IH]; [split; [intros _ x []|auto]|].
  rewrite IH. split.
  - intros [H1 H2] x [<-|H]; auto.
  - intros H; split; [apply H; now left|intros; apply H; now right].
Qed.
(** A shape that [accepts] treats as a plain slice: not a tuple *)
Definition no_tuple (e : expr) : Prop := forall l, e <> ETuple l.
Lemma accepts_optional : forall e v, no_tuple e -> accepts (optional_of e) v <-> v = JNull \/ accepts e v.
Proof. intros e v H. destruct e; try reflexivity. destruct (H elts eq_refl). Qed.
Lemma accepts_list : forall e v, no_tuple e ->
  accepts (list_of e) v <-> exists l, v = JSeq false l /\ forall x, In x l -> accepts e x.
Proof.
  intros e v H. assert (E : accepts (list_of e) v <-> exists l, v = JSeq false l /\
    (fix all (l : list jval) : Prop := match l with [] => True | x :: r => accepts e x /\ all r end) l).
  { destruct e; try reflexivity. destruct (H elts eq_refl). }
  rewrite E. clear E. split; intros (l & Hl & Ha); exists l; split; auto; now apply accepts_all.
Qed.
Lemma accepts_tuple : forall e v,
  accepts (tuple_of e) v <-> exists l, v = JSeq true l /\ forall x, In x l -> accepts e x.
Proof.
  intros e v. cbn. split.
  - intros (_ & l & Hl & Ha). exists l; split; auto. now apply accepts_all.
  - intros (l & Hl & Ha). split; [reflexivity|]. exists l; split; auto. now apply accepts_all.
Qed.
Lemma accepts_annotated : forall e l v, accepts (annotated_of (e :: l)) v <-> accepts e v.
Proof. reflexivity. Qed.
Lemma accepts_union : forall l v, l <> [] -> accepts (union_of l) v <-> exists e, In e l /\ accepts e v.
Proof.
  intros [|e l] v H; [easy|]. cbn. clear H.
  assert (E : (fix any (l : list expr) : Prop := match l with [] => False | x :: r => accepts x v \/ any r end) l
              <-> exists e, In e l /\ accepts e v).
  { induction l as [|x l IH]; [split; [intros []|intros (? & [] & _)]|]. rewrite IH. split.
    - intros [H|(y & H1 & H2)]; [exists x|exists y]; cbn; auto.
    - intros (y & [<-|H1] & H2); eauto. }
  rewrite E. split.
  - intros [H|(y & H1 & H2)]; [exists e|exists y]; cbn; auto.
  - intros (y & [<-|H1] & H2); eauto.
Qed.
Lemma nt_optional : forall e, no_tuple (optional_of e). Proof. intros e l; discriminate. Qed.
Lemma nt_list : forall e, no_tuple (list_of e). Proof. intros e l; discriminate. Qed.
Lemma nt_tuple : forall e, no_tuple (tuple_of e). Proof. intros e l; discriminate. Qed.
Lemma nt_union : forall e, no_tuple (union_of e). Proof. intros e l; discriminate. Qed.
Lemma nt_annotated : forall e, no_tuple (annotated_of e). Proof. intros e l; discriminate. Qed.
Lemma nt_name : forall n, no_tuple (EName n). Proof. intros e l; discriminate. Qed.
Lemma nt_str : forall n, no_tuple (estr n). Proof. intros e l; discriminate. Qed.
#[export] Hint Resolve nt_optional nt_list nt_tuple nt_union nt_annotated nt_name nt_str : nt.
(** [list_of] or [tuple_of] *)
Definition seq_of (tup : bool) : expr -> expr := if tup then tuple_of else list_of.
Lemma nt_seq : forall tup e, no_tuple (seq_of tup e). Proof. intros []; auto with nt. Qed.
#[export] Hint Resolve nt_seq : nt.
Lemma accepts_seq : forall tup e v, no_tuple e ->
  accepts (seq_of tup e) v <-> exists l, v = JSeq tup l /\ forall x, In x l -> accepts e x.
Proof. intros [] e v H; [apply accepts_tuple|now apply accepts_list]. Qed.

(** ** The shape all annotation generators produce: [annot tup leaf t opt e] is the annotation
    of [t] when nullability is not yet stripped ([opt = true]) or stripped. *)
Inductive annot (tup : bool) (leaf : string -> expr -> Prop) : gty -> bool -> expr -> Prop :=
| an_named : forall n e, leaf n e -> annot tup leaf (GNamed n) false e
| an_named_opt : forall n e, leaf n e -> annot tup leaf (GNamed n) true (optional_of e)
| an_list : forall t e, annot tup leaf t true e -> annot tup leaf (GList t) false (seq_of tup e)
| an_list_opt : forall t e, annot tup leaf t true e ->
    annot tup leaf (GList t) true (optional_of (seq_of tup e))
| an_nonnull : forall t o e, annot tup leaf t false e -> annot tup leaf (GNonNull t) o e.

Definition leaf_ok (leaf : string -> expr -> Prop) (cls : string -> string -> Prop) : Prop :=
  forall n e, leaf n e -> no_tuple e /\ forall v, accepts e v <-> exists c, cls n c /\ v = JLeaf c.
Lemma annot_accepts : forall tup leaf cls, leaf_ok leaf cls ->
  forall t o e, annot tup leaf t o e ->
  no_tuple e /\ forall v, accepts e v <-> (if o then inhab tup cls t v else v <> JNull /\ inhab tup cls t v).
Proof.
  intros tup leaf cls HL t o e H. induction H.
  - destruct (HL n e H) as [N A]. split; [assumption|]. intros v. rewrite A. cbn. split.
    + intros (c & Hc & ->). split; [discriminate|]. eauto.
    + intros [Hn [->|(c & Hc)]]; [congruence|eauto].
  - destruct (HL n e H) as [N A]. split; [apply nt_optional|]. intros v.
    rewrite accepts_optional by assumption. rewrite A. reflexivity.
  - destruct IHannot as [N A]. split; [apply nt_seq|]. intros v. rewrite accepts_seq by assumption. cbn. split.
    + intros (l & -> & Hl). split; [discriminate|]. right. exists l; split; [reflexivity|].
      intros x Hx. apply A; auto.
    + intros [Hn [->|(l & -> & Hl)]]; [congruence|]. exists l; split; [reflexivity|]. intros x Hx; apply A; auto.
  - destruct IHannot as [N A]. split; [apply nt_optional|]. intros v.
    rewrite accepts_optional, accepts_seq by auto with nt. cbn. split.
    + intros [->|(l & -> & Hl)]; [now left|right]. exists l; split; [reflexivity|]. intros x Hx. apply A; auto.
    + intros [->|(l & -> & Hl)]; [now left|right]. exists l; split; [reflexivity|]. intros x Hx. apply A; auto.
  - destruct IHannot as [N A]. split; [assumption|]. intros v. rewrite A. destruct o; cbn; [reflexivity|tauto].
Qed.
