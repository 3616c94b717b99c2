(** The attributes of generated classes as pydantic sees them. *)
From Verif Require Import Base PyAst Gql Config Stylers Registry Utils Documents Inline Enums Inputs Recurse Fragments Operations Objects
  Spec_Types Spec_Inputs Spec_Fields Spec_Naming Spec_Names Spec_Pydantic P_Base P_Monad P_Stylers P_Attr.

(** ** the first character *)
Lemma starts_head : forall x s, startswith "_" (String x s) = is_under x.
Proof. intros x s. destruct s, x as [[] [] [] [] [] [] [] []]; reflexivity. Qed.
Definition head (s : string) : option ascii := match s with EmptyString => None | String x _ => Some x end.
Lemma starts_of_head : forall a b, head a = head b -> startswith "_" a = startswith "_" b.
Proof. intros [|x a] [|y b] E; try discriminate; [reflexivity|]. injection E as ->. now rewrite !starts_head. Qed.
Lemma head_sub1 : forall s b, head (sub1 b s) = head s.
Proof.
  intros [|x s] b; [reflexivity|]. cbn [sub1]. destruct (b && is_lower x); [reflexivity|]. destruct s as [|y [|z s]]; try reflexivity.
  destruct (negb _ && _ && _); reflexivity.
Qed.
Lemma head_sub2 : forall s, head (sub2 s) = head s.
Proof. intros [|x [|y s]]; try reflexivity. cbn [sub2]. destruct ((_ || _) && _); reflexivity. Qed.
Lemma under_lower : forall x, is_under (to_lower x) = is_under x.
Proof. intros x. destruct x as [[] [] [] [] [] [] [] []]; reflexivity. Qed.
Lemma starts_lower : forall s, startswith "_" (str_lower s) = startswith "_" s.
Proof. intros [|x s]; [reflexivity|]. change (str_lower (String x s)) with (String (to_lower x) (str_lower s)). rewrite !starts_head. apply under_lower. Qed.
Lemma starts_snake : forall s, startswith "_" (camel_to_snake s) = startswith "_" s.
Proof. intros s. unfold camel_to_snake. rewrite starts_lower. apply starts_of_head. now rewrite head_sub2, head_sub1. Qed.
Lemma starts_shipped : forall x n, shipped x -> startswith "_" (sty_node x n) = startswith "_" n /\ startswith "_" (sty_parameter x n) = startswith "_" n.
Proof. intros x n H. destruct H; cbn; split; try reflexivity; apply starts_snake. Qed.
Lemma starts_style : forall (sel : styler -> string -> string) st n, (forall x m, In x st -> startswith "_" (sel x m) = startswith "_" m) ->
  startswith "_" (style_with sel st n) = startswith "_" n.
Proof.
  intros sel st n H. unfold style_with.
  assert (E : startswith "_" (fold_left (fun m x => sel x m) st n) = startswith "_" n).
  { revert n. induction st as [|x st IH]; intros n; [reflexivity|]. cbn [fold_left]. rewrite IH by (intros; apply H; now right). apply H. now left. }
  destruct (iskeyword _) eqn:K; [|exact E]. rewrite <- E. apply starts_of_head. destruct (fold_left _ st n); [discriminate K|reflexivity].
Qed.
Lemma origin_starts : forall st n w, Forall shipped st -> origin st n w -> startswith "_" n = startswith "_" w \/ (n = "typename" /\ w = "__typename").
Proof.
  intros st n w H [->|[->|[E| ->]]]; auto; left; apply starts_style; intros x m Hx; rewrite Forall_forall in H; now apply starts_shipped, H.
Qed.
Lemma origin_field : forall st n w, Forall shipped st -> origin st n w -> public_wire w -> model_field n.
Proof.
  intros st n w H O [P1 P2]. split.
  - unfold private_name. destruct (origin_starts _ _ _ H O) as [E|[-> _]]; [rewrite E, P1|]; discriminate.
  - intros Hn. apply P2. rewrite <- (origin_folded _ _ _ H O). now apply in_map.
Qed.
Lemma typename_field : model_field "typename".
Proof. split; [discriminate|]. cbn. intuition discriminate. Qed.
Definition names_told (st : list styler) (l : list stmt) : Prop := Forall shipped st -> public_fields l /\ private_fields l /\ (all_public l -> all_creatable l).
Lemma goods_told : forall st l, Forall (good st) l -> names_told st l.
Proof.
  intros st l H HS. assert (O : forall body f, In body (flat_map class_bodies l) -> In f (class_fields body) -> origin st (attribute f) (wire f)).
  { intros body f Hb Hf. apply good_bodies in H. rewrite Forall_forall in H. eapply good_fields; [exact (H _ Hb)|exact Hf]. }
  split; [|split].
  - intros body f Hb Hf. now apply (origin_field st), O with (body := body).
  - intros body f Hb Hf HU. destruct (origin_starts _ _ _ HS (O _ _ Hb Hf)) as [E|[E1 E2]]; [left|right; auto]. unfold private_name. now rewrite E.
  - intros HA body Hb n a v Hf. assert (M : model_field n).
    { destruct (HA _ _ Hb Hf) as [P|E]; [exact (origin_field st n _ HS (O _ _ Hb Hf) P)|]. unfold attribute in E. cbn in E. subst n. apply typename_field. }
    destruct M as [M1 M2]. split; [exact M2|]. intros P. contradiction.
Qed.
Lemma operations_C53 : forall c st s pc po add doc_of d r l r', operations_plugin c st s pc po add doc_of d r = (Ok l, r') -> names_told st l.
Proof. intros until r'. intros H. apply goods_told. eapply post_operations; exact H. Qed.
Lemma fragments_C53 : forall c st s pc pf add d r l r', fragments_plugin c st s pc pf add d r = (Ok l, r') -> names_told st l.
Proof. intros until r'. intros H. apply goods_told. eapply post_fragments; exact H. Qed.
Lemma objects_C53 : forall c st s pc r l r', generate_types c st s pc r = (Ok l, r') -> names_told st l.
Proof. intros until r'. intros H. apply goods_told. eapply post_types; exact H. Qed.
Lemma inputs_C53 : forall c st s pc documents r l r', generate_inputs c st pc s documents r = (Ok l, r') -> names_told st l.
Proof. intros until r'. intros H. apply goods_told. eapply post_inputs; exact H. Qed.
