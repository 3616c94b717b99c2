(** Names looked up by a server scaffold: expressions. *)
From Verif Require Import Base PyAst Gql Config Stylers Registry Utils Recurse Objects Strawberry
  Spec_Types Spec_Inputs Spec_Imports Spec_Scope Spec_Scaffold Spec_Syntax3 Spec_Scope3 P_Base P_Monad P_Types P_Inputs P_Imports P_Scope P_Scope2 P_Mro2 P_Scaffold P_Annot.

Section Class.
Variables (bi : list string) (c : gconfig) (st : list styler) (s : schema) (ds : list directivedef) (pc : sbcfg).
Hypothesis Hbi : incl simple_types bi.
(** the names bound so far, the type whose class is under construction, the class, and the types it may refer to *)
Variables (B : list string) (key cls : string) (W : string -> Prop).
Notation given := (given bi).

Record inv (r : reg) : Prop := Inv {
  i_enums : forall k n, dget k (r_enums r) = Some n -> In n B \/ n = cls;
  i_inputs : forall k n, dget k (r_inputs r) = Some n -> In n B \/ n = cls;
  i_objects : forall k n, dget k (r_objects r) = Some n -> In n B \/ n = cls;
  i_ifaces : forall k n, dget k (r_iface_base r) = Some n -> In n B \/ (k = key /\ n = cls);
  i_scalars : forall k t, dget k (r_scalars r) = Some t -> has_dot t = false -> In t bi \/ In t B;
  i_styled : names_styled st r;
  i_strawberry : given r "strawberry" }.
Record move (r r' : reg) : Prop := Move {
  m_step : step st cls r r';
  m_builtins : forall k, In k (r_builtins r') -> In k (r_builtins r) \/ W k }.
Lemma move_refl : forall r, move r r.
Proof. intros r. split; [apply step_refl|auto]. Qed.
Lemma move_trans : forall a b d, move a b -> move b d -> move a d.
Proof. intros a b d [A1 A2] [B1 B2]. split; [eapply step_trans; eassumption|]. intros k Hk. destruct (B2 _ Hk); auto. Qed.
Lemma move_inv : forall r r', move r r' -> inv r -> inv r'.
Proof.
  intros r r' [S _] [I1 I2 I3 I4 I5 I6 I7]. assert (E := step_ev _ _ _ _ S). split.
  - now rewrite (step_enums _ _ _ _ S).
  - now rewrite (step_inputs _ _ _ _ S).
  - rewrite (frame_objects _ _ _ _ (ltac:(cbn; intuition discriminate) : ~ In KObj input_kinds) E). exact I3.
  - rewrite (frame_iface _ _ _ _ (ltac:(cbn; intuition discriminate) : ~ In KIfa input_kinds) E). exact I4.
  - now rewrite (step_scalars _ _ _ _ S).
  - eapply step_styled; eassumption.
  - eapply given_rle; [exact (step_rle _ _ _ _ S)|exact I7].
Qed.
Lemma move_rle : forall r r', move r r' -> rle r r'.
Proof. intros r r' [S _]. exact (step_rle _ _ _ _ S). Qed.

(** what may be looked up *)
Definition bound (r : reg) (n : string) : Prop := given r n \/ In n B.
Definition known (r : reg) (n : string) : Prop := bound r n \/ bound r (before_dot n).
Definition covers (r : reg) (l : list string) : Prop := forall n, In n l -> known r n.
Lemma bound_rle : forall r r' n, rle r r' -> bound r n -> bound r' n.
Proof. intros r r' n H [G|G]; [left; eapply given_rle; eassumption|now right]. Qed.
Lemma known_rle : forall r r' n, rle r r' -> known r n -> known r' n.
Proof. intros r r' n H [G|G]; [left|right]; eapply bound_rle; eassumption. Qed.
Lemma covers_rle : forall r r' l, rle r r' -> covers r l -> covers r' l.
Proof. intros r r' l H C n Hn. eapply known_rle; eauto. Qed.
Lemma covers_nil : forall r, covers r [].
Proof. intros r n []. Qed.
Lemma covers_cons : forall r n l, known r n -> covers r l -> covers r (n :: l).
Proof. intros r n l A C x [<-|Hx]; auto. Qed.
Lemma covers_app : forall r a b, covers r (a ++ b) <-> covers r a /\ covers r b.
Proof.
  intros r a b. split; [intros H; split; intros n Hn; apply H, in_app_iff; auto|]. intros [A C] n Hn. apply in_app_iff in Hn as [Hn|Hn]; auto.
Qed.
Lemma covers_flat : forall {A} r (f : A -> list string) l, (forall x, In x l -> covers r (f x)) -> covers r (flat_map f l).
Proof. intros A r f l H n Hn. apply in_flat_map in Hn as (x & Hx & Hn). eapply H; eassumption. Qed.
(** the class names that may be quoted *)
Definition target_of (m n : string) : Prop :=
  match get_type s m with
  | Some (TEnum _ _) => mem m built_in_keys = false /\ n = style_enum_class st m
  | Some (TObject _ _ _ _) => n = style_objecttype_class st m
  | Some (TInterface _ _ _) => n = style_interface_class st m
  | Some (TInput _ _ _) => n = style_inputtype_class st m
  | _ => False
  end.
Definition quotes_ok (r : reg) (l : list string) : Prop := forall n, In n l -> given r n \/ exists m, W m /\ target_of m n.
Lemma quotes_rle : forall r r' l, rle r r' -> quotes_ok r l -> quotes_ok r' l.
Proof. intros r r' l H Q n Hn. destruct (Q n Hn) as [G|G]; [left; eapply given_rle; eassumption|now right]. Qed.
Lemma quotes_nil : forall r, quotes_ok r [].
Proof. intros r n []. Qed.
Lemma quotes_app : forall r a b, quotes_ok r a -> quotes_ok r b -> quotes_ok r (a ++ b).
Proof. intros r a b A C n Hn. apply in_app_iff in Hn as [Hn|Hn]; auto. Qed.
Lemma quotes_flat : forall {A} r (f : A -> list string) l, (forall x, In x l -> quotes_ok r (f x)) -> quotes_ok r (flat_map f l).
Proof. intros A r f l H n Hn. apply in_flat_map in Hn as (x & Hx & Hn). eapply H; eassumption. Qed.

(** ** Steps *)
Definition at_ {A} (r : reg) (m : M A) (Q : reg -> A -> Prop) : Prop := forall a r', m r = (Ok a, r') -> move r r' /\ Q r' a.
Lemma at_ret : forall {A} r (a : A) (Q : reg -> A -> Prop), Q r a -> at_ r (ret a) Q.
Proof. intros A r a Q H b r' E. injection E as <- <-. split; [apply move_refl|exact H]. Qed.
Lemma at_raise : forall {A} r e msg (Q : reg -> A -> Prop), at_ r (raise e msg) Q.
Proof. intros A r e msg Q b r' E. discriminate E. Qed.
Lemma at_bind : forall {A C} r (m : M A) (k : A -> M C) Q1 Q, inv r -> at_ r m Q1 ->
  (forall a r1, inv r1 -> move r r1 -> Q1 r1 a -> at_ r1 (k a) Q) -> at_ r (bind m k) Q.
Proof.
  intros A C r m k Q1 Q I H K b r' E. apply bind_ok in E as (a & r1 & E1 & E2). destruct (H _ _ E1) as [M1 A1].
  destruct (K a r1 (move_inv _ _ M1 I) M1 A1 _ _ E2) as [M2 A2]. split; [eapply move_trans; eassumption|exact A2].
Qed.
Lemma at_weaken : forall {A} r (m : M A) (P Q : reg -> A -> Prop), at_ r m P -> (forall r' a, rle r r' -> P r' a -> Q r' a) -> at_ r m Q.
Proof. intros A r m P Q H K a r' E. destruct (H _ _ E) as [M1 A1]. split; [exact M1|]. apply K; [exact (move_rle _ _ M1)|exact A1]. Qed.
Lemma at_quiet : forall {A} r (m : M A), ev st [KImp] m -> at_ r m (fun _ _ => True).
Proof.
  intros A r m H a r' E. split; [|exact I]. split; [eapply step_quiet; [|exact E]; eapply ev_incl; [|exact H]; intros k; cbn; tauto|].
  intros k. rewrite (frame_builtins _ _ _ _ (ltac:(cbn; intuition discriminate) : ~ In KBui [KImp]) (ev_ok _ _ _ _ _ _ H E)). auto.
Qed.
Lemma at_import : forall r n, at_ r (register_import n) (fun r _ => known r (last_comp n)).
Proof.
  intros r n a r' E. split; [exact (proj1 (at_quiet r _ (ev_register_import st n) _ _ E))|]. left. left. exact (import_given bi Hbi _ _ _ _ E).
Qed.
Lemma at_mmap : forall {A C} (f : A -> M C) l (Q : reg -> A -> C -> Prop),
  (forall r r' x y, rle r r' -> Q r x y -> Q r' x y) -> (forall x r, In x l -> inv r -> at_ r (f x) (fun r y => Q r x y)) ->
  forall r, inv r -> at_ r (mmap f l) (fun r ys => Forall2 (Q r) l ys).
Proof.
  intros A C f l Q MO. induction l as [|x l IH]; intros H r I; cbn [mmap]; [apply at_ret; constructor|].
  eapply at_bind; [exact I|apply H; [now left|exact I]|]. intros y r1 I1 M1 Q1. eapply at_bind; [exact I1|apply IH; [intros; apply H; [now right|assumption]|exact I1]|].
  intros ys r2 I2 M2 Q2. apply at_ret. constructor; [eapply MO; [exact (move_rle _ _ M2)|exact Q1]|exact Q2].
Qed.

(** ** References *)
Definition ann_ok (r : reg) (e : expr) : Prop := covers r (loads e) /\ quotes_ok r (quoted e).
Lemma ann_rle : forall r r' e, rle r r' -> ann_ok r e -> ann_ok r' e.
Proof. intros r r' e H [A C]. split; [eapply covers_rle; eassumption|eapply quotes_rle; eassumption]. Qed.
Lemma name_ok : forall r n, known r n -> ann_ok r (EName n).
Proof. intros r n H. split; [apply covers_cons; [exact H|apply covers_nil]|apply quotes_nil]. Qed.
Lemma scalar_at : forall r n, inv r -> at_ r (reference_scalar n) ann_ok.
Proof.
  intros r n I e r' H. split.
  { assert (V : ev st [KImp] (reference_scalar n)) by (unfold reference_scalar; ev_tac). exact (proj1 (at_quiet r _ V _ _ H)). }
  unfold reference_scalar in H. apply bind_ok in H as (m & r1 & Hm & H). apply gets_ok in Hm as [-> ->].
  destruct (dget n (r_scalars r)) as [t|] eqn:E; [|discriminate]. apply bind_ok in H as (u & r1 & H1 & H). apply ret_ok in H as [-> ->]. apply name_ok.
  destruct (has_dot t) eqn:D.
  - left. left. exact (import_given bi Hbi _ _ _ _ H1).
  - apply ret_ok in H1 as [_ ->]. rewrite last_comp_plain by exact D. left. destruct (i_scalars _ I _ _ E D); [left; now left|now right].
Qed.
Lemma forward_at : forall r n, given r n \/ (exists m, W m /\ target_of m n) -> at_ r (add_forward cls ;; ret (estr n)) ann_ok.
Proof.
  intros r n T e r' H. apply bind_ok in H as (u & r1 & H1 & H). apply ret_ok in H as [-> ->]. unfold add_forward, modify in H1. injection H1 as _ <-.
  split; [split; [apply step_mark|cbn; auto]|]. split; [apply covers_nil|]. intros x [<-|[]]. destruct T as [T|T]; [left|now right].
  eapply given_rle; [|exact T]. exact (step_rle _ _ _ _ (step_mark st cls r)).
Qed.
Lemma input_at : forall r n d f dd, inv r -> get_type s n = Some (TInput d f dd) -> W n -> at_ r (reference_inputtype st n cls true) ann_ok.
Proof.
  intros r n d f dd I G HW e r' H. unfold reference_inputtype in H. cbn zeta in H. apply bind_ok in H as (m & r1 & Hm & H). apply gets_ok in Hm as [-> ->].
  assert (T : exists m, W m /\ target_of m (style_inputtype_class st n)) by (exists n; split; [exact HW|]; unfold target_of; now rewrite G).
  destruct (dget n (r_inputs r)) as [x|] eqn:E; [|exact (forward_at r _ (or_intror T) _ _ H)].
  destruct (String.eqb_spec cls (style_inputtype_class st n)) as [Hp|Hp]; [exact (forward_at r _ (or_intror T) _ _ H)|].
  apply ret_ok in H as [-> ->]. split; [apply move_refl|]. apply name_ok. left. right. destruct (i_inputs _ I _ _ E) as [K|K]; [exact K|].
  destruct (i_styled _ I) as (S1 & _). rewrite (S1 _ _ E) in K. congruence.
Qed.
Lemma object_at : forall r n d i f dd, inv r -> get_type s n = Some (TObject d i f dd) -> W n -> at_ r (reference_object st n cls true) ann_ok.
Proof.
  intros r n d i f dd I G HW e r' H. unfold reference_object, reference_generic in H. cbn zeta in H. apply bind_ok in H as (m & r1 & Hm & H). apply gets_ok in Hm as [-> ->].
  assert (T : exists m, W m /\ target_of m (style_objecttype_class st n)) by (exists n; split; [exact HW|]; unfold target_of; now rewrite G).
  destruct (dmem n (r_objects r)) eqn:E; cbn [negb orb] in H; [|exact (forward_at r _ (or_intror T) _ _ H)].
  destruct (String.eqb_spec cls (style_objecttype_class st n)) as [Hp|Hp]; [exact (forward_at r _ (or_intror T) _ _ H)|].
  apply ret_ok in H as [-> ->]. split; [apply move_refl|]. apply name_ok. left. right. unfold dmem in E. destruct (dget n (r_objects r)) as [x|] eqn:D; [|discriminate].
  destruct (i_styled _ I) as (_ & _ & S1 & _). assert (X := S1 _ _ D). destruct (i_objects _ I _ _ D) as [K|K]; congruence.
Qed.
Lemma enum_at : forall r n d vs b, inv r -> get_type s n = Some (TEnum d vs) -> W n -> at_ r (reference_enum st n cls b) ann_ok.
Proof.
  intros r n d vs b I G HW e r' H. unfold reference_enum in H. destruct (mem n built_in_keys) eqn:K.
  - apply bind_ok in H as (u & r1 & H1 & H).
    assert (SQ : step st cls r r1) by (eapply step_quiet; [|exact H1]; ev_tac).
    unfold register_builtin, modify in H1. injection H1 as _ <-.
    assert (M1 : move r (with_builtins (sadd n (r_builtins r)) r)).
    { split; [|cbn; intros k Hk; apply sadd_In in Hk as [Hk|Hk]; first [left; exact Hk|right; subst; exact HW]]. exact SQ. }
    assert (GV : given (with_builtins (sadd n (r_builtins r)) r) n).
    { apply mem_In in K. assert (L : exists l, built_in n = Some l /\ In n (binds l)).
      { repeat (destruct K as [<-|K]; [eexists; split; [reflexivity|cbn; tauto]|]). contradiction. }
      destruct L as (l & L1 & L2). eapply builtin_given; [|exact L1|exact L2]. cbn. apply sadd_In; auto. }
    destruct (forward_at _ _ (or_introl GV) _ _ H) as [M2 A2]. split; [eapply move_trans; eassumption|exact A2].
  - cbn zeta in H. apply bind_ok in H as (m & r1 & Hm & H). apply gets_ok in Hm as [-> ->].
    assert (T : exists m, W m /\ target_of m (style_enum_class st n)) by (exists n; split; [exact HW|]; unfold target_of; rewrite G; now split).
    destruct (dmem n (r_enums r)) eqn:E; cbn [negb orb] in H.
    + destruct (String.eqb_spec cls (style_enum_class st n)) as [Hp|Hp].
      * destruct b; [exact (forward_at r _ (or_intror T) _ _ H)|discriminate].
      * apply ret_ok in H as [-> ->]. split; [apply move_refl|]. apply name_ok. left. right. unfold dmem in E. destruct (dget n (r_enums r)) as [x|] eqn:D; [|discriminate].
        destruct (i_styled _ I) as (_ & S1 & _). assert (X := S1 _ _ D). destruct (i_enums _ I _ _ D) as [Y|Y]; congruence.
    + destruct b; [exact (forward_at r _ (or_intror T) _ _ H)|discriminate].
Qed.
Lemma leaf_at : forall r n, inv r -> W n -> at_ r (leaf_reference c st s n cls) ann_ok.
Proof.
  intros r n I HW. unfold leaf_reference. destruct (get_type s n) as [[]|] eqn:G; try apply at_raise.
  - now apply scalar_at.
  - eapply enum_at; eassumption.
  - eapply object_at; eassumption.
  - unfold reference_interface. apply forward_at. right. exists n. split; [exact HW|]. unfold target_of. now rewrite G.
Qed.

(** ** Annotations *)
Lemma optional_at : forall r (o : bool) (m : M expr), inv r -> (forall r1, inv r1 -> at_ r1 m ann_ok) ->
  at_ r ((if o then register_import "typing.Optional" else ret tt) ;; let* e := m in ret (if o then optional_of e else e)) ann_ok.
Proof.
  intros r o m I H. eapply at_bind with (Q1 := fun r _ => o = true -> known r "Optional"); [exact I| |].
  - destruct o; [eapply at_weaken; [apply at_import|]; intros ? ? _ K _; exact K|apply at_ret; discriminate].
  - intros ? r1 I1 M1 K1. eapply at_bind; [exact I1|apply H; exact I1|]. intros e r2 I2 M2 A2. apply at_ret. destruct o; [|exact A2].
    destruct A2 as [A2 A3]. split; [|exact A3]. apply covers_cons; [|exact A2]. eapply known_rle; [exact (move_rle _ _ M2)|auto].
Qed.
Lemma list_at : forall r (o : bool) (m : M expr), inv r -> (forall r1, inv r1 -> at_ r1 m ann_ok) ->
  at_ r (register_import "typing.List" ;; (if o then register_import "typing.Optional" else ret tt) ;;
         let* e := m in ret (if o then optional_of (list_of e) else list_of e)) ann_ok.
Proof.
  intros r o m I H. eapply at_bind; [exact I|apply at_import|]. intros ? r1 I1 M1 K1.
  eapply at_bind with (Q1 := fun r _ => o = true -> known r "Optional"); [exact I1| |].
  - destruct o; [eapply at_weaken; [apply at_import|]; intros ? ? _ K _; exact K|apply at_ret; discriminate].
  - intros ? r2 I2 M2 K2. eapply at_bind; [exact I2|apply H; exact I2|]. intros e r3 I3 M3 [A3 A4]. apply at_ret.
    assert (L : ann_ok r3 (list_of e)).
    { split; [|exact A4]. apply covers_cons; [|exact A3]. eapply known_rle; [|exact K1]. eapply rle_trans; eapply move_rle; eassumption. }
    destruct o; [|exact L]. destruct L as [L1 L2]. split; [|exact L2]. apply covers_cons; [|exact L1]. eapply known_rle; [exact (move_rle _ _ M3)|auto].
Qed.
Lemma argument_at : forall t r o, inv r -> W (gty_name t) -> at_ r (argument_annotation c st s t cls o) ann_ok.
Proof.
  induction t as [n|t IH|t IH]; intros r o I HW; cbn [argument_annotation]; cbn [gty_name] in HW.
  - apply optional_at; [exact I|]. intros r1 I1. destruct (get_type s n) as [[]|] eqn:G; try apply at_raise; [now apply scalar_at|eapply enum_at; eassumption|eapply input_at; eassumption].
  - apply list_at; [exact I|]. intros r1 I1. now apply IH.
  - now apply IH.
Qed.
Definition members_in (m : string) : Prop := forall d ms m', get_type s m = Some (TUnion d ms) -> In m' ms -> W m'.
Lemma union_ok : forall r l es, known r "Union" -> Forall2 (fun (_ : string) e => ann_ok r e) l es -> ann_ok r (union_of es).
Proof.
  intros r l es K F. assert (A : forall e, In e es -> ann_ok r e).
  { induction F as [|x y l0 m0 H _ IH]; [intros e []|]. intros e [<-|He]; auto. }
  split.
  - cbn. apply covers_cons; [exact K|]. apply covers_flat. intros e He. apply A, He.
  - unfold union_of. cbn. apply quotes_flat. intros e He. apply A, He.
Qed.
Lemma named_at : forall r n o, inv r -> W n -> members_in n -> at_ r (named_object_annotation c st s n cls o) ann_ok.
Proof.
  intros r n o I HW HU. unfold named_object_annotation. apply optional_at; [exact I|]. intros r1 I1.
  assert (L : at_ r1 (leaf_reference c st s n cls) ann_ok) by now apply leaf_at.
  destruct (get_type s n) as [[]|] eqn:G; try exact L.
  eapply at_bind; [exact I1|apply at_import|]. intros ? r2 I2 M2 K2. eapply at_bind; [exact I2|apply at_mmap with (Q := fun r _ e => ann_ok r e)|].
  - intros ra rb x y. apply ann_rle.
  - intros m ra Hm Ia. apply leaf_at; [exact Ia|]. eapply HU; eassumption.
  - exact I2.
  - intros es r3 I3 M3 F. apply at_ret. eapply union_ok; [|exact F]. eapply known_rle; [exact (move_rle _ _ M3)|exact K2].
Qed.
Lemma field_at : forall t r o, inv r -> W (gty_name t) -> members_in (gty_name t) -> at_ r (field_annotation c st s t cls o) ann_ok.
Proof.
  induction t as [n|t IH|t IH]; intros r o I HW HU; cbn [field_annotation]; cbn [gty_name] in HW, HU.
  - now apply named_at.
  - apply list_at; [exact I|]. intros r1 I1. now apply IH.
  - now apply IH.
Qed.
Lemma directive_at : forall t r o, inv r -> at_ r (build_directive_type_annotation s t o) ann_ok.
Proof.
  induction t as [n|t IH|t IH]; intros r o I; cbn [build_directive_type_annotation].
  - destruct (get_type s n) as [[]|]; try apply at_raise.
    + apply optional_at; [exact I|]. intros r1 I1. now apply scalar_at.
    + intros e r' H. apply bind_ok in H as (u & r1 & _ & H). discriminate H.
  - apply list_at; [exact I|]. intros r1 I1. now apply IH.
  - now apply IH.
Qed.

(** ** Members of classes *)
Definition body_ok (r : reg) (l : list stmt) : Prop := covers r (flat_map runs l) /\ quotes_ok r (flat_map member_quotes l).
Lemma body_rle : forall r r' l, rle r r' -> body_ok r l -> body_ok r' l.
Proof. intros r r' l H [A C]. split; [eapply covers_rle; eassumption|eapply quotes_rle; eassumption]. Qed.
Lemma body_nil : forall r, body_ok r [].
Proof. intros r. split; [apply covers_nil|apply quotes_nil]. Qed.
Lemma body_app : forall r a b, body_ok r a -> body_ok r b -> body_ok r (a ++ b).
Proof. intros r a b [A1 A2] [C1 C2]. split; rewrite flat_map_app; [apply covers_app; auto|apply quotes_app; auto]. Qed.
Lemma body_concat : forall {A} r (l : list A) yss, Forall2 (fun _ y => body_ok r y) l yss -> body_ok r (List.concat yss).
Proof. intros A r l yss F. induction F; [apply body_nil|cbn; now apply body_app]. Qed.
Lemma at_mconcat : forall {A} (f : A -> M (list stmt)) l, (forall x r, In x l -> inv r -> at_ r (f x) body_ok) ->
  forall r, inv r -> at_ r (mconcat f l) body_ok.
Proof.
  intros A f l H r I y r' E. apply mconcat_ok in E as (yss & E & ->).
  destruct (at_mmap f l (fun r _ y => body_ok r y) (fun r r' x y => body_rle r r' y) H r I _ _ E) as [M1 F]. split; [exact M1|]. eapply body_concat; exact F.
Qed.
Lemma strawberry_known : forall r n, inv r -> before_dot n = "strawberry" -> known r n.
Proof. intros r n I E. right. rewrite E. left. exact (i_strawberry _ I). Qed.

Lemma default_loads : forall v, loads (convert_default_value_to_ast v) = [].
Proof.
  intros v. induction v using pyval_ind'; try reflexivity; cbn.
  - induction H as [|x l E _ IH]; [reflexivity|]. cbn. rewrite E, IH. reflexivity.
  - induction H as [|x l E _ IH]; [reflexivity|]. cbn. rewrite E, IH. reflexivity.
Qed.
Lemma literal_loads : forall v e, convert_valuenode_to_ast v = Ok e -> no_enum v = true -> loads e = [].
Proof.
  fix IH 1. intros v e H N. destruct v as [x|x|x b|b| |x|l|l|x]; cbn in H; try discriminate; try (injection H as <-; reflexivity).
  match type of H with context [?f l] => set (go := f) in * end.
  destruct (go l) as [es|] eqn:G; [|discriminate]. cbn in H. injection H as <-. cbn. cbn in N.
  revert es G N. induction l as [|x l IHl]; intros es G N; cbn in G; [injection G as <-; reflexivity|].
  cbn in N. apply andb_prop in N as [N1 N2]. destruct (convert_valuenode_to_ast x) as [e1|] eqn:E1; [|discriminate]. cbn in G.
  destruct (go l) as [es1|] eqn:G1; [|discriminate]. cbn in G. injection G as <-. cbn. rewrite (IH x e1 E1 N1), (IHl es1 eq_refl N2). reflexivity.
Qed.
Definition kws_loads (l : list (option string * expr)) : list string := flat_map (fun kv => loads (snd kv)) l.
Definition dirs_ok (l : list directive) : Prop :=
  forall d, In d l -> In (dir_name d) (sb_builtin_directives pc) \/ (In (dir_name d) B /\ forall a, In a (dir_args d) -> no_enum (snd a) = true).
Lemma dirkws_at : forall r l, dirs_ok l -> at_ r (generate_directive_keywords pc l) (fun r kws => covers r (kws_loads kws)).
Proof.
  intros r l D kws r' H. unfold generate_directive_keywords in H.
  assert (F : forall d, In d (filter (fun d => negb (mem (dir_name d) (sb_builtin_directives pc))) l) -> In (dir_name d) B /\ forall a, In a (dir_args d) -> no_enum (snd a) = true).
  { intros d Hd. apply filter_In in Hd as [Hd N]. destruct (D d Hd) as [K|K]; [|exact K]. apply mem_In in K. now rewrite K in N. }
  destruct (filter _ l) as [|d0 l0]; [apply ret_ok in H as [-> ->]; split; [apply move_refl|apply covers_nil]|].
  revert F H. generalize (d0 :: l0). intros l1 F H. apply bind_ok in H as (calls & r1 & H1 & H). apply ret_ok in H as [-> ->].
  assert (G : r1 = r /\ covers r (flat_map loads calls)).
  { clear - H1 F. revert r calls r1 F H1. induction l1 as [|d l1 IH]; intros r calls r1 F H1; cbn in H1; [apply ret_ok in H1 as [-> ->]; split; [reflexivity|apply covers_nil]|].
    apply bind_ok in H1 as (e & ra & He & H1). apply bind_ok in H1 as (es & rb & Hes & H1). apply ret_ok in H1 as [-> ->].
    apply bind_ok in He as (kws & rc & Hk & He). apply ret_ok in He as [-> ->]. destruct (F d (or_introl eq_refl)) as [F1 F2].
    assert (K : rc = r /\ kws_loads kws = []).
    { clear - Hk F2. revert r kws rc F2 Hk. induction (dir_args d) as [|a l IH]; intros r kws ra F2 Hk; cbn in Hk; [apply ret_ok in Hk as [-> ->]; auto|].
      apply bind_ok in Hk as (e & rb & He & Hk). apply bind_ok in Hk as (es & rc & Hes & Hk). apply ret_ok in Hk as [-> ->].
      apply bind_ok in He as (e' & rd & Hl & He). apply ret_ok in He as [-> ->]. unfold lift in Hl. injection Hl as Hl <-.
      destruct (IH _ _ _ (fun x Hx => F2 x (or_intror Hx)) Hes) as [-> K]. split; [reflexivity|]. unfold kws_loads in *. cbn. rewrite K, app_nil_r.
      eapply literal_loads; [exact Hl|]. apply F2. now left. }
    destruct K as [-> K]. destruct (IH _ _ _ (fun x Hx => F x (or_intror Hx)) Hes) as [-> G]. split; [reflexivity|]. cbn. unfold kws_loads in K. rewrite K.
    apply covers_cons; [left; right; exact F1|exact G]. }
  destruct G as [-> G]. split; [apply move_refl|]. unfold kws_loads. cbn. rewrite app_nil_r. exact G.
Qed.
Lemma opt_keyword_loads : forall n v, kws_loads (opt_keyword n v) = [].
Proof. intros n v. unfold opt_keyword. now destruct (truthy v). Qed.
Lemma kws_app : forall a b, kws_loads (a ++ b) = kws_loads a ++ kws_loads b.
Proof. intros. apply flat_map_app. Qed.
Lemma config_at : forall r k tn, at_ r (generate_pydantic_config k c tn) body_ok.
Proof.
  intros r k tn cf r' H. split.
  { assert (V : ev st [KImp] (generate_pydantic_config k c tn)) by (unfold generate_pydantic_config, generate_config_dict; ev_tac). exact (proj1 (at_quiet r _ V _ _ H)). }
  split.
  - unfold generate_pydantic_config, generate_config_dict in H. destruct (String.eqb (c_pydantic_version c) "v2").
    + cbn zeta in H. destruct (freeze_kws k c tn ++ _) as [|kw kws]; [apply ret_ok in H as [-> ->]; apply covers_nil|].
      apply bind_ok in H as (u & r1 & H1 & H). apply ret_ok in H as [-> ->].
      cbn [flat_map runs loads app]. rewrite app_nil_r. apply covers_cons; [left; left; exact (import_given bi Hbi _ _ _ _ H1)|].
      intros n Hn. exfalso. apply in_flat_map in Hn as (kv & Hk & Hn). apply in_map_iff in Hk as (kv' & <- & Hk). contradiction.
    + apply ret_ok in H as [-> ->]. unfold generate_config_class_pydantic.
      destruct (freeze_kws k c tn ++ _) as [|kw kws]; [apply covers_nil|]. intros n Hn. exfalso.
      cbn [flat_map runs loads app docstring] in Hn. rewrite app_nil_r in Hn. apply in_flat_map in Hn as (x & Hx & Hn).
      apply in_map_iff in Hx as (kv & <- & _). contradiction.
  - apply cfg_no_field in H. clear - H. induction H as [|x l N _ IH]; [apply quotes_nil|]. cbn. destruct x; cbn in N; try contradiction; exact IH.
Qed.
Lemma docs_body : forall r d, body_ok r (class_docs d).
Proof. intros r d. unfold class_docs. destruct (truthy d); split; try apply covers_nil; apply quotes_nil. Qed.

Lemma field_call : forall r n a kws, inv r -> ann_ok r a -> covers r (kws_loads kws) ->
  body_ok r [SAnn n a (match kws with [] => None | _ => Some (ECall (EName "strawberry.field") [] kws) end)].
Proof.
  intros r n a kws I [A1 A2] K. split; cbn; rewrite !app_nil_r; [|exact A2]. apply covers_app. split; [exact A1|].
  destruct kws as [|k l]; [apply covers_nil|]. cbn [opt_loads loads app flat_map]. apply covers_cons; [now apply strawberry_known|exact K].
Qed.
Lemma input_field_at : forall r kv, inv r -> W (gty_name (if_type (snd kv))) -> at_ r (input_field c st s cls kv) body_ok.
Proof.
  intros r kv I HW. unfold input_field. eapply at_bind; [exact I|apply argument_at; assumption|]. intros a r1 I1 M1 A1. apply at_ret.
  apply field_call; [exact I1|exact A1|]. rewrite kws_app, !opt_keyword_loads. apply covers_nil.
Qed.
Lemma directive_arg_at : forall r kv, inv r -> at_ r (directive_arg st s kv) body_ok.
Proof.
  intros r kv I. unfold directive_arg. eapply at_bind; [exact I|apply directive_at; assumption|]. intros a r1 I1 M1 [A1 A2]. apply at_ret.
  split; cbn; rewrite !app_nil_r; [|exact A2]. apply covers_app. split; [exact A1|]. unfold directive_default.
  destruct (arg_default (snd kv)) as [v|]; [|apply covers_nil].
  assert (L := default_loads v). destruct v; try apply covers_nil; (apply covers_cons; [now apply strawberry_known|]); cbn [fold_right flat_map app snd kw]; cbn in L; cbn; rewrite ?L; apply covers_nil.
Qed.
Lemma params_at : forall args r, inv r -> (forall a, In a args -> W (gty_name (arg_type (snd a)))) -> at_ r (mmap (resolver_arg c st s cls) args)
  (fun r ps => covers r (flat_map (fun p => opt_loads (pa_ann p)) ps) /\ quotes_ok r (flat_map (fun p => match pa_ann p with Some a => quoted a | None => [] end) ps)).
Proof.
  intros args r I HW. eapply at_weaken; [apply at_mmap with (Q := fun r _ p => exists a, pa_ann p = Some a /\ ann_ok r a)|].
  - intros ra rb x y L (a & E & A). exists a. split; [exact E|eapply ann_rle; eassumption].
  - intros x ra Hx Ia. unfold resolver_arg. eapply at_bind; [exact Ia|apply argument_at; [exact Ia|apply HW, Hx]|]. intros a rb Ib Mb Ab. apply at_ret. exists a. auto.
  - exact I.
  - intros r1 ps _ F. clear HW. induction F as [|x y l m (a & E & A1 & A2) _ [IH1 IH2]]; [split; [apply covers_nil|apply quotes_nil]|]. cbn. rewrite E.
    split; [apply covers_app; auto|apply quotes_app; auto].
Qed.
Hypothesis Hnone : In "None" bi.
Lemma type_field_at : forall r kv, inv r -> W (gty_name (fd_type (snd kv))) -> members_in (gty_name (fd_type (snd kv))) -> (forall a, In a (fd_args (snd kv)) -> W (gty_name (arg_type (snd a)))) ->
  dirs_ok (fd_dirs (snd kv)) -> at_ r (type_field c st s pc key cls kv) body_ok.
Proof.
  intros r [n f] I HW HU HA HD. cbn [snd] in *. cbn [type_field].
  eapply at_bind; [exact I|apply params_at; [exact I|]|].
  { intros a Ha. apply HA. unfold sorted_args in Ha. apply in_app_iff in Ha as [Ha|Ha]; now apply filter_In in Ha as [Ha _]. }
  intros ps r1 I1 M1 A1. eapply at_bind; [exact I1|apply field_at; assumption|]. intros e r2 I2 M2 A2.
  eapply at_bind; [exact I2|apply dirkws_at; exact HD|]. intros dks r3 I3 M3 A3. cbn zeta.
  assert (A2' : ann_ok r3 e) by (eapply ann_rle; [exact (move_rle _ _ M3)|exact A2]).
  assert (K : covers r3 (kws_loads (opt_keyword "description" (fd_desc f) ++ opt_keyword "deprecation_reason" (fd_depr f) ++ dks))).
  { rewrite !kws_app, !opt_keyword_loads. exact A3. }
  destruct (_ && _); [apply at_ret; now apply field_call|].
  eapply at_bind with (Q1 := fun r _ => String.eqb key "Subscription" = true -> known r "AsyncGenerator"); [exact I3| |].
  { destruct (String.eqb key "Subscription"); [eapply at_weaken; [apply at_import|]; intros ? ? _ X _; exact X|apply at_ret; discriminate]. }
  intros ? r4 I4 M4 A4. apply at_ret. assert (L13 : rle r1 r4) by (eapply rle_trans; [exact (move_rle _ _ M2)|]; eapply rle_trans; [exact (move_rle _ _ M3)|exact (move_rle _ _ M4)]).
  destruct A1 as [P1 P2]. assert (P1' := covers_rle _ _ _ L13 P1). assert (P2' := quotes_rle _ _ _ L13 P2).
  destruct (ann_rle _ _ _ (move_rle _ _ M4) A2') as [E1 E2]. apply (covers_rle _ _ _ (move_rle _ _ M4)) in K.
  set (kws := opt_keyword _ _ ++ _) in *. unfold resolver. split; cbn [flat_map runs member_quotes app]; rewrite !app_nil_r.
  - unfold args_loads. cbn [a_args a_defaults flat_map pa_ann opt_loads app]. apply covers_app. split; [apply covers_app; split; [exact P1'|]|].
    + intros x Hx. exfalso. unfold resolver_defaults in Hx. apply in_flat_map in Hx as (d & Hd & Hx). apply in_flat_map in Hd as (a0 & _ & Hd).
      destruct (arg_default (snd a0)); [|contradiction]. destruct Hd as [<-|[]]. rewrite default_loads in Hx. contradiction.
    + apply covers_app. split.
      * destruct (String.eqb key "Subscription"); [|exact E1]. cbn [opt_loads loads flat_map app]. apply covers_cons; [auto|]. apply covers_app. split; [exact E1|].
        apply covers_cons; [left; left; left; exact Hnone|apply covers_nil].
      * cbn [flat_map loads app]. rewrite ?app_nil_r. apply covers_cons; [|exact K]. apply strawberry_known; [exact I4|].
        destruct (String.eqb key "Mutation"); [reflexivity|]. now destruct (String.eqb key "Subscription").
  - cbn [a_args flat_map pa_ann app]. apply quotes_app; [exact P2'|]. destruct (String.eqb key "Subscription"); [|exact E2].
    cbn. rewrite app_nil_r. exact E2.
Qed.

(** ** Bases *)
Lemma additional_at : forall r k, inv r -> at_ r (get_additional_bases_for_type c k) (fun r l => covers r (flat_map loads l)).
Proof.
  intros r k I l r' H. assert (V : ev st [KImp] (get_additional_bases_for_type c k)) by (unfold get_additional_bases_for_type; ev_tac).
  split; [exact (proj1 (at_quiet r _ V _ _ H))|]. unfold get_additional_bases_for_type in H. destruct (dget k (c_additional_bases c)) as [bs|]; [|apply ret_ok in H as [-> ->]; apply covers_nil].
  unfold import_bases in H. apply bind_ok in H as (u & r1 & H1 & H). apply ret_ok in H as [-> ->]. intros n Hn.
  apply in_flat_map in Hn as (e & He & Hn). apply in_map_iff in He as (b & <- & Hb). destruct Hn as [<-|[]]. left. left. eapply bases_given; eassumption.
Qed.
Lemma interfaces_at : forall r l, inv r -> ~ In key l -> at_ r (interface_bases s l) (fun r l => covers r (flat_map loads l)).
Proof.
  intros r l I N ib r' H. assert (V : ev st [KImp] (interface_bases s l)). { eapply ev_incl; [|apply (ev_interface_bases st s (fun _ => []))]. incl_tac. }
  destruct (at_quiet r _ V _ _ H) as [M1 _]. split; [exact M1|]. unfold interface_bases in H. apply mconcat_ok in H as (yss & H & ->).
  clear M1 V. rename r' into r1.
  assert (G : forall l0 yss, incl l0 l -> forall r0 r2, r_iface_base r0 = r_iface_base r ->
    mmap (fun i => if extended_by_other s i l then ret [] else let* b := inherit_interface i in ret [EName b]) l0 r0 = (Ok yss, r2) ->
    forall n, In n (flat_map loads (List.concat yss)) -> In n B).
  { clear H yss. induction l0 as [|i l0 IH]; intros yss Hi r0 r2 E H n Hn; cbn in H; [apply ret_ok in H as [-> ->]; contradiction|].
    apply bind_ok in H as (y & rb & Hy & H). apply bind_ok in H as (ys & rc & Hr & H). apply ret_ok in H as [-> ->]. cbn [List.concat] in Hn. rewrite flat_map_app in Hn.
    assert (Eb : r_iface_base rb = r_iface_base r /\ forall x, In x (flat_map loads y) -> In x B).
    { destruct (extended_by_other s i l); [apply ret_ok in Hy as [-> ->]; split; [exact E|intros ? []]|].
      apply bind_ok in Hy as (b & rd & Hb & Hy). apply ret_ok in Hy as [-> ->]. unfold inherit_interface in Hb. cbn in Hb. destruct (dget i (r_iface_base r0)) as [x|] eqn:D; cbn in Hb; [|discriminate].
      injection Hb as -> <-. split; [exact E|]. intros x [<-|[]]. rewrite E in D. destruct (i_ifaces _ I _ _ D) as [K|[-> _]]; [exact K|]. exfalso. apply N, Hi. now left. }
    destruct Eb as [Eb Ey]. apply in_app_iff in Hn as [Hn|Hn]; [auto|]. eapply IH; [intros z Hz; apply Hi; now right|exact Eb|exact Hr|exact Hn]. }
  intros n Hn. left. right. eapply G; [apply incl_refl|reflexivity|exact H|exact Hn].
Qed.
End Class.
