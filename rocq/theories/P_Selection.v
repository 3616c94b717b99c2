(** Annotations of response fields. *)
From Coq Require Import Lia.
From Verif Require Import Base PyAst Gql Config Stylers Registry Utils Documents Inputs Recurse Operations Objects
  Spec_Types Spec_Inputs Spec_Annot Spec_Fields P_Base P_Gql P_Monad P_Types P_Inputs P_Annot P_Recurse P_Fields.

Lemma defined_app : forall a b, defined (a ++ b) = defined a ++ defined b.
Proof. intros. apply flat_map_app. Qed.

Section Selection.
Variable c : gconfig.
Variable st : list styler.
Variable s : schema.
(** the parts of the registry that selections read *)
Definition fsame (r r' : reg) : Prop :=
  r_frags r' = r_frags r /\ r_iffrag r' = r_iffrag r /\ r_scalars r' = r_scalars r /\ r_fragtypes r' = r_fragtypes r.
Lemma fsame_refl : forall r, fsame r r. Proof. repeat split. Qed.
Lemma fsame_trans : forall a b d, fsame a b -> fsame b d -> fsame a d.
Proof. unfold fsame. intuition congruence. Qed.
Lemma evolve_fsame : forall r r', evolve st Ksel r r' -> fsame r r'.
Proof.
  intros r r' H. repeat split.
  - eapply frame_frags; [|exact H]. nosca.
  - eapply frame_iffrag; [|exact H]. nosca.
  - eapply frame_scalars; [|exact H]. nosca.
  - eapply frame_fragtypes; [|exact H]. nosca.
Qed.
Lemma ev_fsame : forall {A} (m : M A) r a r', ev st Ksel m -> m r = (Ok a, r') -> fsame r r'.
Proof. intros A m r a r' H E. apply evolve_fsame. eapply ev_ok; eassumption. Qed.
Lemma fragment_class_same : forall r r' f k, fsame r r' -> fragment_class st r' f k -> fragment_class st r f k.
Proof. intros r r' f k (A & B & _ & _). unfold fragment_class. now rewrite A, B. Qed.

(** the classes a selection distinguishes *)
Definition spread_of (sels : option (list selection)) (r : reg) (cls : string) : Prop :=
  exists fr ds, In (SelSpread fr ds) (match sels with Some l => l | None => [] end) /\ fragment_class st r fr cls.
Definition leaf_expr (e : expr) (L : string -> Prop) : Prop :=
  no_tuple e /\ forall v, accepts e v <-> exists k, L k /\ v = JLeaf k.
Lemma leaf_name : forall n, leaf_expr (EName n) (fun k => k = n).
Proof. intros n. split; [auto with nt|]. intros v. cbn. split; [intros ->; eauto|intros (k & -> & ->); reflexivity]. Qed.
Lemma leaf_str : forall n, leaf_expr (estr n) (fun k => k = n).
Proof. intros n. split; [auto with nt|]. intros v. cbn. split; [intros ->; eauto|intros (k & -> & ->); reflexivity]. Qed.
Lemma leaf_union : forall ns, leaf_expr (union_of (map EName ns)) (fun k => In k ns).
Proof.
  intros ns. split; [apply nt_union|]. intros v. rewrite accepts_union'. split.
  - intros (e & He & Ha). apply in_map_iff in He as (n & <- & Hn). cbn in Ha. eauto.
  - intros (k & Hk & ->). exists (EName k). split; [now apply in_map|reflexivity].
Qed.
Lemma optional_if_ok : forall o m r e r', optional_if o m r = (Ok e, r') ->
  exists r1 e0, fsame r r1 /\ m r1 = (Ok e0, r') /\ e = (if o then optional_of e0 else e0).
Proof.
  intros o m r e r' H. unfold optional_if in H. apply bind_ok in H as (u & r1 & H1 & H). apply bind_ok in H as (x & r2 & H2 & H).
  apply ret_ok in H as [-> ->]. exists r1, x. split; [|auto]. eapply ev_fsame; [|exact H1]. destruct o; ev_tac.
Qed.

(** ** unions *)
Lemma inherit_class : forall f r n r', inherit_fragment f r = (Ok n, r') -> fragment_class st r f n /\ r' = r.
Proof. intros f r n r' H. unfold inherit_fragment in H. minv. split; [now left|reflexivity]. Qed.
Lemma union_item_ok : forall tfn parent acc x r acc' r', union_item c s tfn parent acc x r = (Ok acc', r') ->
  match x with
  | SelField _ => acc' = acc
  | _ => exists n, snd acc' = snd acc ++ [n] /\ incl (defined (fst acc)) (defined (fst acc'))
         /\ (In n (defined (fst acc')) \/ exists f ds, x = SelSpread f ds /\ fragment_class st r f n)
  end.
Proof.
  intros tfn parent [cl ns] [g|f ds|cond ds m] r acc' r' H; cbn [union_item] in H.
  - apply ret_ok in H as [-> ->]. reflexivity.
  - apply bind_ok in H as (n & r1 & H1 & H). apply ret_ok in H as [-> ->]. apply inherit_class in H1 as [H1 ->].
    exists n. cbn. split; [reflexivity|split; [apply incl_refl|right; eauto]].
  - apply bind_ok in H as (on & r1 & H1 & H). cbn zeta in H. apply bind_ok in H as ([[nested bases] fields] & r2 & H2 & H).
    apply bind_ok in H as (b & r3 & H3 & H). apply bind_ok in H as (add & r4 & H4 & H). apply bind_ok in H as (cfg & r5 & H5 & H).
    apply ret_ok in H as [-> ->]. cbn [fst snd]. eexists. split; [reflexivity|]. rewrite !defined_app. split.
    + apply incl_appl, incl_refl.
    + left. rewrite !in_app_iff. right. right. now left.
Qed.
Definition nonfields (l : list selection) : list selection :=
  filter (fun x => match x with SelField _ => false | _ => true end) l.
Definition union_inv (sels : option (list selection)) (r0 : reg) (pre : list selection) (acc : list stmt * list string) (r : reg) : Prop :=
  fsame r0 r /\ List.length (snd acc) = List.length (nonfields pre)
  /\ forall n, In n (snd acc) -> In n (defined (fst acc)) \/ spread_of sels r0 n.
Lemma typename_field : forall x, is_typename_field x = true -> exists g, x = SelField g.
Proof. intros [g| |] H; cbn in H; try discriminate. eauto. Qed.
Lemma walk_union : forall tfn parent sels r acc r', all_deep (Qev st tfn) sels ->
  walk (union_item c s tfn parent) sels ([], []) r = (Ok acc, r') ->
  union_inv sels r (match sels with Some l => l | None => [] end) acc r'.
Proof.
  intros tfn parent [l|] r acc r' HE H; unfold walk in H.
  - eapply (mfold_ok _ (union_inv (Some l) r)) in H; [exact H| |].
    + split; [apply fsame_refl|]. split; [reflexivity|contradiction].
    + intros pre x post a ra a1 rb El (F & Len & Hn) Hx. destruct (is_typename_field x) eqn:T.
      * apply ret_ok in Hx as [-> ->]. apply typename_field in T as (g & ->).
        split; [assumption|]. split; [|assumption]. unfold nonfields in *. rewrite filter_app, Len. cbn. now rewrite app_nil_r.
      * assert (Hx' := Hx). apply union_item_ok in Hx.
        assert (F1 : fsame ra rb).
        { eapply ev_fsame; [|exact Hx']. apply ev_union_item. eapply HE; [reflexivity|]. rewrite El. apply in_or_app. right. now left. }
        split; [eapply fsame_trans; eassumption|]. unfold nonfields in *. rewrite filter_app, app_length.
        destruct x as [g|f ds|cond ds m].
        { subst a1. cbn. split; [rewrite Len; lia|assumption]. }
        all: destruct Hx as (n & E & Hi & Hd); rewrite E, app_length, Len; cbn; split; [reflexivity|];
          intros k Hk; apply in_app_iff in Hk as [Hk|[<-|[]]].
        { destruct (Hn k Hk); [left; now apply Hi|now right]. }
        { destruct Hd as [Hd|(f' & ds' & [= <- <-] & Hd)]; [now left|right]. exists f, ds. split.
          - rewrite El. apply in_or_app. right. now left.
          - eapply fragment_class_same; eassumption. }
        { destruct (Hn k Hk); [left; now apply Hi|now right]. }
        { destruct Hd as [Hd|(f' & ds' & Ed & Hd)]; [now left|discriminate]. }
  - apply ret_ok in H as [-> ->]. split; [apply fsame_refl|]. split; [reflexivity|contradiction].
Qed.

Definition named_ok (sels : option (list selection)) (r : reg) (o : bool) (L : string -> Prop) (res : list stmt * expr) : Prop :=
  (exists e0, snd res = (if o then optional_of e0 else e0) /\ leaf_expr e0 L)
  /\ forall k, L k -> In k (defined (fst res)) \/ spread_of sels r k.
Lemma union_annotation_ok : forall tfn parent sels o r res r', all_deep (Qev st tfn) sels ->
  (o = true -> List.length (nonfields (match sels with Some l => l | None => [] end)) <> 1) ->
  union_annotation c s tfn parent sels o r = (Ok res, r') ->
  exists L, named_ok sels r o L res /\ exists k, L k.
Proof.
  intros tfn parent sels o r res r' HE Hone H. unfold union_annotation in H.
  apply bind_ok in H as ([cl ns] & r1 & H1 & H). apply walk_union in H1 as (F & Len & Hn); [|assumption]. cbn [fst snd] in *.
  destruct ns as [|n [|n2 ns]].
  - discriminate.
  - apply ret_ok in H as [-> ->]. destruct o; [exfalso; now apply Hone|].
    exists (fun k => k = n). split; [|eauto]. split.
    + exists (EName n). split; [reflexivity|apply leaf_name].
    + intros k ->. apply Hn. now left.
  - apply bind_ok in H as (u & r2 & _ & H). apply bind_ok in H as (e & r3 & H3 & H). apply ret_ok in H as [-> ->].
    apply optional_if_ok in H3 as (r4 & e0 & _ & H3 & ->). apply ret_ok in H3 as [-> ->].
    exists (fun k => In k (n :: n2 :: ns)). split; [|exists n; now left]. split.
    + eexists. split; [reflexivity|]. apply leaf_union.
    + exact Hn.
Qed.

(** ** interfaces *)
Lemma implementing_class_ok : forall mother cls p i r x r', implementing_class c s mother cls p i r = (Ok x, r') -> defined [x] = [cls].
Proof.
  intros mother cls p i r x r' H. unfold implementing_class in H. cbn zeta in H.
  apply bind_ok in H as (? & ? & _ & H). apply bind_ok in H as (? & ? & _ & H). apply bind_ok in H as (? & ? & _ & H).
  apply ret_ok in H as [-> ->]. reflexivity.
Qed.
Lemma impl_classes_defined : forall mother p impls r l r',
  mmap (fun i => implementing_class c s mother (mother +s+ i) p i) impls r = (Ok l, r') ->
  defined l = map (fun i => mother +s+ i) impls.
Proof.
  intros mother p impls r l r' H.
  eapply (mmap_inv _ (fun _ => True)) with (Q := fun i x => defined [x] = [mother +s+ i]) in H as [_ F]; [|exact I|].
  - induction F as [|i x impls l Hx F IH]; [reflexivity|]. change (x :: l) with ([x] ++ l). rewrite defined_app, Hx, IH. reflexivity.
  - intros i r1 x r2 _ _ Hi. split; [exact I|]. eapply implementing_class_ok; exact Hi.
Qed.
Lemma interface_annotation_ok : forall tfn parent target n d fields sels o r res r',
  interface_annotation c s tfn parent target n d fields sels o r = (Ok res, r') ->
  exists L, named_ok sels r o L res /\ (implementations s n <> [] \/ c_create_catchall c = true -> exists k, L k).
Proof.
  intros tfn parent target n d fields sels o r res r' H. unfold interface_annotation in H. cbn zeta in H.
  apply bind_ok in H as (p & r1 & H1 & H). apply bind_ok in H as (add & r2 & H2 & H). apply bind_ok in H as (ib & r3 & H3 & H).
  apply bind_ok in H as (cfg & r4 & H4 & H). apply bind_ok in H as (ic & r5 & H5 & H). apply bind_ok in H as (u1 & r6 & _ & H).
  apply bind_ok in H as (u2 & r7 & _ & H). apply bind_ok in H as (rest & r8 & H8 & H). apply bind_ok in H as (e & r9 & H9 & H).
  apply bind_ok in H as (u3 & r10 & _ & H). apply ret_ok in H as [-> ->].
  apply optional_if_ok in H9 as (rx & e0 & _ & H9 & ->). apply ret_ok in H9 as [-> ->].
  apply impl_classes_defined in H5.
  set (mother := (parent +s+ py_capitalize target) +s+ "Base") in *.
  destruct (c_create_catchall c) eqn:CA.
  - apply bind_ok in H8 as (ib2 & ra & _ & H8). apply bind_ok in H8 as (t & rb & _ & H8). apply bind_ok in H8 as (u4 & rc & _ & H8).
    apply ret_ok in H8 as [-> ->]. cbn [fst snd].
    exists (fun k => In k (map (fun i => mother +s+ i) (implementations s n)) \/ k = mother +s+ "CatchAll").
    split; [split|intros _; eexists; right; reflexivity].
    + eexists. split; [reflexivity|]. split; [apply nt_union|]. intros v. rewrite accepts_union'. split.
      * intros (x & [<-|[<-|[]]] & Ha).
        -- rewrite accepts_annotated in Ha. rewrite <- (map_map (fun i => mother +s+ i) EName) in Ha. apply leaf_union in Ha as (k & Hk & ->). exists k. auto.
        -- cbn in Ha. subst v. eexists. split; [right; reflexivity|reflexivity].
      * intros (k & [Hk| ->] & ->); [eexists; split; [left; reflexivity|]|eexists; split; [right; left; reflexivity|reflexivity]].
        rewrite accepts_annotated, <- (map_map (fun i => mother +s+ i) EName). apply leaf_union. eauto.
    + cbn [fst snd]. intros k Hk. left. rewrite !defined_app, H5, !in_app_iff. cbn.
      destruct Hk as [Hk| ->]; [tauto|]. right. right. right. now left.
  - apply ret_ok in H8 as [-> ->]. cbn [fst snd].
    exists (fun k => In k (map (fun i => mother +s+ i) (implementations s n))). split; [split|].
    + eexists. split; [reflexivity|]. split; [apply nt_annotated|]. intros v.
      rewrite accepts_annotated, <- (map_map (fun i => mother +s+ i) EName). apply leaf_union.
    + cbn [fst snd]. intros k Hk. left. rewrite !defined_app, H5, !in_app_iff. tauto.
    + intros [Hi|?]; [|discriminate]. destruct (implementations s n) as [|i l]; [contradiction|]. eexists. now left.
Qed.

(** ** objects *)
Lemma impl_or_none_class : forall f n r i r', get_interface_fragment_implementation_or_none f n r = (Ok i, r') ->
  r' = r /\ match i with Some k => fragment_class st r f k | None => True end.
Proof.
  intros f n r i r' H. unfold get_interface_fragment_implementation_or_none in H. apply bind_ok in H as (m & r1 & H1 & H).
  apply gets_ok in H1 as [-> ->]. destruct (dget f (r_iffrag r)) as [impls|] eqn:E; [|apply ret_ok in H as [-> ->]; auto].
  destruct (dget n impls) as [k|] eqn:En.
  - apply ret_ok in H as [-> ->]. split; [reflexivity|]. right. left. eauto.
  - minv; destruct (dget f (r_fragtypes r)); try discriminate. destruct (String.eqb _ _); [|discriminate]. minv. auto.
Qed.
Lemma object_annotation_ok : forall tfn parent target n d fields sels o r res r',
  object_annotation c st tfn parent target n d fields sels o r = (Ok res, r') ->
  exists L, named_ok sels r o L res /\ exists k, L k.
Proof.
  intros tfn parent target n d fields sels o r res r' H. unfold object_annotation in H. cbn zeta in H.
  apply bind_ok in H as (t & r1 & H1 & H).
  assert (F1 : fsame r r1) by (eapply ev_fsame; [|exact H1]; ev_one).
  assert (G : forall r1, (let* r := walk (object_item tfn n (parent +s+ py_capitalize target) fields) sels ([], [], [doc_stmt d; t]) in
      let '(classes, bases, body) := r in
      let* add := match bases with [] => get_additional_bases_for_type c n | _ => ret (map EName bases) end in
      let* cfg := generate_pydantic_config (KT KObject) c None in
      let* e := optional_if o (ret (EName (parent +s+ py_capitalize target))) in
      ret (classes ++ [SClass (parent +s+ py_capitalize target) (add ++ names_of (c_object_bases c)) (body ++ cfg) []], e)) r1 = (Ok res, r') ->
      exists L, named_ok sels r o L res /\ exists k, L k).
  { clear H H1 F1 r1. intros r1 H. apply bind_ok in H as ([[classes bases] body] & r2 & _ & H). apply bind_ok in H as (add & r3 & _ & H).
    apply bind_ok in H as (cfg & r4 & _ & H). apply bind_ok in H as (e & r5 & H5 & H). apply ret_ok in H as [-> ->].
    apply optional_if_ok in H5 as (rx & e0 & _ & H5 & ->). apply ret_ok in H5 as [-> ->].
    exists (fun k => k = parent +s+ py_capitalize target). split; [split|eauto].
    - eexists. split; [reflexivity|apply leaf_name].
    - intros k ->. left. cbn [fst]. rewrite defined_app. apply in_or_app. right. now left. }
  destruct (option_map non_typename sels) as [[|[g|f ds|cond ds m] [|y l]]|] eqn:E; try (eapply G; exact H).
  clear G. apply bind_ok in H as (i & r2 & H2 & H). apply bind_ok in H as (e & r3 & H3 & H). apply bind_ok in H as (e' & r4 & H4 & H).
  apply ret_ok in H as [-> ->]. apply optional_if_ok in H4 as (rx & e0 & _ & H4 & ->). apply ret_ok in H4 as [-> ->].
  apply impl_or_none_class in H2 as [-> Hi].
  assert (Hk : exists k, (e = EName k \/ e = estr k) /\ fragment_class st r1 f k).
  { destruct i as [b|].
    - apply ret_ok in H3 as [-> ->]. eauto.
    - apply reference_generic_ok in H3. eexists. split; [exact H3|]. right. right. reflexivity. }
  destruct Hk as (k & Hk & Hf). exists (fun x => x = k). split; [split|eauto].
  - eexists. split; [reflexivity|]. destruct Hk as [->| ->]; [apply leaf_name|apply leaf_str].
  - intros x ->. right. exists f, ds. split; [|eapply fragment_class_same; eassumption].
    destruct sels as [l|]; [|discriminate]. cbn in E. injection E as E.
    assert (In (SelSpread f ds) (non_typename l)) by (rewrite E; now left). unfold non_typename in H. apply filter_In in H. tauto.
Qed.

(** ** any named type *)
Definition leaf_classes (sels : option (list selection)) (r : reg) (classes : list stmt) (n k : string) : Prop :=
  match get_type s n with
  | Some (TScalar _) => exists p, dget n (r_scalars r) = Some p /\ k = last_comp p
  | Some (TEnum _ _) => k = enum_type_class st n
  | _ => In k (defined classes) \/ spread_of sels r k
  end.
Lemma named_annotation_ok : no_helper_enum s -> forall tfn parent target sels n o r res r', all_deep (Qev st tfn) sels ->
  (is_union_type s n -> o = true -> List.length (nonfields (match sels with Some l => l | None => [] end)) <> 1) ->
  named_annotation c st s tfn parent target sels n o r = (Ok res, r') ->
  exists L e0, snd res = (if o then optional_of e0 else e0) /\ leaf_expr e0 L
    /\ (forall k, L k -> leaf_classes sels r (fst res) n k) /\ (has_alternatives c s n -> exists k, L k).
Proof.
  intros HB tfn parent target sels n o r res r' HE HU H. unfold named_annotation in H.
  unfold leaf_classes, has_alternatives. destruct (get_type s n) as [[]|] eqn:G; try discriminate.
  - apply bind_ok in H as (e & r1 & H1 & H). apply ret_ok in H as [-> ->]. apply optional_if_ok in H1 as (rx & e0 & F & H1 & ->).
    apply reference_scalar_ok in H1 as (p & Hp & ->). destruct F as (_ & _ & F & _). rewrite F in Hp.
    exists (fun k => k = last_comp p), (EName (last_comp p)). split; [reflexivity|]. split; [apply leaf_name|]. split; [|eauto].
    intros k ->. eauto.
  - apply bind_ok in H as (e & r1 & H1 & H). apply ret_ok in H as [-> ->]. apply optional_if_ok in H1 as (rx & e0 & F & H1 & ->).
    apply reference_enum_ok in H1; [|eapply HB; eassumption].
    exists (fun k => k = enum_type_class st n), e0. split; [reflexivity|]. split; [|split; [auto|eauto]].
    destruct H1 as [->| ->]; [apply leaf_name|apply leaf_str].
  - apply object_annotation_ok in H as (L & ((e0 & E & He) & Hd) & Hk). exists L, e0. auto.
  - apply interface_annotation_ok in H as (L & ((e0 & E & He) & Hd) & Hk). exists L, e0. split; [assumption|].
    split; [assumption|]. split; [assumption|]. intros HA. apply Hk. eapply HA. reflexivity.
  - apply union_annotation_ok in H as (L & ((e0 & E & He) & Hd) & Hk); [|assumption|].
    + exists L, e0. auto.
    + intros ->. apply HU; [|reflexivity]. exists desc, members. exact G.
Qed.
Fixpoint final (t : gty) (o : bool) : bool :=
  match t with GNamed _ => o | GNonNull t => final t false | GList t => final t true end.
Lemma final_inner_ : forall t, (final t true = negb (inner_nonnull t)) /\ (final t false = negb (inner_nonnull (GNonNull t))).
Proof.
  induction t as [n|t IH|t IH]; [split; reflexivity| |]; destruct IH as [A B].
  - cbn [final inner_nonnull]. split; assumption.
  - cbn [final]. destruct t; cbn in *; auto.
Qed.
Lemma final_inner : forall t, final t true = negb (inner_nonnull t).
Proof. intros t. apply final_inner_. Qed.
Lemma wrap_annotation_ok : forall named (Q : reg -> list stmt -> string -> (string -> Prop) -> Prop),
  (forall n o, ev st Ksel (named n o)) ->
  (forall r r' cl n L, fsame r r' -> Q r' cl n L -> Q r cl n L) ->
  forall t o r res r',
  (forall r res r', named (gty_name t) (final t o) r = (Ok res, r') ->
     exists L e0, snd res = (if final t o then optional_of e0 else e0) /\ leaf_expr e0 L /\ Q r (fst res) (gty_name t) L) ->
  wrap_annotation c named t o r = (Ok res, r') ->
  exists L, annot (fz_enabled (c_freeze c)) (fun n e => n = gty_name t /\ leaf_expr e L) t o (snd res) /\ Q r (fst res) (gty_name t) L.
Proof.
  intros named Q HE HQ. induction t as [n|t IH|t IH]; intros o r res r' HN H; cbn [wrap_annotation] in H.
  - cbn in HN. apply HN in H as (L & e0 & E & He & Hq). exists L. split; [|assumption]. rewrite E. destruct o; constructor; split; auto.
  - cbn zeta in H. apply bind_ok in H as (u & r1 & H1 & H). apply bind_ok in H as (u2 & r2 & H2 & H). apply bind_ok in H as (x & r3 & H3 & H).
    apply ret_ok in H as [-> ->]. apply IH in H3 as (L & HA & Hq); [|exact HN]. exists L. cbn [fst snd]. split.
    + replace (if fz_enabled (c_freeze c) then tuple_of (snd x) else list_of (snd x)) with (seq_of (fz_enabled (c_freeze c)) (snd x))
        by (now destruct (fz_enabled (c_freeze c))).
      destruct o; now constructor.
    + eapply HQ; [|exact Hq]. eapply fsame_trans; (eapply ev_fsame; [|eassumption]); [ev_one|destruct o; ev_tac].
  - apply IH in H as (L & HA & Hq); [|exact HN]. exists L. split; [now constructor|assumption].
Qed.
Lemma leaf_classes_same : forall sels r r' cl n k, fsame r r' -> leaf_classes sels r' cl n k -> leaf_classes sels r cl n k.
Proof.
  intros sels r r' cl n k F. assert (S := F). destruct S as (_ & _ & S & _). unfold leaf_classes. rewrite S.
  assert (Hs : spread_of sels r' k -> spread_of sels r k).
  { intros (fr & ds & Hin & Hf). exists fr, ds. split; [assumption|]. eapply fragment_class_same; eassumption. }
  destruct (get_type s n) as [[]|]; tauto.
Qed.
Lemma type_field_node_ok : no_helper_enum s -> forall f parent fd r res r',
  (is_union_type s (gty_name (fd_type fd)) -> inner_nonnull (fd_type fd) = true \/ List.length (alternatives f) <> 1) ->
  type_field_node c st s f parent fd r = (Ok res, r') ->
  exists L fld, class_fields (snd res) = [fld]
    /\ output_field_ok (fz_enabled (c_freeze c)) (fun _ => L) (style_with sty_node st (response_key f)) (response_key f) (fd_type fd) fld
    /\ (forall k, L k -> response_class s st r (fst res) f (gty_name (fd_type fd)) k)
    /\ (has_alternatives c s (gty_name (fd_type fd)) -> exists k, L k).
Proof.
  intros HB [alias name args ds sels] parent fd r res r' HU H. rewrite tfn_eq in H. cbn zeta in H.
  apply bind_ok in H as (x & r1 & H1 & H). apply bind_ok in H as (body & r2 & H2 & H). apply ret_ok in H as [-> ->]. cbn [fst snd].
  assert (HD : all_deep (Qev st (type_field_node c st s)) sels).
  { intros l y _ _. destruct y as [g|n d|cond d m]; cbn; [intros ? ?; apply ev_type_field_node|exact I|intros g _ ? ?; apply ev_type_field_node]. }
  apply (wrap_annotation_ok _ (fun r cl n L => (forall k, L k -> leaf_classes sels r cl n k) /\ (has_alternatives c s n -> exists k, L k))) in H1.
  - destruct H1 as (L & HA & Hl & Hk).
    apply annot_accepts with (cls := fun _ => L) in HA as [_ HA]; [|intros n e [_ He]; exact He].
    eapply field_statements_ok in H2 as (fld & E & Ho); [|exact HA].
    exists L, fld. split; [exact E|]. split; [exact Ho|]. split; [|exact Hk].
    intros k Hk'. apply Hl in Hk'. exact Hk'.
  - intros n o. now apply ev_named_annotation.
  - intros ra rb cl n L F [A B]. split; [|exact B]. intros k Hk. eapply leaf_classes_same; [exact F|]. auto.
  - intros ra resa rb Hn. apply named_annotation_ok in Hn as (L & e0 & E & He & Hl & Hk); [|assumption|assumption|].
    + exists L, e0. auto.
    + intros Hu Hf. rewrite final_inner in Hf. destruct (HU Hu) as [Hi|Hi]; [rewrite Hi in Hf; discriminate|exact Hi].
Qed.
End Selection.
