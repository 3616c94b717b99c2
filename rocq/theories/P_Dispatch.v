(** Dispatch of responses on interfaces. *)
From Coq Require Import Lia.
From Verif Require Import Base PyAst Gql Config Stylers Registry Utils Documents Inline Inputs Recurse Fragments Operations
  Spec_Types Spec_Inputs Spec_Annot Spec_Fields Spec_Selection Spec_Dispatch P_Base P_Gql P_Monad P_Types P_Inputs P_Annot P_Recurse P_Fields P_Selection P_Modelled P_Modelled2.

Lemma last_class_app : forall a b k, last_class (a ++ b) k = match last_class b k with Some x => Some x | None => last_class a k end.
Proof.
  induction a as [|x a IH]; intros b k; cbn [app last_class]; [destruct (last_class b k); reflexivity|].
  rewrite IH. destruct (last_class b k); reflexivity.
Qed.
Lemma last_class_none : forall l k, ~ In k (defined l) -> last_class l k = None.
Proof.
  induction l as [|x l IH]; intros k H; [reflexivity|]. change (x :: l) with ([x] ++ l) in H. rewrite defined_app, in_app_iff in H. cbn [last_class].
  rewrite IH by tauto. destruct x; try reflexivity. destruct (String.eqb_spec name k) as [->|N]; [|reflexivity].
  exfalso. apply H. left. now left.
Qed.
Lemma last_class_In : forall l k bases body, NoDup (defined l) -> In (SClass k bases body []) l -> last_class l k = Some (bases, body).
Proof.
  induction l as [|x l IH]; intros k bases body HN H; [contradiction|]. change (x :: l) with ([x] ++ l) in HN. rewrite defined_app in HN. cbn [last_class].
  destruct H as [->|H].
  - cbn in HN. apply NoDup_cons_iff in HN as [HN _]. rewrite last_class_none by assumption. now rewrite String.eqb_refl.
  - rewrite (IH k bases body); [reflexivity| |assumption]. clear -HN. induction (defined [x]) as [|y l' IH]; [exact HN|]. apply IH. cbn in HN. now apply NoDup_cons_iff in HN.
Qed.
Lemma last_field_first : forall n e v body x, class_fields [x] = [(n, e, v)] ->
  (forall fld, In fld (class_fields body) -> fst (fst fld) <> n) -> last_field n (x :: body) = Some (n, e, v).
Proof.
  intros n e v body x Hx H. unfold last_field. change (x :: body) with ([x] ++ body). rewrite class_fields_app, Hx. cbn [app rev].
  assert (G : forall l, (forall fld, In fld l -> fst (fst fld) <> n) -> find (fun f : pyfield => String.eqb (fst (fst f)) n) (l ++ [(n, e, v)]) = Some (n, e, v)).
  { induction l as [|y l IH]; intros Hl; cbn [app find].
    - cbn. now rewrite String.eqb_refl.
    - destruct (String.eqb_spec (fst (fst y)) n) as [E|_]; [exfalso; eapply Hl; [now left|exact E]|]. apply IH. intros fld Hf. apply Hl. now right. }
  apply G. intros fld Hf. apply in_rev in Hf. auto.
Qed.
Lemma last_field_doc : forall n d body, last_field n (docstring d :: body) = last_field n body.
Proof. reflexivity. Qed.

Section Dispatch.
Variable c : gconfig.
Variable st : list styler.
Variable s : schema.
Notation tfn := (type_field_node c st s).
Lemma tfn_field : forall g p fd r res r', tfn g p fd r = (Ok res, r') -> exists fld, class_fields (snd res) = [fld] /\ fst (fst fld) = style_with sty_node st (response_key g).
Proof.
  intros g p fd r res r' H. destruct (modelled_all c st s g r p fd r res r' (fsame_refl r) H (fst res) (incl_refl _)) as (fld & E & Hm). exists fld. split; [exact E|].
  inversion Hm as [f0 fd0 fld0 K1 K2 K3 K4 E1 E2 E3]. subst. exact K1.
Qed.
Definition named_inline (pre : list selection) (i : string) (fld : pyfield) : Prop :=
  exists ds m g, In (SelInline (Some i) ds m) pre /\ In (SelField g) m /\ fst (fst fld) = style_with sty_node st (response_key g).
Lemma inline_fields_names : forall strict parent on sub r acc r',
  inline_fields s tfn strict parent on sub r = (Ok acc, r') ->
  forall fld, In fld (class_fields (snd acc)) -> exists g, In (SelField g) sub /\ fst (fst fld) = style_with sty_node st (response_key g).
Proof.
  intros strict parent on sub r acc r' H. unfold inline_fields in H.
  refine (mfold_ok _ (fun pre acc _ => forall fld, In fld (class_fields (snd acc)) -> exists g, In (SelField g) pre /\ fst (fst fld) = style_with sty_node st (response_key g)) _ _ _ _ _ H _ _); [intros fld []|].
  clear H r r' acc. intros pre x post acc r acc' r' _ A H. assert (KEEP : acc' = acc -> forall fld, In fld (class_fields (snd acc')) -> exists g, In (SelField g) (pre ++ [x]) /\ fst (fst fld) = style_with sty_node st (response_key g)).
  { intros -> fld Hf. destruct (A fld Hf) as (g & Hg & E). exists g. split; [apply in_or_app; now left|exact E]. }
  destruct x as [g|f ds|cond ds m].
  - destruct (String.eqb (fn_name g) "__typename"); [apply ret_ok in H as [-> ->]; now apply KEEP|]. clear KEEP.
    apply bind_ok in H as (fd & r1 & H1 & H). apply bind_ok in H as (res & r2 & H2 & H). apply ret_ok in H as [-> ->]. cbn [snd].
    intros fld Hf. rewrite class_fields_app in Hf. apply in_app_iff in Hf as [Hf|Hf].
    + destruct (A fld Hf) as (g' & Hg & E). exists g'. split; [apply in_or_app; now left|exact E].
    + apply tfn_field in H2 as (fld' & E & N). rewrite E in Hf. destruct Hf as [<-|[]]. exists g. split; [apply in_or_app; right; now left|exact N].
  - apply ret_ok in H as [-> ->]; now apply KEEP.
  - apply ret_ok in H as [-> ->]; now apply KEEP.
Qed.
Lemma iface_names : forall parent strict fields b0 sels r p r',
  walk (iface_item s tfn strict fields parent) sels (IParts [] b0 [] []) r = (Ok p, r') ->
  forall i fld, In fld (class_fields (dget_list i (ip_inline p))) -> named_inline (match sels with Some l => l | None => [] end) i fld.
Proof.
  intros parent strict fields b0 [l|] r p r' H; unfold walk in H; [|apply ret_ok in H as [-> ->]; intros i fld []].
  refine (mfold_ok _ (fun pre p _ => forall i fld, In fld (class_fields (dget_list i (ip_inline p))) -> named_inline pre i fld) _ _ _ _ _ H _ _); [intros i fld []|].
  clear H r r' p. intros pre x post p r p' r' _ A H.
  assert (KEEP : ip_inline p' = ip_inline p -> forall i fld, In fld (class_fields (dget_list i (ip_inline p'))) -> named_inline (pre ++ [x]) i fld).
  { intros -> i fld Hf. destruct (A i fld Hf) as (ds & m & g & Hm & Hg & E). exists ds, m, g. split; [apply in_or_app; now left|auto]. }
  destruct (is_typename_field x); [apply ret_ok in H as [-> ->]; now apply KEEP|].
  destruct x as [g|f ds|cond ds m]; cbn [iface_item] in H.
  - apply bind_ok in H as (fd & r1 & H1 & H). apply bind_ok in H as (res & r2 & H2 & H). apply ret_ok in H as [-> ->]. now apply KEEP.
  - apply bind_ok in H as (b & r1 & H1 & H). apply ret_ok in H as [-> ->]. now apply KEEP.
  - clear KEEP. apply bind_ok in H as (on & r1 & H1 & H). apply from_opt_ok in H1 as [-> ->]. apply bind_ok in H as (u & r1 & _ & H).
    apply bind_ok in H as (res & r2 & H2 & H). apply ret_ok in H as [-> ->]. cbn [ip_inline]. intros i fld Hf. rewrite dget_list_dextend in Hf.
    destruct (String.eqb_spec i on) as [->|N].
    + rewrite class_fields_app in Hf. apply in_app_iff in Hf as [Hf|Hf].
      * destruct (A on fld Hf) as (ds' & m' & g & Hm & Hg & E). exists ds', m', g. split; [apply in_or_app; now left|auto].
      * eapply inline_fields_names in H2 as (g & Hg & E); [|exact Hf]. exists ds, m, g. split; [apply in_or_app; right; now left|auto].
    + destruct (A i fld Hf) as (ds' & m' & g & Hm & Hg & E). exists ds', m', g. split; [apply in_or_app; now left|auto].
Qed.
Lemma wrap_parts : forall named, (forall n o, ev st Ksel (named n o)) -> forall t o r res r',
  wrap_annotation c named t o r = (Ok res, r') ->
  exists o' ra x rb, fsame r ra /\ named (gty_name t) o' ra = (Ok x, rb) /\ fst res = fst x
    /\ forall ks k, polymorphic (snd x) ks k -> polymorphic (snd res) ks k.
Proof.
  intros named HE. induction t as [n|t IH|t IH]; intros o r res r' H; cbn [wrap_annotation] in H.
  - exists o, r, res, r'. split; [apply fsame_refl|]. auto.
  - cbn zeta in H. apply bind_ok in H as (u & r1 & H1 & H). apply bind_ok in H as (u2 & r2 & H2 & H). apply bind_ok in H as (x & r3 & H3 & H).
    apply ret_ok in H as [-> ->]. apply IH in H3 as (o' & ra & y & rb & Fa & Hy & E & Hp).
    exists o', ra, y, rb. split; [|split; [exact Hy|split; [exact E|]]].
    + eapply fsame_trans; [|exact Fa]. eapply fsame_trans; [eapply (ev_fsame st); [|exact H1]; ev_one|eapply (ev_fsame st); [|exact H2]; destruct o; ev_tac].
    + intros ks k P. apply Hp in P. cbn [snd]. destruct o, (fz_enabled (c_freeze c)); repeat constructor; exact P.
  - apply IH in H. exact H.
Qed.
Lemma field_statements_ann : forall k fd a r l r', field_statements c st k fd a r = (Ok l, r') ->
  exists fld, class_fields l = [fld] /\ (snd (fst fld) = a \/ exists m, snd (fst fld) = annotated_of (a :: m)).
Proof.
  intros k fd a r l r' H. unfold field_statements in H. cbn zeta in H.
  apply bind_ok in H as (a' & r1 & H1 & H). apply bind_ok in H as (u & r2 & H2 & H). apply ret_ok in H as [-> ->].
  eexists. split; [unfold class_fields; cbn [flat_map]; destruct (compose_field_documentation _ _ _ _); reflexivity|].
  cbn [fst snd]. unfold annotate_field_metadata in H1. apply bind_ok in H1 as (m1 & ra & _ & H1). apply bind_ok in H1 as (m2 & rb & _ & H1).
  destruct (m1 ++ m2); [apply ret_ok in H1 as [-> _]; now left|]. apply bind_ok in H1 as (u' & rc & _ & H1). apply ret_ok in H1 as [-> _]. right. eauto.
Qed.
Lemma implementations_NoDup : forall n, NoDup (dkeys (s_types s)) -> NoDup (implementations s n).
Proof.
  intros n. unfold implementations, dkeys. induction (s_types s) as [|[k t] l IH]; intros H; [constructor|]. cbn in *.
  apply NoDup_cons_iff in H as [H1 H2]. specialize (IH H2).
  assert (HI : forall x, In x (flat_map (fun kv => match snd kv with TObject _ is _ _ => if mem n is then [fst kv] else [] | _ => [] end) l) -> In x (map fst l)).
  { intros x Hx. apply in_flat_map in Hx as ([k' t'] & Hk & Hx). cbn in Hx. destruct t'; try contradiction. destruct (mem n _); [|contradiction].
    destruct Hx as [<-|[]]. change k' with (fst (k', TObject desc ifaces fields dirs)). now apply in_map. }
  destruct t; cbn; try exact IH. destruct (mem n _); cbn; [|exact IH]. constructor; [|exact IH]. intros Hx. apply H1. now apply HI.
Qed.
Lemma string_app_inj : forall a b d : string, a +s+ b = a +s+ d -> b = d.
Proof. induction a as [|x a IH]; intros b d H; [exact H|]. cbn in H. injection H as H. auto. Qed.
Lemma string_app_self : forall a b : string, a +s+ b = a -> b = "".
Proof. induction a as [|x a IH]; intros b H; [exact H|]. cbn in H. injection H as H. auto. Qed.
Lemma typename_field_class : forall n r t r', generate_typename_field c n r = (Ok t, r') ->
  exists v, class_fields [t] = [("typename", literal_of n, v)] /\ wire_name "typename" v = "__typename".
Proof. intros n r t r' H. unfold generate_typename_field in H. minv. eexists. split; reflexivity. Qed.
Lemma generic_typename_class : forall r t r', generate_generic_typename_field c r = (Ok t, r') ->
  exists v, class_fields [t] = [("typename", EName "str", v)] /\ wire_name "typename" v = "__typename".
Proof. intros r t r' H. unfold generate_generic_typename_field in H. minv. eexists. split; reflexivity. Qed.
Lemma interface_annotation_dispatch : forall parent target n d i fields sels o r0 r res r',
  NoDup (dkeys (s_types s)) -> (c_create_catchall c = true -> ~ In "CatchAll" (implementations s n)) ->
  (forall i fld, named_inline (match sels with Some l => l | None => [] end) i fld -> fst (fst fld) <> "typename") ->
  get_type s n = Some (TInterface d i fields) -> fsame r0 r ->
  interface_annotation c s tfn parent target n d fields sels o r = (Ok res, r') ->
  exists ks ca, polymorphic (snd res) ks ca /\ (ca = None <-> c_create_catchall c = false)
    /\ (forall t, In t (implementations s n) -> exists k, (forall k', dispatch (fst res) ks ca t k' <-> k' = k)
          /\ carries_for st s r0 (c_create_catchall c) (match sels with Some l => l | None => [] end) (fst res) t k)
    /\ (forall t, ~ In t (implementations s n) -> forall k, dispatch (fst res) ks ca t k <-> ca = Some k).
Proof.
  intros parent target n d i fields sels o r0 r res r' HN HC HT' HT F H. unfold interface_annotation in H. cbn zeta in H.
  apply bind_ok in H as (p & r1 & H1 & H). apply bind_ok in H as (add & r2 & H2 & H). apply bind_ok in H as (ib & r3 & H3 & H).
  apply bind_ok in H as (cfg & r4 & H4 & H). apply bind_ok in H as (ic & r5 & H5 & H). apply bind_ok in H as (u1 & r6 & _ & H).
  apply bind_ok in H as (u2 & r7 & _ & H). apply bind_ok in H as (rest & r8 & H8 & H). apply bind_ok in H as (e & r9 & H9 & H).
  apply bind_ok in H as (u3 & r10 & _ & H). apply ret_ok in H as [-> ->].
  apply (optional_if_ok st) in H9 as (rx & e0 & _ & H9 & ->). apply ret_ok in H9 as [-> ->].
  assert (NM := iface_names _ _ _ _ _ _ _ _ H1).
  eapply (iface_walk c st s n) with (r0 := r0) in H1; [|exact HT|reflexivity|exact F].
  set (mother := (parent +s+ py_capitalize target) +s+ "Base") in *. cbn [fst snd].
  set (impls := implementations s n) in *.
  set (sl := match sels with Some l => l | None => [] end) in *.
  assert (NDI : NoDup impls) by now apply implementations_NoDup.
  assert (DI : defined ic = map (fun i => mother +s+ i) impls) by (eapply impl_classes_defined; exact H5).
  assert (ND : NoDup (defined ic)).
  { rewrite DI. clear -NDI. induction NDI as [|x l Hx _ IH]; [constructor|]. cbn. constructor; [|exact IH]. intros Hin.
    apply in_map_iff in Hin as (y & Hy & Hl). apply string_app_inj in Hy. now subst. }
  set (classes := ip_classes p ++ [SClass mother (add ++ ib) (ip_fields p ++ cfg) []] ++ ic ++ fst rest) in *.
  assert (LR : forall t, In t impls -> last_class (fst rest) (mother +s+ t) = None).
  { intros t Ht. apply last_class_none. destruct (c_create_catchall c) eqn:CA.
    - minv. cbn. intros [E|[]]. symmetry in E. change (mother +s+ t = mother +s+ "CatchAll") in E. apply string_app_inj in E. subst t. now apply HC.
    - minv. intros []. }
  assert (IMP : forall t, In t impls -> exists bases body, last_class classes (mother +s+ t) = Some (bases, body)
     /\ tag classes (mother +s+ t) = Some t
     /\ (forall ds m, In (SelInline (Some t) ds m) sl -> calls c st s r0 t m classes body) /\ inherits_for r0 t sl bases).
  { intros t Ht. assert (H5' := H5). eapply (mmap_inv _ (fun _ => True)) with (Q := fun i x => exists bases doc tf ra rb,
      x = SClass (mother +s+ i) (map EName (dget_list i (ip_bases p)) ++ bases) (docstring doc :: tf :: dget_list i (ip_inline p)) []
      /\ generate_typename_field c i ra = (Ok tf, rb)) in H5' as [_ FA]; [|exact I|].
    - assert (G : exists x, In x ic /\ exists bases doc tf ra rb,
        x = SClass (mother +s+ t) (map EName (dget_list t (ip_bases p)) ++ bases) (docstring doc :: tf :: dget_list t (ip_inline p)) []
        /\ generate_typename_field c t ra = (Ok tf, rb)).
      { clear -FA Ht. induction FA as [|j x l l' Hx FA IH]; [contradiction|]. destruct Ht as [->|Ht].
        - exists x. split; [now left|exact Hx].
        - destruct (IH Ht) as (y & Hy & G). exists y. split; [now right|exact G]. }
      destruct G as (x & Hx & bases & doc & tf & ra & rb & -> & Htf). do 2 eexists.
      assert (LC : last_class classes (mother +s+ t) = Some (map EName (dget_list t (ip_bases p)) ++ bases, docstring doc :: tf :: dget_list t (ip_inline p))).
      { unfold classes. rewrite !last_class_app, (LR t Ht). erewrite last_class_In; [reflexivity|exact ND|exact Hx]. }
      split; [exact LC|]. split; [|split].
      + unfold tag. rewrite LC, last_field_doc. apply typename_field_class in Htf as (v & Hv & Hw).
        erewrite last_field_first; [|exact Hv|intros fld Hf; eapply HT'; eapply NM; exact Hf]. unfold literal_of, estr. now rewrite Hw, String.eqb_refl.
      + intros ds m Hin. destruct H1 as (_ & _ & _ & A & _). eapply calls_mono; [| |eapply A; exact Hin]; [apply incl_appl, incl_refl|].
        intros y Hy. right. now right.
      + destruct H1 as (_ & _ & _ & _ & A). intros f ds k Hin Hf. apply in_or_app. left. apply in_map. eapply A; eassumption.
    - intros j ra x rb _ _ Hx. split; [exact I|]. unfold implementing_class in Hx. cbn zeta in Hx.
      apply bind_ok in Hx as (a1 & rc & _ & Hx). apply bind_ok in Hx as (a2 & rd & _ & Hx). apply bind_ok in Hx as (tf & re & Hx' & Hx).
      apply ret_ok in Hx as [-> ->]. do 5 eexists. split; [reflexivity|exact Hx']. }
  set (ks := map (fun i => mother +s+ i) impls).
  assert (TAG : forall k t, In k ks -> tag classes k = Some t -> k = mother +s+ t /\ In t impls).
  { intros k t Hk Ht. apply in_map_iff in Hk as (j & <- & Hj). destruct (IMP j Hj) as (_ & _ & _ & E & _). rewrite E in Ht. injection Ht as ->. auto. }
  assert (CAT : exists ca, (ca = None <-> c_create_catchall c = false) /\ polymorphic (snd rest) ks ca
      /\ forall k, ca = Some k -> untagged classes k).
  { assert (P0 : polymorphic (annotated_of [union_of (map (fun i => EName (mother +s+ i)) impls); field_call [("discriminator", estr "typename")]]) ks None).
    { rewrite <- (map_map (fun i => mother +s+ i) EName). apply poly_tagged. }
    destruct (c_create_catchall c) eqn:CA.
    - apply bind_ok in H8 as (ib2 & ra & _ & H8). apply bind_ok in H8 as (t & rb & Ht & H8).
      apply bind_ok in H8 as (u4 & rc & _ & H8). apply ret_ok in H8 as [-> ->]. cbn [snd] in *.
      eexists. split; [|split; [apply poly_catch; exact P0|]]; [split; discriminate|]. intros k [= <-].
      apply generic_typename_class in Ht as (v & Hv & Hw). do 3 eexists. split.
      + unfold classes. rewrite !last_class_app. cbn [fst last_class]. rewrite String.eqb_refl. reflexivity.
      + split; [|exact Hw]. rewrite last_field_doc. erewrite last_field_first; [reflexivity|exact Hv|intros fld []].
    - apply ret_ok in H8 as [-> ->]. exists None. split; [tauto|]. split; [exact P0|discriminate]. }
  destruct CAT as (ca & CA1 & CA2 & CA3). exists ks, ca. split; [destruct o; [now constructor|exact CA2]|]. split; [exact CA1|]. split.
  - intros t Ht. destruct (IMP t Ht) as (bases & body & LC & TG & CL & IH'). exists (mother +s+ t). split.
    + intros k'. split.
      * intros [[Hk Htag]|(No & _)]; [now apply TAG|]. exfalso. eapply No; [|exact TG]. apply in_map_iff. eauto.
      * intros ->. left. split; [apply in_map_iff; eauto|exact TG].
    + exists bases, body. split; [exact LC|]. split; [|exact IH']. intros ds m Hin. apply calls_all. eauto.
  - intros t Ht k. split.
    + intros [[Hk Htag]|(_ & E & _)]; [|exact E]. exfalso. apply TAG in Htag as [_ Htag]; [contradiction|exact Hk].
    + intros E. right. split; [|auto]. intros k' Hk' Htag. apply TAG in Htag as [_ Htag]; [contradiction|exact Hk'].
Qed.
Lemma dispatch_C46 : forall f parent fd r res r' d i fields,
  let n := gty_name (fd_type fd) in
  NoDup (dkeys (s_types s)) -> (c_create_catchall c = true -> ~ In "CatchAll" (implementations s n)) ->
  (forall i ds m g, In (SelInline (Some i) ds m) (selections f) -> In (SelField g) m -> style_with sty_node st (response_key g) <> "typename") ->
  get_type s n = Some (TInterface d i fields) ->
  tfn f parent fd r = (Ok res, r') ->
  exists fld ks ca, class_fields (snd res) = [fld] /\ polymorphic (snd (fst fld)) ks ca /\ (ca = None <-> c_create_catchall c = false)
    /\ (forall t, In t (implementations s n) -> exists k, (forall k', dispatch (fst res) ks ca t k' <-> k' = k)
          /\ carries_for st s r (c_create_catchall c) (selections f) (fst res) t k)
    /\ (forall t, ~ In t (implementations s n) -> forall k, dispatch (fst res) ks ca t k <-> ca = Some k).
Proof.
  intros [alias name args ds sels] parent fd r res r' d i fields n HN HC HT' HT H. rewrite tfn_eq in H. cbn zeta in H.
  apply bind_ok in H as (x & r1 & H1 & H). apply bind_ok in H as (body & r2 & H2 & H). apply ret_ok in H as [-> ->]. cbn [fst snd].
  assert (HD : all_deep (Qev st tfn) sels).
  { intros l y _ _. destruct y as [g|m' d'|cond d' m]; cbn; [intros ? ?; apply ev_type_field_node|exact I|intros g _ ? ?; apply ev_type_field_node]. }
  apply wrap_parts in H1 as (o & ra & y & rb & Fa & Hy & Ef & HP); [|intros; now apply ev_named_annotation].
  apply field_statements_ann in H2 as (fld & Efld & HA).
  unfold named_annotation in Hy. fold n in Hy. rewrite HT in Hy.
  eapply interface_annotation_dispatch in Hy as (ks & ca & P & CA & D1 & D2); [|exact HN|exact HC| |exact HT|exact Fa].
  - exists fld, ks, ca. split; [exact Efld|]. rewrite Ef. split; [|split; [exact CA|split; [exact D1|exact D2]]].
    apply HP in P. destruct HA as [->|(m & ->)]; [exact P|now constructor].
  - intros j fl (ds' & m & g & Hm & Hg & E). rewrite E. eapply HT'; [exact Hm|exact Hg].
Qed.
End Dispatch.
