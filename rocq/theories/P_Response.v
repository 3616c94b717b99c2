(** The classes of a selection read what a server answers: type_field_node. *)
From Verif Require Import Base PyAst Gql Config Stylers Registry Utils Recurse Fragments Operations
  Spec_Types Spec_Refs Spec_Docs Spec_Imports Spec_Scope Spec_Scope2 Spec_Mro2 Spec_Fields Spec_Selection Spec_Dispatch Spec_Valid Spec_ValidDoc Spec_Funcs Spec_Names Spec_Pydantic Spec_Response
  P_Base P_Gql P_Monad P_Types P_Imports P_Recurse P_InlineProps P_Fields P_Selection P_Modelled P_Dispatch P_Modelled2 P_Mro5 P_Scope P_Scope5 P_Scope6.
Arguments register_import : simpl never.

Lemma NoDup_tail : forall {A} (a b : list A), NoDup (a ++ b) -> NoDup b.
Proof. induction a as [|x a IH]; intros b H; [exact H|]. inversion H; subst. auto. Qed.

(** ** the server *)
Lemma fragment_det : forall d g (a b : fragment), the_fragment d g = Some a -> the_fragment d g = Some b -> a = b.
Proof. congruence. Qed.
Lemma schema_field_det : forall s n f a b, schema_field s n f a -> schema_field s n f b -> a = b.
Proof. intros s n f a b (t & fs & H1 & H2 & H3) (t' & fs' & H1' & H2' & H3'). congruence. Qed.
Lemma conf_narrows : forall s d a b sels v, narrows s a b -> conf_type s d a sels v -> conf_type s d b sels v.
Proof.
  intros s d a b sels v H. revert v. induction H as [t|n m HC HI|a b H IH|a b H IH|a b H IH]; intros v HV; [exact HV| | | |].
  - inversion HV; subst.
    + now constructor.
    + unfold is_composite, is_object, is_iface, Spec_Mro2.is_union in HC. match goal with G : get_type _ _ = _ |- _ => rewrite G in HC end. discriminate.
    + unfold is_composite, is_object, is_iface, Spec_Mro2.is_union in HC. match goal with G : get_type _ _ = _ |- _ => rewrite G in HC end. discriminate.
    + eapply ct_object; eauto.
  - inversion HV; subst; [now constructor|]. apply ct_list. auto.
  - inversion HV; subst; [discriminate|]. apply ct_nonnull; auto.
  - inversion HV; subst; [discriminate|]. auto.
Qed.
Lemma possible_implementations : forall s n, is_iface s n = true -> possible s n = implementations s n.
Proof.
  intros s n H. unfold possible, implementations. unfold is_iface in H. destruct (get_type s n) as [[]|]; try discriminate.
  induction (s_types s) as [|[k t] l IH]; [reflexivity|]. cbn. rewrite <- IH. destruct t; try reflexivity. match goal with |- context [mem n ?l] => destruct (mem n l) end; reflexivity.
Qed.
Lemma possible_object : forall s n i, is_iface s n = true -> NoDup (dkeys (s_types s)) -> In i (possible s n) -> is_object s i = true.
Proof.
  intros s n i H ND Hi. unfold possible in Hi. unfold is_iface in H. destruct (get_type s n) as [[]|]; try discriminate.
  apply in_map_iff in Hi as ([k t] & <- & Hk). apply filter_In in Hk as [Hk E]. cbn in *. unfold is_object, get_type. rewrite (dget_In_NoDup _ _ _ ND Hk). now destruct t.
Qed.
Lemma possible_self : forall s i, is_object s i = true -> possible s i = [i].
Proof. intros s i H. unfold is_object in H. unfold possible. destruct (get_type s i) as [[]|]; try discriminate. reflexivity. Qed.

Section Resp.
Variables (c : gconfig) (st : list styler) (s : schema) (d : document) (t : list stmt) (py : string -> data -> Prop) (sc : dict string).
Notation cls := (style_fragment_class st).
Notation attr := (generate_node_name st).
Notation tfn := (type_field_node c st s).
Notation reads := (reads t py).
Notation builds := (builds t py).
Notation class_of := (class_of t).
Notation rsels := (readable_sels s d attr).
Notation rfield := (readable_field s d attr).
Hypothesis NDS : NoDup (dkeys (s_types s)).
Hypothesis NDT : NoDup (owned t).
Hypothesis NE : ~ In "Enum" (owned t).
Definition outer (b : string) : Prop := ~ In (last_comp b) (owned t) /\ last_comp b <> "Enum".
Hypothesis HBo : forall b, In b (c_object_bases c) -> outer b.
Hypothesis HBi : forall l b, c_interface_bases c = Some l -> In b l -> outer b.
Hypothesis HBa : forall n l b, dget n (c_additional_bases c) = Some l -> In b l -> outer b.
Hypothesis HX : oc_extra (c_options c) <> Some "forbid".
Hypothesis Hsc : forall n p x, dget n sc = Some p -> ~ In (last_comp p) (owned t) /\ py (last_comp p) (RScalar n x).
Hypothesis HC : covariant s.
Definition okE (e : string) : Prop := mem e built_in_keys = false /\
  forall desc vs v, get_type s e = Some (TEnum desc vs) -> In v (dkeys vs) -> reads (EName (style_enum_class st e)) (RText v).

Definition confs (i : string) (sels : list selection) (kvs : dict data) : Prop := says i kvs /\ forall x, In x sels -> conf_sel s d i x kvs.
Definition model (k : string) : Prop := exists bases body, class_of k bases body /\ ~ In (EName "Enum") bases.
Definition takes (k i : string) (sels : list selection) : Prop := model k /\ forall kvs, confs i sels kvs -> builds k kvs.
Record fragok (r : reg) (f : string) (fr : fragment) : Prop := {
  fo_class : dget f (r_frags r) = Some (cls f);
  fo_type : dget f (r_fragtypes r) = Some (fr_on fr);
  fo_obj : is_object s (fr_on fr) = true -> dget f (r_iffrag r) = None /\ takes (cls f) (fr_on fr) (fr_sels fr);
  fo_if : is_iface s (fr_on fr) = true -> exists m, dget f (r_iffrag r) = Some m
    /\ (forall i, In i (possible s (fr_on fr)) -> dget i m = Some (cls f +s+ i) /\ takes (cls f +s+ i) i (fr_sels fr))
    /\ (forall i k, In (i, k) m -> In i (possible s (fr_on fr)) /\ k = cls f +s+ i);
  fo_un : Spec_Mro2.is_union s (fr_on fr) = true -> dget f (r_iffrag r) = None /\ exists m, dget f (r_ufrag r) = Some m
    /\ (forall i, In i (possible s (fr_on fr)) -> takes (cls f +s+ i) i (fr_sels fr))
    /\ (forall i k, In (i, k) m -> In i (possible s (fr_on fr)) /\ k = cls f +s+ i)
    /\ In (SAssign (EName (cls f)) (union_of (map (fun i => EName (cls f +s+ i)) (possible s (fr_on fr))))) t;
  fo_other : (is_iface s (fr_on fr) = false -> dget f (r_iffrag r) = None) /\ (Spec_Mro2.is_union s (fr_on fr) = false -> dget f (r_ufrag r) = None) }.
Variable D : string -> Prop.
Hypothesis HD : forall f, D f -> exists fr, the_fragment d f = Some fr.
Definition regok (r : reg) : Prop := r_scalars r = sc /\ forall f fr, D f -> the_fragment d f = Some fr -> fragok r f fr.
Lemma regok_ev : forall r r', evolve st Ksel r r' -> regok r -> regok r'.
Proof.
  intros r r' E [H1 H2]. split.
  - rewrite <- H1. eapply frame_scalars; [|exact E]. cbn; intuition discriminate.
  - intros f fr Df Hf. destruct (H2 f fr Df Hf) as [A1 A2 A3 A4 A5 A6].
    pose proof (frame_frags st Ksel r r' (ltac:(cbn; intuition discriminate) : ~ In KFra Ksel) E) as F1.
    pose proof (frame_fragtypes st Ksel r r' (ltac:(cbn; intuition discriminate) : ~ In KFty Ksel) E) as F2.
    pose proof (frame_iffrag st Ksel r r' (ltac:(cbn; intuition discriminate) : ~ In KIff Ksel) E) as F3.
    pose proof (frame_ufrag st Ksel r r' (ltac:(cbn; intuition discriminate) : ~ In KUff Ksel) E) as F4.
    split; rewrite ?F1, ?F2, ?F3, ?F4; assumption.
Qed.
Lemma regok_m : forall {A} (m : M A) r a r', ev st Ksel m -> m r = (Ok a, r') -> regok r -> regok r'.
Proof. intros A m r a r' E H. apply regok_ev. eapply ev_ok; eassumption. Qed.
Lemma regok_tfn : forall g p fd r res r', tfn g p fd r = (Ok res, r') -> regok r -> regok r'.
Proof. intros g p fd r res r' H. eapply regok_m; [apply ev_type_field_node|exact H]. Qed.

(** ** classes *)
Lemma class_unique : forall k b1 x1 b2 x2, class_of k b1 x1 -> class_of k b2 x2 -> b1 = b2 /\ x1 = x2.
Proof.
  intros k b1 x1 b2 x2 (d1 & H1) (d2 & H2). clear -NDT H1 H2. induction t as [|x l IH]; [contradiction|].
  change (owned (x :: l)) with (match x with SClass n _ _ _ => [n] | SAssign (EName n) _ => [n] | _ => [] end ++ owned l) in NDT.
  assert (G : forall b y dd, In (SClass k b y dd) l -> In k (owned l)).
  { intros b y dd H. unfold owned. apply in_flat_map. eexists. split; [exact H|]. now left. }
  destruct H1 as [->|H1], H2 as [H2|H2].
  - injection H2 as <- <- <-. auto.
  - exfalso. inversion NDT; subst. eauto.
  - subst x. exfalso. inversion NDT; subst. eauto.
  - apply IH; auto. eapply NoDup_tail; exact NDT.
Qed.
Definition fields_ok (body : list stmt) (kvs : dict data) : Prop :=
  forall n a v, In (n, a, v) (class_fields body) -> model_field n /\
    (forall x, dget (wire_name n v) kvs = Some x -> reads a x) /\ (dget (wire_name n v) kvs = None -> may_omit v = true).
Lemma fields_app : forall a b kvs, fields_ok a kvs -> fields_ok b kvs -> fields_ok (a ++ b) kvs.
Proof. intros a b kvs HA HB n x v. rewrite class_fields_app, in_app_iff. intros [H|H]; eauto. Qed.
Lemma fields_none : forall b kvs, class_fields b = [] -> fields_ok b kvs.
Proof. intros b kvs E n x v. rewrite E. intros []. Qed.
Lemma build : forall k bases body kvs, class_of k bases body -> fields_ok body kvs -> ~ forbids body ->
  (forall b, In (EName b) bases -> builds b kvs) -> builds k kvs.
Proof.
  intros k bases body kvs H1 H2 H3 H4. constructor.
  - intros b1 x1 n a v H. destruct (class_unique _ _ _ _ _ H1 H) as [<- <-]. apply H2.
  - intros b1 x1 H. destruct (class_unique _ _ _ _ _ H1 H) as [<- <-]. exact H3.
  - intros b1 x1 b H. destruct (class_unique _ _ _ _ _ H1 H) as [<- <-]. apply H4.
Qed.
Lemma no_class : forall k bases body, ~ In k (owned t) -> ~ class_of k bases body.
Proof. intros k bases body H (dd & Hc). apply H. unfold owned. apply in_flat_map. eexists. split; [exact Hc|now left]. Qed.
Lemma build_outer : forall b kvs, outer b -> builds (last_comp b) kvs.
Proof. intros b kvs [H _]. constructor; intros bases body; intros; exfalso; eapply (no_class _ bases body); eassumption. Qed.
Lemma model_owned : forall k, model k -> In k (owned t) /\ k <> "Enum".
Proof.
  intros k (bases & body & (dd & H) & _). assert (K : In k (owned t)) by (unfold owned; apply in_flat_map; eexists; split; [exact H|now left]).
  split; [exact K|]. intros ->. contradiction.
Qed.
Lemma reads_class : forall k i sels kvs, takes k i sels -> confs i sels kvs -> reads (EName k) (RObj kvs).
Proof. intros k i sels kvs [(bases & body & H1 & H2) H] Hc. eapply rd_model; eauto. Qed.
(** configured base classes *)
Definition outers (es : list expr) : Prop := forall e, In e es -> exists b, e = EName (last_comp b) /\ outer b.
Lemma outers_app : forall a b, outers a -> outers b -> outers (a ++ b).
Proof. intros a b HA HB e He. apply in_app_or in He as [He|He]; auto. Qed.
Lemma outers_build : forall es b kvs, outers es -> In (EName b) es -> builds b kvs.
Proof. intros es b kvs H Hb. destruct (H _ Hb) as (x & [= ->] & Ho). now apply build_outer. Qed.
Lemma outers_enum : forall es, outers es -> ~ In (EName "Enum") es.
Proof. intros es H Hb. destruct (H _ Hb) as (x & [= E] & [_ Ho]). congruence. Qed.
Lemma import_outers : forall l r es r', import_bases l r = (Ok es, r') -> (forall b, In b l -> outer b) -> outers es.
Proof.
  intros l r es r' H HO. unfold import_bases in H. mb H u r1 H1. apply ret_ok in H as [-> _]. intros e He. apply in_map_iff in He as (b & <- & Hb). eauto.
Qed.
Lemma names_outers : outers (names_of (c_object_bases c)).
Proof. intros e He. unfold names_of in He. apply in_map_iff in He as (b & <- & Hb). eauto. Qed.
Lemma additional_outers : forall n r es r', get_additional_bases_for_type c n r = (Ok es, r') -> outers es.
Proof.
  intros n r es r' H. unfold get_additional_bases_for_type in H. destruct (dget n (c_additional_bases c)) as [l|] eqn:E.
  - eapply import_outers; eauto.
  - apply ret_ok in H as [-> _]. intros e [].
Qed.
Lemma iface_outers : forall r es r', get_interface_bases c r = (Ok es, r') -> outers es.
Proof.
  intros r es r' H. unfold get_interface_bases in H. destruct (c_interface_bases c) as [[|b l]|] eqn:E; eapply import_outers; try exact H; eauto.
Qed.
(** the configuration of a class *)
Lemma config_ok : forall k r cf r', generate_pydantic_config k c None r = (Ok cf, r') -> class_fields cf = [] /\ ~ forbids cf.
Proof.
  intros k r cf r' H.
  assert (O : forall b e, In (Some "extra", EConst (CStr "forbid")) (map (fun kv : string * const => (Some (fst kv), EConst (snd kv))) (freeze_kws k c None ++ options_kws b k c None ++ additional_kws c None)) \/
     In (SAssign (EName "extra") (EConst (CStr "forbid"))) (map (fun kv : string * const => SAssign (EName (fst kv)) (EConst (snd kv))) (freeze_kws k c None ++ options_kws b k c None ++ additional_kws c None)) -> e = b -> b <> "extra" -> False).
  { intros b e H0 _ Hb. assert (K : In ("extra", CStr "forbid") (freeze_kws k c None ++ options_kws b k c None ++ additional_kws c None)).
    { destruct H0 as [H0|H0]; apply in_map_iff in H0 as ([x y] & E & H0); cbn in E; injection E as -> ->; exact H0. }
    clear H0. rewrite !in_app_iff in K. destruct K as [K|[K|K]].
    - unfold freeze_kws in K. repeat match type of K with In _ (if ?b then _ else _) => destruct b end; cbn in K; intuition discriminate.
    - unfold options_kws, opt_kw in K. repeat match type of K with In _ (if ?b then _ else _) => destruct b end; try contradiction.
      rewrite !in_app_iff in K. destruct K as [K|[K|[K|[K|[K|K]]]]].
      + destruct (oc_allow_mutation (c_options c)); cbn in K; intuition discriminate.
      + destruct (oc_extra (c_options c)); cbn in K; [|contradiction]. destruct K as [[= ->]|[]]. now apply HX.
      + destruct (oc_validate_assignment (c_options c)); cbn in K; intuition discriminate.
      + destruct (oc_allow_population_by_field_name (c_options c)); cbn in K; [|contradiction]. destruct K as [[=]|[]].
      + destruct (oc_orm_mode (c_options c)); cbn in K; intuition discriminate.
      + destruct (oc_use_enum_values (c_options c)); cbn in K; intuition discriminate.
    - unfold additional_kws in K. contradiction. }
  unfold generate_pydantic_config in H. destruct (String.eqb (c_pydantic_version c) "v2").
  - unfold generate_config_dict in H. cbn zeta in H. specialize (O "populate_by_name"). remember (freeze_kws k c None ++ options_kws "populate_by_name" k c None ++ additional_kws c None) as kws eqn:EK. destruct kws as [|kw kws].
    + apply ret_ok in H as [-> _]. split; [reflexivity|]. intros [(a & kk & [] & _)|(b & x & dd & [] & _)].
    + mb H u r1 H1. apply ret_ok in H as [-> _]. split; [reflexivity|]. intros [(a & kk & [[= <- <-]|[]] & K)|(b & x & dd & [[=]|[]] & _)].
      eapply O; [left; exact K|reflexivity|discriminate].
  - apply ret_ok in H as [-> _]. unfold generate_config_class_pydantic. cbn zeta. specialize (O "allow_population_by_field_name"). remember (freeze_kws k c None ++ options_kws "allow_population_by_field_name" k c None ++ additional_kws c None) as kws eqn:EK. destruct kws as [|kw kws].
    + split; [reflexivity|]. intros [(a & kk & [] & _)|(b & x & dd & [] & _)].
    + split; [reflexivity|]. intros [(a & kk & [[=]|[]] & _)|(b & x & dd & [[= <- <- <-]|[]] & K)].
      cbn [In] in K. destruct K as [[=]|K]. eapply O; [right; exact K|reflexivity|discriminate].
Qed.
Lemma forbids_app : forall a b, ~ forbids a -> ~ forbids b -> ~ forbids (a ++ b).
Proof.
  intros a b HA HB [(x & k & H & K)|(x & y & dd & H & K)]; apply in_app_or in H as [H|H]; [apply HA|apply HB|apply HA|apply HB]; [left|left|right|right]; eauto 6.
Qed.

(** ** the statements of fields *)
Definition plain (x : stmt) : Prop := match x with SAnn _ _ _ | SExpr _ | SPass => True | _ => False end.
Lemma plain_forbids : forall b, (forall x, In x b -> plain x) -> ~ forbids b.
Proof. intros b H [(x & k & K & _)|(x & y & dd & K & _)]; apply H in K; exact K. Qed.
(** the field [n: a = v] is for the selection [g] of the field [fd] *)
Record field_of (g : fieldnode) (fd : fielddef) (n : string) (a : expr) (v : option expr) : Prop := {
  fi_name : n = attr (response_key g);
  fi_wire : wire_name n v = response_key g;
  fi_reads : forall x, conf_type s d (fd_type fd) (selections g) x -> reads a x;
  fi_omit : is_nonnull (fd_type fd) = false -> may_omit v = true }.
Definition from (n : string) (sels : list selection) (x : stmt) : Prop :=
  match x with
  | SAnn m a v => exists g fd, In (SelField g) sels /\ fn_name g <> "__typename" /\ schema_field s n (fn_name g) fd /\ field_of g fd m a v
  | SExpr _ => True
  | _ => False
  end.
Definition froms (n : string) (sels : list selection) (body : list stmt) : Prop := forall x, In x body -> from n sels x.
Lemma from_plain : forall n sels x, from n sels x -> plain x.
Proof. intros n sels [] H; try contradiction; exact I. Qed.
Lemma froms_app : forall n sels a b, froms n sels a -> froms n sels b -> froms n sels (a ++ b).
Proof. intros n sels a b HA HB x Hx. apply in_app_or in Hx as [Hx|Hx]; auto. Qed.
Lemma froms_incl : forall n sels sels' b, incl sels sels' -> froms n sels b -> froms n sels' b.
Proof.
  intros n sels sels' b HI HF x Hx. specialize (HF x Hx). destruct x; try exact HF. destruct HF as (g & fd & H1 & H2). exists g, fd. split; [auto|exact H2].
Qed.
Lemma class_fields_in : forall body n a v, In (n, a, v) (class_fields body) -> In (SAnn n a v) body.
Proof. intros body n a v H. unfold class_fields in H. apply in_flat_map in H as (x & Hx & H). destruct x; try contradiction. destruct H as [[= <- <- <-]|[]]. exact Hx. Qed.
Lemma froms_fields : forall n sels i body kvs, rsels n sels -> i = n \/ (is_iface s n = true /\ In i (possible s n)) -> froms n sels body -> confs i sels kvs -> fields_ok body kvs.
Proof.
  intros n sels i body kvs HR HI HF [_ HC'] m a v Hin. apply class_fields_in in Hin. apply HF in Hin. cbn in Hin. destruct Hin as (g & fd & Hg & HN & HS & [F1 F2 F3 F4]).
  rewrite F2. specialize (HC' _ Hg). inversion HR as [? ? R1 R2 R3 R4 R5]; subst. specialize (R1 _ _ Hg HN HS). inversion R1 as [? ? Q1 Q0 Q2 Q3 Q4]; subst. split; [exact Q0|].
  inversion HC' as [|i' g' kvs' fdi v' NT SI DI CT E1 E2 E3|i' g' kvs' CO DN E1 E2 E3| | | |]; subst; [contradiction| |].
  - split; [|congruence]. intros x Hx. apply F3. assert (x = v') by congruence. subst v'. eapply conf_narrows; [|exact CT].
    destruct HI as [->|[HI HP]]; [|eapply HC; eassumption]. rewrite (schema_field_det _ _ _ _ _ SI HS). apply nw_same.
  - split; [congruence|]. intros _. apply F4. destruct (is_nonnull (fd_type fd)); [|reflexivity]. exfalso. now apply Q1.
Qed.

(** ** type_field_node *)
Notation Q := (Q s okE (fun _ => True) D).
Notation N := (N s okE (fun _ => True) D).
Definition Qt (g : fieldnode) : Prop := forall parent fd r res r', regok r -> rfield fd g -> N g (gty_name (fd_type fd)) ->
  tfn g parent fd r = (Ok res, r') -> incl (fst res) t ->
  forall x, In x (snd res) -> match x with SAnn n a v => field_of g fd n a v | SExpr _ => True | _ => False end.
Lemma Qt_from : forall n sels g parent fd r res r', Qt g -> In (SelField g) sels -> fn_name g <> "__typename" -> schema_field s n (fn_name g) fd -> rsels n sels -> Q n sels ->
  regok r -> tfn g parent fd r = (Ok res, r') -> incl (fst res) t -> froms n sels (snd res).
Proof.
  intros n sels g parent fd r res r' HQ Hg HN HF HR Hq RO H HI x Hx. inversion HR as [? ? R1 R2 R3 R4 R5]; subst.
  assert (GF : get_field_def s n (fn_name g) = Some fd).
  { destruct HF as (tt & fs & E1 & E2 & E3). eapply fields_def; [exact E1| |exact HN|exact E3]. destruct tt; try discriminate; exact E2. }
  assert (HN' : N g (gty_name (fd_type fd))) by (eapply Q_field; eassumption).
  pose proof (HQ _ _ _ _ _ RO (R1 _ _ Hg HN HF) HN' H HI x Hx) as K. destruct x; try exact K. exists g, fd. auto.
Qed.
(** [b] stands for a fragment that is spread in [sels] and applies to objects of type [i] *)
Definition base_for (i : string) (sels : list selection) (b : string) : Prop :=
  exists f dirs fr, In (SelSpread f dirs) sels /\ the_fragment d f = Some fr /\ In i (possible s (fr_on fr)) /\ takes b i (fr_sels fr).
Lemma base_model : forall i sels b, base_for i sels b -> b <> "Enum".
Proof. intros i sels b (f & dirs & fr & _ & _ & _ & HM & _). apply model_owned in HM. tauto. Qed.
Lemma base_intro : forall i sels b f dirs, D f -> In (SelSpread f dirs) sels -> (forall fr, the_fragment d f = Some fr -> In i (possible s (fr_on fr)) /\ takes b i (fr_sels fr)) -> base_for i sels b.
Proof. intros i sels b f dirs Df Hf H. destruct (HD f Df) as (fr & TF). exists f, dirs, fr. split; [exact Hf|]. split; [exact TF|]. now apply H. Qed.
Lemma base_builds : forall n sels i b kvs, rsels n sels -> base_for i sels b -> confs i sels kvs -> builds b kvs.
Proof.
  intros n sels i b kvs HR (f & dirs & fr & Hf & TF & HP & _ & HT) [HS HC']. inversion HR as [? ? R1 R2 R3 R4 R5]; subst. specialize (HC' _ Hf).
  inversion HC' as [| | |i' g' dirs' fr' kvs' TF' CF E1 E2 E3|i' g' dirs' kvs' CO E1 E2 E3| |]; subst; [|exfalso; eapply R2; eassumption].
  assert (fr' = fr) as -> by congruence. apply HT. split; [exact HS|auto].
Qed.
Lemma object_spread : forall f n r i r1 b r2, regok r -> D f -> on_object s d f n \/ on_interface s d f n ->
  get_interface_fragment_implementation_or_none f n r = (Ok i, r1) -> match i with Some b => ret b | None => inherit_fragment f end r1 = (Ok b, r2) ->
  r2 = r /\ forall fr, the_fragment d f = Some fr -> In n (possible s (fr_on fr)) /\ takes b n (fr_sels fr).
Proof.
  intros f n r i r1 b r2 [_ RO] Df HO H1 H2. pose proof H1 as H1'. apply (impl_or_none_class st) in H1' as [-> _].
  unfold get_interface_fragment_implementation_or_none in H1. mg H1 m. destruct HO as [(fr & TF & <- & IO)|(fr & TF & II & IP)]; destruct (RO f fr Df TF) as [A1 A2 A3 A4 A5 A6].
  - destruct (A3 IO) as [A B]. rewrite A in H1. apply ret_ok in H1 as [-> _]. unfold inherit_fragment in H2. mg H2 m. apply from_opt_ok in H2 as [E ->].
    split; [reflexivity|]. intros fr' TF'. assert (fr' = fr) as -> by congruence. rewrite A1 in E. injection E as <-. split; [rewrite possible_self by exact IO; now left|exact B].
  - destruct (A4 II) as (m' & Em & Hm & _). rewrite Em in H1. destruct (Hm n IP) as [Ei HT]. rewrite Ei in H1. apply ret_ok in H1 as [-> _]. apply ret_ok in H2 as [-> ->].
    split; [reflexivity|]. intros fr' TF'. assert (fr' = fr) as -> by congruence. auto.
Qed.
Lemma object_items : forall n cn dd is fs ds sels b0 r acc r', get_type s n = Some (TObject dd is fs ds) -> all_deep Qt (Some sels) -> Q n sels -> rsels n sels -> regok r ->
  walk (object_item tfn n cn fs) (Some sels) ([], [], b0) r = (Ok acc, r') ->
  let '(classes, bases, body) := acc in regok r' /\ (forall b, In b bases -> base_for n sels b) /\ (incl classes t -> exists extra, body = b0 ++ extra /\ froms n sels extra).
Proof.
  intros n cn dd is fs ds sels b0 r acc r' HT HQ Hq HR RO H. unfold walk in H.
  eapply (mfold_ok _ (fun _ (acc : list stmt * list string * list stmt) r => let '(classes, bases, body) := acc in regok r /\ (forall b, In b bases -> base_for n sels b) /\ (incl classes t -> exists extra, body = b0 ++ extra /\ froms n sels extra))) in H; [exact H| |].
  - split; [exact RO|]. split; [intros b []|]. intros _. exists []. split; [now rewrite app_nil_r|intros x []].
  - clear H r r' RO acc. intros pre x post [[classes bases] body] r [[classes' bases'] body'] r' El (RO & HB & HF) Hx.
    assert (Hin : In x sels) by (rewrite El; apply in_elt).
    destruct (is_typename_field x) eqn:T; [apply ret_ok in Hx as [[= -> -> ->] ->]; auto|].
    destruct x as [g|f dirs|cond dirs m]; cbn [object_item] in Hx; [| |discriminate].
    + change (is_typename_field (SelField g)) with (String.eqb (fn_name g) "__typename") in T. rewrite T in Hx. apply String.eqb_neq in T.
      mb Hx fd r1 H1. apply from_opt_ok in H1 as [E ->]. mb Hx y r2 H2. apply ret_ok in Hx as [[= -> -> ->] ->].
      split; [eapply regok_tfn; eassumption|]. split; [exact HB|]. intros HI. destruct HF as (extra & -> & HF); [eapply incl_tran; [apply incl_appl, incl_refl|exact HI]|].
      exists (extra ++ snd y). split; [now rewrite app_assoc|]. apply froms_app; [exact HF|]. eapply Qt_from; [apply (HQ sels (SelField g) eq_refl Hin)|exact Hin|exact T| |exact HR|exact Hq|exact RO|exact H2|].
      * exists (TObject dd is fs ds), fs. auto.
      * eapply incl_tran; [apply incl_appr, incl_refl|exact HI].
    + mb Hx i r1 H1. mb Hx b r2 H2. apply ret_ok in Hx as [[= -> -> ->] ->].
      inversion HR as [? ? R1 R2 R3 R4 R5]; subst.
      destruct (object_spread _ _ _ _ _ _ _ RO (q_spread _ _ _ _ _ _ Hq f (si_here _ _ _ _ Hin)) (R4 (ltac:(unfold is_object; now rewrite HT)) _ _ Hin) H1 H2) as [-> K].
      split; [exact RO|]. split; [|exact HF]. intros b' Hb'. apply in_app_or in Hb' as [Hb'|[<-|[]]]; [auto|]. eapply base_intro; [eapply q_spread; [exact Hq|eapply si_here; exact Hin]|exact Hin|exact K].
Qed.
Lemma typename_fields : forall i r x r' kvs, generate_typename_field c i r = (Ok x, r') -> says i kvs -> fields_ok [x] kvs /\ plain x.
Proof.
  intros i r x r' kvs H HS. unfold generate_typename_field in H. mb H u1 r1 H1. mb H u2 r2 H2. mb H u3 r3 H3. apply ret_ok in H as [-> _]. split; [|exact I].
  intros n a v [[= <- <- <-]|[]]. split; [split; [discriminate|vm_compute; intuition discriminate]|]. split.
  - intros x Hx. apply HS in Hx. subst x. apply rd_literal.
  - intros _. destruct (exclude_kw c); reflexivity.
Qed.
Lemma doc_fields : forall x body kvs, class_fields [x] = [] -> fields_ok body kvs -> fields_ok (x :: body) kvs.
Proof. intros x body kvs E H. change (x :: body) with ([x] ++ body). apply fields_app; [now apply fields_none|exact H]. Qed.
Lemma nonnull_object : forall n i fs dd ds sels v, get_type s n = Some (TObject dd i fs ds) -> conf_type s d (GNamed n) sels v -> v <> RNull ->
  exists kvs, v = RObj kvs /\ confs n sels kvs.
Proof.
  intros n i fs dd ds sels v HT H HN. inversion H; subst; try congruence.
  match goal with P : In _ (possible _ _) |- _ => rewrite possible_self in P by (unfold is_object; now rewrite HT); destruct P as [<-|[]] end. eexists. split; [reflexivity|]. split; assumption.
Qed.
Lemma optional_reads : forall o e r e' r', optional_if o (ret e) r = (Ok e', r') ->
  forall v, (v <> RNull -> reads e v) -> (o = false -> v <> RNull) -> reads e' v.
Proof.
  intros o e r e' r' H v HV HO. apply (optional_if_ok st) in H as (rx & e0 & _ & H5 & ->). apply ret_ok in H5 as [-> ->]. destruct o.
  - destruct v; try (apply rd_optional, HV; discriminate). apply rd_null.
  - apply HV. now apply HO.
Qed.
Lemma object_reads : forall parent target n dd is fs ds l o r res r', get_type s n = Some (TObject dd is fs ds) -> all_deep Qt (Some l) -> Q n l -> rsels n l -> regok r ->
  object_annotation c st tfn parent target n dd fs (Some l) o r = (Ok res, r') -> incl (fst res) t ->
  forall v, conf_type s d (GNamed n) l v -> (o = false -> v <> RNull) -> reads (snd res) v.
Proof.
  intros parent target n dd is fs ds l o r res r' HT HQ Hq HR RO H HI v HV HO. unfold object_annotation in H. cbn zeta in H. mb H tn r1 H1.
  assert (RO1 : regok r1) by (eapply (regok_m (generate_typename_field c n)); [ev_tac|exact H1|exact RO]).
  assert (HO' : is_object s n = true) by (unfold is_object; now rewrite HT).
  assert (G : (let* r := walk (object_item tfn n (parent +s+ py_capitalize target) fs) (Some l) ([], [], [doc_stmt dd; tn]) in
      let '(classes, bases, body) := r in
      let* add := match bases with [] => get_additional_bases_for_type c n | _ => ret (map EName bases) end in
      let* cfg := generate_pydantic_config (KT KObject) c None in
      let* e := optional_if o (ret (EName (parent +s+ py_capitalize target))) in
      ret (classes ++ [SClass (parent +s+ py_capitalize target) (add ++ names_of (c_object_bases c)) (body ++ cfg) []], e)) r1 = (Ok res, r') -> reads (snd res) v).
  { clear H. intros H. mb H acc r2 H2. apply (object_items _ _ _ _ _ _ _ _ _ _ _ HT HQ Hq HR RO1) in H2. destruct acc as [[classes bases] body]. destruct H2 as (RO2 & HB & HF).
    mb H add r3 H3. mb H cfg r4 H4. mb H e r5 H5. apply ret_ok in H as [-> ->]. cbn [fst snd] in *.
    destruct HF as (extra & -> & HF); [eapply incl_tran; [apply incl_appl, incl_refl|exact HI]|]. destruct (config_ok _ _ _ _ H4) as [C1 C2].
    set (k := parent +s+ py_capitalize target) in *. set (bs := add ++ names_of (c_object_bases c)) in *. set (bd := ([doc_stmt dd; tn] ++ extra) ++ cfg) in *.
    assert (HCl : class_of k bs bd) by (exists []; apply HI, in_or_app; right; now left).
    assert (BB : forall b, In (EName b) bs -> base_for n l b \/ exists es, outers es /\ In (EName b) es).
    { intros b Hb. apply in_app_or in Hb as [Hb|Hb]; [|right; eexists; split; [apply names_outers|exact Hb]].
      destruct bases as [|b0 bases]; [right; eexists; split; [eapply additional_outers; exact H3|exact Hb]|]. apply ret_ok in H3 as [-> _]. apply in_map_iff in Hb as (b' & [= ->] & Hb). left. auto. }
    eapply optional_reads; [exact H5| |exact HO]. intros HN. destruct (nonnull_object _ _ _ _ _ _ _ HT HV HN) as (kvs & -> & Hk).
    eapply rd_model; [exact HCl| |].
    - intros HE. destruct (BB _ HE) as [BF|(es & HO2 & He)]; [|eapply outers_enum; eassumption].
      now apply base_model in BF.
    - eapply build; [exact HCl| | |].
      + destruct (typename_fields _ _ _ _ kvs H1 (proj1 Hk)) as [T1 _]. unfold bd. apply fields_app; [|now apply fields_none]. cbn [app]. apply doc_fields; [reflexivity|].
        change (tn :: extra) with ([tn] ++ extra). apply fields_app; [exact T1|]. eapply froms_fields; [exact HR|left; reflexivity|exact HF|exact Hk].
      + unfold bd. apply forbids_app; [|exact C2]. apply plain_forbids. intros x Hx. cbn [app] in Hx. destruct Hx as [<-|[<-|Hx]]; [exact I|exact (proj2 (typename_fields _ _ _ _ kvs H1 (proj1 Hk)))|eapply from_plain, HF; exact Hx].
      + intros b Hb. destruct (BB _ Hb) as [BF|(es & HO2 & He)]; [eapply base_builds; eassumption|eapply outers_build; eassumption]. }
  destruct (option_map non_typename (Some l)) as [[|[g|f dirs|cond dirs m] [|y l']]|] eqn:E; try (apply G; exact H).
  clear G. mb H x r2 H2. mb H e r3 H3. mb H e' r4 H4. apply ret_ok in H as [-> ->]. cbn [fst snd] in *.
  assert (Hf : In (SelSpread f dirs) l).
  { injection E as E. assert (K : In (SelSpread f dirs) (non_typename l)) by (rewrite E; now left). unfold non_typename in K. apply filter_In in K. tauto. }
  inversion HR as [? ? R1 R2 R3 R4 R5]; subst.
  assert (Df : D f) by (eapply q_spread; [exact Hq|eapply si_here; exact Hf]).
  eapply optional_reads; [exact H4| |exact HO]. intros HN. destruct (nonnull_object _ _ _ _ _ _ _ HT HV HN) as (kvs & -> & Hk).
  assert (K : exists b, (e = EName b \/ e = estr b) /\ base_for n l b /\ model b).
  { destruct x as [b|].
    - apply ret_ok in H3 as [-> ->]. exists b. split; [now left|]. destruct (object_spread f n r1 (Some b) r2 b r2 RO1 Df (R4 HO' _ _ Hf) H2 eq_refl) as [_ K].
      split; [eapply base_intro; eassumption|]. destruct (R4 HO' _ _ Hf) as [(fr & TF & _)|(fr & TF & _)]; apply (K fr TF).
    - apply reference_generic_ok in H3. exists (cls f). split; [exact H3|].
      destruct RO1 as [RS RO1]. destruct (R4 HO' _ _ Hf) as [(fr & TF & <- & IO)|(fr & TF & II & IP)]; destruct (RO1 f fr Df TF) as [A1 A2 A3 A4 A5 A6].
      + destruct (A3 IO) as [_ B]. split; [|apply B]. apply (base_intro _ _ _ f dirs Df Hf). intros fr' TF'. assert (fr' = fr) as -> by congruence. split; [rewrite possible_self by exact IO; now left|exact B].
      + exfalso. destruct (A4 II) as (m' & Em & Hm & _). destruct (Hm n IP) as [Ei _]. unfold get_interface_fragment_implementation_or_none in H2. mg H2 m2. rewrite Em, Ei in H2. apply ret_ok in H2 as [[=] _]. }
  destruct K as (b & Eb & HB & (bases & body & M1 & M2)).
  assert (reads (EName b) (RObj kvs)) by (eapply rd_model; [exact M1|exact M2|eapply base_builds; eassumption]). destruct Eb as [->| ->]; [assumption|now apply rd_forward].
Qed.

(** ** interfaces *)
Lemma inline_froms : forall strict parent on sub r acc r', (forall g, In (SelField g) sub -> Qt g) -> Q on sub -> rsels on sub -> regok r ->
  inline_fields s tfn strict parent on sub r = (Ok acc, r') -> regok r' /\ (incl (fst acc) t -> froms on sub (snd acc)).
Proof.
  intros strict parent on sub r acc r' HQ Hq HR RO H. unfold inline_fields in H.
  eapply (mfold_ok _ (fun _ (acc : list stmt * list stmt) r => regok r /\ (incl (fst acc) t -> froms on sub (snd acc)))) in H; [exact H|split; [exact RO|intros _ x []]|].
  clear H RO r r' acc. intros pre x post acc r acc' r' El [RO HF] H. assert (Hin : In x sub) by (rewrite El; apply in_elt).
  destruct x as [g|f dirs|cond dirs m]; try (apply ret_ok in H as [-> ->]; auto).
  destruct (String.eqb (fn_name g) "__typename") eqn:T; [apply ret_ok in H as [-> ->]; auto|]. pose proof T as T'. apply String.eqb_neq in T'.
  mb H fd r1 H1. apply from_opt_ok in H1 as [E ->]. mb H y r2 H2. apply ret_ok in H as [-> ->]. cbn [fst snd].
  split; [eapply regok_tfn; eassumption|]. intros HI. apply froms_app; [apply HF; eapply incl_tran; [apply incl_appl, incl_refl|exact HI]|].
  eapply Qt_from; [apply HQ; exact Hin|exact Hin|exact T'| |exact HR|exact Hq|exact RO|exact H2|eapply incl_tran; [apply incl_appr, incl_refl|exact HI]].
  eapply get_field_def_schema; eassumption.
Qed.
Lemma fold_dextend_inv : forall {A} (m : list (string * A)) b i x, In x (dget_list i (fold_left (fun b kv => dextend (fst kv) [snd kv] b) m b)) -> In x (dget_list i b) \/ In (i, x) m.
Proof.
  induction m as [|[j y] m IH]; intros b i x H; [now left|]. cbn [fold_left fst snd] in H. apply IH in H as [H|H]; [|right; now right].
  rewrite dget_list_dextend in H. destruct (String.eqb_spec i j) as [->|]; [|now left]. apply in_app_or in H as [H|[->|[]]]; [now left|right; now left].
Qed.
Lemma spread_for : forall f b r b' r' sels dirs, regok r -> D f -> In (SelSpread f dirs) sels -> spread_bases f b r = (Ok b', r') ->
  r' = r /\ forall i k, is_object s i = true -> In k (dget_list i b') -> In k (dget_list i b) \/ base_for i sels k.
Proof.
  intros f b r b' r' sels dirs [_ RO] Df Hf H. unfold spread_bases in H. mg H m. destruct (dget f (r_iffrag r)) as [impls|] eqn:EI.
  - apply ret_ok in H as [-> ->]. split; [reflexivity|]. intros i k IO Hk. apply fold_dextend_inv in Hk as [Hk|Hk]; [now left|right].
    apply (base_intro _ _ _ f dirs Df Hf). intros fr TF. destruct (RO f fr Df TF) as [A1 A2 A3 A4 A5 A6]. destruct (is_iface s (fr_on fr)) eqn:II; [|rewrite (proj1 A6 eq_refl) in EI; discriminate].
    destruct (A4 eq_refl) as (m & Em & B1 & B2). assert (m = impls) as -> by congruence. destruct (B2 _ _ Hk) as [HP ->]. split; [exact HP|]. now apply B1.
  - mb H x r1 H1. mb H k r2 H2. apply ret_ok in H as [-> ->]. unfold get_fragment_type in H1. mg H1 m. apply from_opt_ok in H1 as [E1 ->]. unfold inherit_fragment in H2. mg H2 m. apply from_opt_ok in H2 as [E2 ->].
    split; [reflexivity|]. intros i k' IO Hk. rewrite dget_list_dextend in Hk. destruct (String.eqb_spec i x) as [->|]; [|now left]. apply in_app_or in Hk as [Hk|[<-|[]]]; [now left|right].
    apply (base_intro _ _ _ f dirs Df Hf). intros fr TF. destruct (RO f fr Df TF) as [A1 A2 A3 A4 A5 A6]. rewrite A2 in E1. injection E1 as E1. rewrite <- E1 in IO. destruct (A3 IO) as [_ B].
    rewrite A1 in E2. injection E2 as <-. rewrite <- E1. split; [rewrite possible_self by exact IO; now left|exact B].
Qed.
Definition inlined (sels : list selection) (i : string) (x : stmt) : Prop := exists dirs m, In (SelInline (Some i) dirs m) sels /\ from i m x.
Lemma iface_items : forall strict parent n dd is fs sels b0 r p r', get_type s n = Some (TInterface dd is fs) -> all_deep Qt (Some sels) -> Q n sels -> rsels n sels -> regok r ->
  walk (iface_item s tfn strict fs parent) (Some sels) (IParts [] b0 [] []) r = (Ok p, r') ->
  regok r' /\ (forall i k, is_object s i = true -> In k (dget_list i (ip_bases p)) -> base_for i sels k)
  /\ (incl (ip_classes p) t -> (exists extra, ip_fields p = b0 ++ extra /\ froms n sels extra) /\ forall i x, In x (dget_list i (ip_inline p)) -> inlined sels i x).
Proof.
  intros strict parent n dd is fs sels b0 r p r' HT HQ Hq HR RO H. unfold walk in H.
  eapply (mfold_ok _ (fun _ p r => regok r /\ (forall i k, is_object s i = true -> In k (dget_list i (ip_bases p)) -> base_for i sels k)
  /\ (incl (ip_classes p) t -> (exists extra, ip_fields p = b0 ++ extra /\ froms n sels extra) /\ forall i x, In x (dget_list i (ip_inline p)) -> inlined sels i x))) in H; [exact H| |].
  - split; [exact RO|]. split; [intros i k _ []|]. intros _. split; [exists []; split; [now rewrite app_nil_r|intros x []]|intros i x []].
  - clear H RO r r' p. intros pre x post p r p' r' El (RO & HB & HF) Hx. assert (Hin : In x sels) by (rewrite El; apply in_elt).
    destruct (is_typename_field x) eqn:T; [apply ret_ok in Hx as [-> ->]; auto|]. destruct x as [g|f dirs|cond dirs m]; cbn [iface_item] in Hx.
    + change (is_typename_field (SelField g)) with (String.eqb (fn_name g) "__typename") in T. apply String.eqb_neq in T.
      mb Hx fd r1 H1. apply from_opt_ok in H1 as [E ->]. mb Hx y r2 H2. apply ret_ok in Hx as [-> ->]. cbn [ip_bases ip_classes ip_fields ip_inline].
      split; [eapply regok_tfn; eassumption|]. split; [exact HB|]. intros HI. destruct HF as [(extra & E2 & HF) HL]; [eapply incl_tran; [apply incl_appl, incl_refl|exact HI]|]. split; [|exact HL].
      exists (extra ++ snd y). split; [now rewrite E2, app_assoc|]. apply froms_app; [exact HF|]. eapply Qt_from; [apply (HQ sels (SelField g) eq_refl Hin)|exact Hin|exact T| |exact HR|exact Hq|exact RO|exact H2|].
      * exists (TInterface dd is fs), fs. auto.
      * eapply incl_tran; [apply incl_appr, incl_refl|exact HI].
    + mb Hx b r1 H1. apply ret_ok in Hx as [-> ->]. cbn [ip_bases ip_classes ip_fields ip_inline].
      destruct (spread_for _ _ _ _ _ sels dirs RO (q_spread _ _ _ _ _ _ Hq f (si_here _ _ _ _ Hin)) Hin H1) as [-> K]. split; [exact RO|]. split; [|exact HF].
      intros i k IO Hk. destruct (K i k IO Hk); auto.
    + mb Hx on r1 H1. apply from_opt_ok in H1 as [-> ->]. mb Hx u r2 H2.
      assert (r2 = r) as ->. { destruct (get_type s on) as [[]|]; try destruct strict; try discriminate H2; apply ret_ok in H2; tauto. }
      clear H2. mb Hx y r3 H3. apply ret_ok in Hx as [-> ->]. cbn [ip_bases ip_classes ip_fields ip_inline].
      inversion HR as [? ? R1 R2 R3 R4 R5]; subst. destruct (R3 _ _ _ Hin) as [_ HRm].
      apply inline_froms in H3; [|exact (HQ _ (SelInline (Some on) dirs m) eq_refl Hin)|eapply Q_inline; eassumption|exact HRm|exact RO]. destruct H3 as [RO3 H3].
      split; [exact RO3|]. split; [exact HB|]. intros HI. destruct HF as [HF HL]; [eapply incl_tran; [apply incl_appl, incl_refl|exact HI]|]. split; [exact HF|].
      intros i x Hx. rewrite dget_list_dextend in Hx. destruct (String.eqb_spec i on) as [->|]; [|auto]. apply in_app_or in Hx as [Hx|Hx]; [auto|]. exists dirs, m. split; [exact Hin|].
      apply H3; [eapply incl_tran; [apply incl_appr, incl_refl|exact HI]|exact Hx].
Qed.
(** the class for objects of type [i] *)
Lemma impl_takes : forall n sels p mother cn i b0 r x r' extra, is_iface s n = true -> rsels n sels -> In i (possible s n) ->
  (forall i k, is_object s i = true -> In k (dget_list i (ip_bases p)) -> base_for i sels k) ->
  ip_fields p = b0 ++ extra -> froms n sels extra -> (forall i x, In x (dget_list i (ip_inline p)) -> inlined sels i x) ->
  (forall kvs, confs i sels kvs -> builds mother kvs) -> mother <> "Enum" ->
  implementing_class c s mother cn p i r = (Ok x, r') -> In x t ->
  takes cn i sels /\ exists bases body, class_of cn bases body /\ tagged_with body i.
Proof.
  intros n sels p mother cn i b0 r x r' extra HI HR HP HB EF HF HL HM NM H Hx. unfold implementing_class in H. cbn zeta in H. mb H add r1 H1. mb H ib r2 H2. mb H tn r3 H3. apply ret_ok in H as [-> _].
  assert (IO : is_object s i = true) by (eapply possible_object; eassumption).
  match type of Hx with In (SClass _ ?bs ?bd _) _ => set (bases := bs) in *; set (body := bd) in * end.
  assert (HCl : class_of cn bases body) by (exists []; exact Hx).
  assert (HO : outers (add ++ ib)) by (apply outers_app; [eapply additional_outers; exact H1|eapply iface_outers; exact H2]).
  assert (BB : forall b, In (EName b) bases -> base_for i sels b \/ b = mother \/ In (EName b) (add ++ ib)).
  { intros b Hb. apply in_app_or in Hb as [Hb|Hb]; [apply in_map_iff in Hb as (b' & [= ->] & Hb); left; eauto|]. cbn [app] in Hb. destruct Hb as [[= ->]|Hb]; auto. }
  inversion HR as [? ? R1 R2 R3 R4 R5]; subst.
  split; [split|].
  - exists bases, body. split; [exact HCl|]. intros HE. destruct (BB _ HE) as [B|[<-|B]]; [now apply base_model in B|congruence|]. eapply outers_enum; eassumption.
  - intros kvs Hk. eapply build; [exact HCl| | |].
    + destruct (typename_fields _ _ _ _ kvs H3 (proj1 Hk)) as [T1 _]. unfold body. apply fields_app.
      { apply doc_fields; [reflexivity|exact T1]. }
      intros m a v Hin. apply class_fields_in in Hin. apply HL in Hin as (dirs & m' & Hm & Hfrom). destruct (R3 _ _ _ Hm) as [ND HRm].
      assert (confs i m' kvs) as Hk'.
      { split; [apply Hk|]. destruct Hk as [_ Hk]. specialize (Hk _ Hm). inversion Hk as [| | | | |? ? ? ? ? CF| ]; subst; [|contradiction]. apply CF. rewrite possible_self by exact IO. now left. }
      assert (F : fields_ok [SAnn m a v] kvs) by (eapply froms_fields; [exact HRm|left; reflexivity| |exact Hk']; intros y [<-|[]]; exact Hfrom).
      apply F. now left.
    + apply plain_forbids. intros y Hy. apply in_app_or in Hy as [[<-|[<-|[]]]|Hy]; [exact I|unfold generate_typename_field in H3; minv; exact I|].
      apply HL in Hy as (dirs & m' & Hm & Hfrom). eapply from_plain; exact Hfrom.
    + intros b Hb. destruct (BB _ Hb) as [B|[->|B]]; [eapply base_builds; eassumption|auto|eapply outers_build; eassumption].
  - exists bases, body. split; [exact HCl|]. unfold generate_typename_field in H3. minv. eexists. split.
    + unfold body. cbn [app]. unfold doc_stmt. rewrite last_field_doc. apply last_field_first; [reflexivity|]. intros [[mm aa] vv] Hin. apply class_fields_in in Hin. apply HL in Hin as (dirs & m' & Hm & Hfrom).
      cbn in Hfrom. destruct Hfrom as (g & fd & Hg & HN & HS & [F1 _ _ _]). cbn. rewrite F1. eapply R5; eassumption.
    + destruct (exclude_kw c); reflexivity.
Qed.
Lemma nonnull_composite : forall n sels v, is_scalar s n = false -> Spec_Valid.is_enum s n = false -> conf_type s d (GNamed n) sels v -> v <> RNull ->
  exists i kvs, v = RObj kvs /\ In i (possible s n) /\ confs i sels kvs.
Proof.
  intros n sels v HS HE H HN. inversion H; subst; try congruence.
  - unfold is_scalar in HS. match goal with G : get_type _ _ = _ |- _ => rewrite G in HS end. discriminate.
  - unfold Spec_Valid.is_enum in HE. match goal with G : get_type _ _ = _ |- _ => rewrite G in HE end. discriminate.
  - do 2 eexists. split; [reflexivity|]. split; [eassumption|]. split; assumption.
Qed.
Lemma typename_there : forall i l kvs, (exists g, In (SelField g) l /\ fn_name g = "__typename" /\ fn_alias g = None /\ ~ conditional (fn_dirs g)) -> confs i l kvs -> dget "__typename" kvs = Some (RText i).
Proof.
  intros i l kvs (g & Hg & E1 & E2 & E3) [_ H]. specialize (H _ Hg).
  assert (RK : response_key g = "__typename") by (unfold response_key; now rewrite E2).
  inversion H; subst; try contradiction. congruence.
Qed.
Lemma interface_reads : forall parent target n dd is fs l o r res r', get_type s n = Some (TInterface dd is fs) -> all_deep Qt (Some l) -> Q n l -> rsels n l -> regok r ->
  (exists g, In (SelField g) l /\ fn_name g = "__typename" /\ fn_alias g = None /\ ~ conditional (fn_dirs g)) ->
  interface_annotation c s tfn parent target n dd fs (Some l) o r = (Ok res, r') -> incl (fst res) t ->
  forall v, conf_type s d (GNamed n) l v -> (o = false -> v <> RNull) -> reads (snd res) v.
Proof.
  intros parent target n dd is fs l o r res r' HT HQ Hq HR RO HTN H HI v HV HO. unfold interface_annotation in H. cbn zeta in H.
  assert (II : is_iface s n = true) by (unfold is_iface; now rewrite HT).
  mb H p r1 H1. apply (iface_items _ _ _ _ _ _ _ _ _ _ _ HT HQ Hq HR RO) in H1. destruct H1 as (RO1 & HB & HF).
  mb H add r2 H2. mb H ib r3 H3. mb H cfg r4 H4. mb H ics r5 H5. mb H u1 r6 H6. mb H u2 r7 H7. mb H rest r8 H8. mb H e r9 H9. mb H u3 r10 H10. apply ret_ok in H as [-> ->]. cbn [fst snd] in *.
  destruct HF as [(extra & EF & HF) HL]; [eapply incl_tran; [apply incl_appl, incl_refl|exact HI]|].
  set (mother := (parent +s+ py_capitalize target) +s+ "Base") in *.
  assert (HCm : class_of mother (add ++ ib) (ip_fields p ++ cfg)) by (exists []; apply HI, in_or_app; right; now left).
  assert (Hout : outers (add ++ ib)) by (apply outers_app; [eapply additional_outers; exact H2|eapply iface_outers; exact H3]).
  destruct (config_ok _ _ _ _ H4) as [C1 C2].
  assert (BM : forall i kvs, In i (possible s n) -> confs i l kvs -> builds mother kvs).
  { intros i kvs Hi Hk. eapply build; [exact HCm| | |].
    - apply fields_app; [|now apply fields_none]. rewrite EF. cbn [app]. apply doc_fields; [reflexivity|]. eapply froms_fields; [exact HR|right; split; [exact II|exact Hi]|exact HF|exact Hk].
    - apply forbids_app; [|exact C2]. apply plain_forbids. rewrite EF. intros x [<-|Hx]; [exact I|eapply from_plain, HF; exact Hx].
    - intros b Hb. eapply outers_build; eassumption. }
  assert (NM : mother <> "Enum").
  { apply (model_owned mother). exists (add ++ ib), (ip_fields p ++ cfg). split; [exact HCm|now apply outers_enum]. }
  assert (IC : forall i, In i (possible s n) -> takes (mother +s+ i) i l /\ exists bases body, class_of (mother +s+ i) bases body /\ tagged_with body i).
  { intros i Hi. pose proof Hi as Hi'. rewrite possible_implementations in Hi' by exact II.
    assert (exists x ra rb, implementing_class c s mother (mother +s+ i) p i ra = (Ok x, rb) /\ In x ics) as (x & ra & rb & Hx & Hin).
    { clear -H5 Hi'. revert r4 ics r5 H5. induction (implementations s n) as [|j js IH]; intros r4 ics r5 H; [contradiction|]. cbn [mmap] in H. mb H y ra H1. mb H ys rb H2. apply ret_ok in H as [-> ->].
      destruct Hi' as [->|Hj]; [do 3 eexists; split; [exact H1|now left]|]. destruct (IH Hj _ _ _ H2) as (x & a & b & E & K). do 3 eexists. split; [exact E|now right]. }
    eapply impl_takes; [exact II|exact HR|exact Hi|exact HB|exact EF|exact HF|exact HL|intros kvs Hk; eapply BM; eassumption|exact NM|exact Hx|].
    apply HI. apply in_or_app. right. cbn [app]. right. apply in_or_app. now left. }
  eapply optional_reads; [exact H9| |exact HO]. intros HN.
  assert (NS : is_scalar s n = false /\ Spec_Valid.is_enum s n = false) by (unfold is_scalar, Spec_Valid.is_enum; rewrite HT; auto).
  destruct (nonnull_composite _ _ _ (proj1 NS) (proj2 NS) HV HN) as (i & kvs & -> & Hi & Hk). destruct (IC i Hi) as [[_ TK] (bases & body & HCl & TG)].
  assert (RA : reads (annotated_of [union_of (map (fun i => EName (mother +s+ i)) (implementations s n)); field_call [("discriminator", estr "typename")]]) (RObj kvs)).
  { eapply rd_tagged; [reflexivity| |exact HCl|exact TG|eapply typename_there; eassumption|auto].
    rewrite possible_implementations in Hi by exact II. apply in_map_iff. eauto. }
  destruct (c_create_catchall c).
  - mb H8 ib2 ra Ha. mb H8 tn rb Hb. mb H8 u4 rc Hc. apply ret_ok in H8 as [-> _]. cbn [snd]. eapply rd_union; [now left|exact RA].
  - apply ret_ok in H8 as [-> _]. exact RA.
Qed.

(** ** unions *)
Hypothesis HUO : forall n i, Spec_Mro2.is_union s n = true -> In i (possible s n) -> is_object s i = true.
Lemma inline_items : forall cn on sub r acc r', (forall g, In (SelField g) sub -> Qt g) -> Q on sub -> rsels on sub ->
  (forall g dirs, In (SelSpread g dirs) sub -> on_object s d g on) -> regok r ->
  mfold (inline_item s tfn cn on) sub ([], [], []) r = (Ok acc, r') ->
  let '(nested, bases, fields) := acc in regok r' /\ (forall b, In b bases -> base_for on sub b) /\ (incl nested t -> froms on sub fields).
Proof.
  intros cn on sub r acc r' HQ Hq HR HS RO H.
  eapply (mfold_ok _ (fun _ (acc : list stmt * list string * list stmt) r => let '(nested, bases, fields) := acc in regok r /\ (forall b, In b bases -> base_for on sub b) /\ (incl nested t -> froms on sub fields))) in H; [exact H| |].
  - split; [exact RO|]. split; [intros b []|intros _ x []].
  - clear H RO r r' acc. intros pre x post [[nested bases] fields] r acc' r' El (RO & HB & HF) Hx. assert (Hin : In x sub) by (rewrite El; apply in_elt).
    destruct x as [g|f dirs|cond dirs m]; cbn [inline_item] in Hx.
    + destruct (String.eqb (fn_name g) "__typename") eqn:T; [apply ret_ok in Hx as [-> ->]; auto|]. apply String.eqb_neq in T.
      destruct (get_type s on) as [[| |dd is fs ds| | |]|] eqn:HT; try discriminate. mb Hx fd r1 H1. apply from_opt_ok in H1 as [E ->]. mb Hx y r2 H2. apply ret_ok in Hx as [-> ->].
      split; [eapply regok_tfn; eassumption|]. split; [exact HB|]. intros HI. apply froms_app; [apply HF; eapply incl_tran; [apply incl_appl, incl_refl|exact HI]|].
      eapply Qt_from; [apply HQ; exact Hin|exact Hin|exact T| |exact HR|exact Hq|exact RO|exact H2|eapply incl_tran; [apply incl_appr, incl_refl|exact HI]].
      exists (TObject dd is fs ds), fs. auto.
    + mb Hx b r1 H1. unfold is_interface_fragment in H1. apply gets_ok in H1 as [-> ->]. destruct (mem f (r_ifrags r)); [discriminate|]. mb Hx k r2 H2. apply ret_ok in Hx as [-> ->].
      unfold inherit_fragment in H2. mg H2 m. apply from_opt_ok in H2 as [E ->]. split; [exact RO|]. split; [|exact HF]. intros b Hb. apply in_app_or in Hb as [Hb|[<-|[]]]; [auto|].
      assert (Df : D f) by (eapply q_spread; [exact Hq|eapply si_here; exact Hin]). destruct (HS _ _ Hin) as (fr & TF & <- & IO). destruct RO as [_ RO]. destruct (RO f fr Df TF) as [A1 A2 A3 A4 A5 A6].
      destruct (A3 IO) as [_ B]. rewrite A1 in E. injection E as <-. exists f, dirs, fr. split; [exact Hin|]. split; [exact TF|]. split; [rewrite possible_self by exact IO; now left|exact B].
    + apply ret_ok in Hx as [-> ->]. auto.
Qed.
Definition isalt (x : selection) : bool := match x with SelField _ => false | _ => true end.
Lemma union_items : forall parent sels n r acc r', Spec_Mro2.is_union s n = true -> all_deep Qt (Some sels) -> Q n sels -> rsels n sels -> regok r ->
  (forall i dirs m g dirs', In (SelInline (Some i) dirs m) sels -> In (SelSpread g dirs') m -> on_object s d g i) ->
  walk (union_item c s tfn parent) (Some sels) ([], []) r = (Ok acc, r') ->
  regok r' /\ List.length (snd acc) = List.length (filter isalt sels)
  /\ (forall g dirs, In (SelSpread g dirs) sels -> In (cls g) (snd acc))
  /\ (forall i dirs m, In (SelInline (Some i) dirs m) sels -> exists k, In k (snd acc) /\ (incl (fst acc) t -> takes k i m)).
Proof.
  intros parent sels n r acc r' HU HQ Hq HR RO HS H. unfold walk in H.
  eapply (mfold_ok _ (fun pre acc r => regok r /\ List.length (snd acc) = List.length (filter isalt pre)
    /\ (forall g dirs, In (SelSpread g dirs) pre -> In (cls g) (snd acc))
    /\ (forall i dirs m, In (SelInline (Some i) dirs m) pre -> exists k, In k (snd acc) /\ (incl (fst acc) t -> takes k i m)))) in H; [exact H| |].
  - split; [exact RO|]. split; [reflexivity|]. split; [intros g dirs []|intros i dirs m []].
  - clear H RO r r' acc. intros pre x post [classes names] r acc' r' El (RO & HLn & HG & HM) Hx. cbn [fst snd] in *. assert (Hin : In x sels) by (rewrite El; apply in_elt).
    assert (SKIP : isalt x = false -> regok r -> regok r /\ List.length names = List.length (filter isalt (pre ++ [x]))
      /\ (forall g dirs, In (SelSpread g dirs) (pre ++ [x]) -> In (cls g) names)
      /\ (forall i dirs m, In (SelInline (Some i) dirs m) (pre ++ [x]) -> exists k, In k names /\ (incl classes t -> takes k i m))).
    { intros IA _. split; [exact RO|]. rewrite filter_app. cbn [filter]. rewrite IA, app_nil_r. split; [exact HLn|]. split.
      - intros g dirs Hg. apply in_app_or in Hg as [Hg|[->|[]]]; [eauto|discriminate].
      - intros i dirs m Hg. apply in_app_or in Hg as [Hg|[->|[]]]; [eauto|discriminate]. }
    destruct (is_typename_field x) eqn:T; [apply ret_ok in Hx as [-> ->]; apply SKIP; [|exact RO]; destruct x; [reflexivity|discriminate|discriminate]|].
    destruct x as [g|f dirs|cond dirs m]; cbn [union_item] in Hx.
    + apply ret_ok in Hx as [-> ->]. apply SKIP; [reflexivity|exact RO].
    + clear SKIP. mb Hx k r1 H1. apply ret_ok in Hx as [-> ->]. unfold inherit_fragment in H1. mg H1 mm. apply from_opt_ok in H1 as [E ->]. cbn [fst snd].
      assert (Df : D f) by (eapply q_spread; [exact Hq|eapply si_here; exact Hin]). destruct (HD f Df) as (fr & TF). pose proof RO as [_ RO']. destruct (RO' f fr Df TF) as [A1 _ _ _ _ _]. rewrite A1 in E. injection E as <-.
      split; [exact RO|]. split; [rewrite filter_app, !app_length, HLn; reflexivity|]. split.
      * intros g' dirs' Hg. apply in_or_app. apply in_app_or in Hg as [Hg|[[= <- <-]|[]]]; [left; eauto|right; now left].
      * intros i dirs' m Hg. apply in_app_or in Hg as [Hg|[[=]|[]]]. destruct (HM _ _ _ Hg) as (k & Hk & HT). exists k. split; [apply in_or_app; now left|exact HT].
    + clear SKIP. mb Hx on r1 H1. apply from_opt_ok in H1 as [-> ->]. mb Hx y r2 H2. inversion HR as [? ? R1 R2 R3 R4 R5]; subst. destruct (R3 _ _ _ Hin) as [NCo HRm].
      apply inline_items in H2; [|exact (HQ _ (SelInline (Some on) dirs m) eq_refl Hin)|eapply Q_inline; eassumption|exact HRm|intros g dirs' Hg; eapply HS; eassumption|exact RO].
      destruct y as [[nested bases] fields]. destruct H2 as (RO2 & HB & HF). mb Hx body r3 H3. mb Hx add r4 H4. mb Hx cfg r5 H5. apply ret_ok in Hx as [-> ->]. cbn [fst snd].
      assert (RO5 : regok r5).
      { eapply (regok_m (generate_pydantic_config (KT KFragment) c None)); [ev_tac|exact H5|].
        assert (regok r3) by (destruct bases; [mb H3 tn ra Ha; apply ret_ok in H3 as [_ ->]; eapply (regok_m (generate_typename_field c on)); [ev_tac|exact Ha|exact RO2]|apply ret_ok in H3 as [_ ->]; exact RO2]).
        destruct bases; [eapply (regok_m (get_additional_bases_for_type c on)); [ev_tac|exact H4|assumption]|apply ret_ok in H4 as [_ ->]; assumption]. }
      split; [exact RO5|]. split; [rewrite filter_app, !app_length, HLn; reflexivity|]. split.
      * intros g' dirs' Hg. apply in_or_app. apply in_app_or in Hg as [Hg|[[=]|[]]]. left; eauto.
      * intros i dirs' m' Hg. apply in_app_or in Hg as [Hg|[[= -> -> ->]|[]]].
        { destruct (HM _ _ _ Hg) as (k & Hk & HT). exists k. split; [apply in_or_app; now left|]. intros HI. apply HT. eapply incl_tran; [apply incl_appl, incl_refl|exact HI]. }
        exists (parent +s+ i +s+ "InlineFragment"). split; [apply in_or_app; right; now left|]. intros HI.
        assert (HF' : froms i m' fields) by (apply HF; eapply incl_tran; [|exact HI]; apply incl_appr, incl_appl, incl_refl).
        destruct (config_ok _ _ _ _ H5) as [C1 C2].
        match type of HI with incl (_ ++ _ ++ [SClass ?k ?bs ?bd _]) _ => set (cn := k) in *; set (bs' := bs) in *; set (bd' := bd) in * end.
        assert (HCl : class_of cn bs' bd') by (exists []; apply HI; apply in_or_app; right; apply in_or_app; right; now left).
        assert (BB : forall b, In (EName b) bs' -> base_for i m' b \/ exists es, outers es /\ In (EName b) es).
        { intros b Hb. apply in_app_or in Hb as [Hb|Hb]; [|right; eexists; split; [apply names_outers|exact Hb]].
          destruct bases as [|b0 bases]; [right; eexists; split; [eapply additional_outers; exact H4|exact Hb]|]. apply ret_ok in H4 as [-> _]. apply in_map_iff in Hb as (b' & [= ->] & Hb). left. auto. }
        split.
        -- exists bs', bd'. split; [exact HCl|]. intros HE. destruct (BB _ HE) as [B|(es & B1 & B2)]; [now apply base_model in B|eapply outers_enum; eassumption].
        -- intros kvs Hk.
           assert (FB : fields_ok body kvs /\ ~ forbids body).
           { assert (FF : fields_ok fields kvs) by (eapply froms_fields; [exact HRm|left; reflexivity|exact HF'|exact Hk]).
             assert (PF : forall x, In x fields -> plain x) by (intros x Hx; eapply from_plain, HF'; exact Hx).
             destruct bases; [mb H3 tn ra Ha; apply ret_ok in H3 as [-> _]; destruct (typename_fields _ _ _ _ kvs Ha (proj1 Hk)) as [T1 T2]|apply ret_ok in H3 as [-> _]; split; [exact FF|now apply plain_forbids]].
             split; [change (tn :: fields) with ([tn] ++ fields); now apply fields_app|]. apply plain_forbids. intros x [<-|Hx]; auto. }
           destruct FB as [FB1 FB2].
           assert (FC : fields_ok bd' kvs /\ ~ forbids bd').
           { unfold bd'. destruct (body ++ cfg) as [|x0 xs] eqn:EB; [split; [now apply fields_none|apply plain_forbids; intros x [<-|[]]; exact I]|]. rewrite <- EB. split; [apply fields_app; [exact FB1|now apply fields_none]|now apply forbids_app]. }
           eapply build; [exact HCl|apply FC|apply FC|]. intros b Hb. destruct (BB _ Hb) as [B|(es & B1 & B2)]; [eapply base_builds; eassumption|eapply outers_build; eassumption].
Qed.
Lemma alias_reads : forall r f fr i kvs, regok r -> D f -> the_fragment d f = Some fr -> Spec_Mro2.is_union s (fr_on fr) = true -> In i (possible s (fr_on fr)) -> confs i (fr_sels fr) kvs -> reads (EName (cls f)) (RObj kvs).
Proof.
  intros r f fr i kvs [_ RO] Df TF HU Hi Hk. destruct (RO f fr Df TF) as [A1 A2 A3 A4 A5 A6]. destruct (A5 HU) as (_ & m & _ & B1 & _ & B2).
  eapply rd_alias; [exact B2|]. eapply rd_union; [apply in_map_iff; exists i; split; [reflexivity|exact Hi]|]. eapply reads_class; [apply B1; exact Hi|exact Hk].
Qed.
Lemma union_reads : forall parent n dd ms l o r res r', get_type s n = Some (TUnion dd ms) -> all_deep Qt (Some l) -> Q n l -> rsels n l -> regok r ->
  (forall i, In i (possible s n) -> told_apart s d l i) -> (o = true -> List.length (filter isalt l) <> 1) ->
  (forall i dirs m g dirs', In (SelInline (Some i) dirs m) l -> In (SelSpread g dirs') m -> on_object s d g i) ->
  union_annotation c s tfn parent (Some l) o r = (Ok res, r') -> incl (fst res) t ->
  forall v, conf_type s d (GNamed n) l v -> (o = false -> v <> RNull) -> reads (snd res) v.
Proof.
  intros parent n dd ms l o r res r' HT HQ Hq HR RO HA HL HS H HI v HV HO. unfold union_annotation in H. mb H acc r1 H1.
  assert (HU : Spec_Mro2.is_union s n = true) by (unfold Spec_Mro2.is_union; now rewrite HT).
  apply (union_items _ _ n) in H1; auto. destruct acc as [classes names]. cbn [fst snd] in H1. destruct H1 as (RO1 & LN & HG & HM).
  assert (NS : is_scalar s n = false /\ Spec_Valid.is_enum s n = false) by (unfold is_scalar, Spec_Valid.is_enum; rewrite HT; auto).
  assert (ONE : incl classes t -> v <> RNull -> exists k, In k names /\ reads (EName k) v).
  { intros HIc HN. destruct (nonnull_composite _ _ _ (proj1 NS) (proj2 NS) HV HN) as (i & kvs & -> & Hi & Hk). assert (IO := HUO _ _ HU Hi).
    inversion HR as [? ? R1 R2 R3 R4 R5]; subst. destruct (HA i Hi) as [(dirs & m & Hm)|(g & dirs & Hg & OG)].
    - destruct (HM _ _ _ Hm) as (k & Hkn & HTk). exists k. split; [exact Hkn|]. eapply reads_class; [auto|]. split; [apply Hk|]. destruct (R3 _ _ _ Hm) as [NC _].
      destruct Hk as [_ Hk]. specialize (Hk _ Hm). inversion Hk as [| | | | |? ? ? ? ? CF| ]; subst; [|contradiction]. apply CF. rewrite possible_self by exact IO. now left.
    - exists (cls g). split; [eauto|]. assert (Dg : D g) by (eapply q_spread; [exact Hq|eapply si_here; exact Hg]).
      assert (CF : forall fr, the_fragment d g = Some fr -> In i (possible s (fr_on fr)) -> confs i (fr_sels fr) kvs).
      { intros fr TF HP. split; [apply Hk|]. destruct Hk as [_ Hk]. specialize (Hk _ Hg). inversion Hk as [| | |? ? ? fr' ? TF' CF|? ? ? ? CO| | ]; subst; [|exfalso; eapply R2; eassumption].
        assert (fr' = fr) as -> by congruence. auto. }
      destruct OG as [(fr & TF & E & _)|(fr & TF & HU' & HP)].
      + assert (HP : In i (possible s (fr_on fr))) by (rewrite E, possible_self by exact IO; now left). destruct RO as [_ RO]. destruct (RO g fr Dg TF) as [_ _ A3 _ _ _].
        destruct A3 as [_ A3]; [congruence|]. eapply reads_class; [exact A3|]. rewrite E. now apply CF.
      + eapply alias_reads; eauto. }
  destruct names as [|k [|k' names]]; [discriminate| |].
  - apply ret_ok in H as [-> ->]. cbn [fst snd] in *. assert (v <> RNull). { destruct o; [|auto]. exfalso. now apply HL. }
    destruct ONE as (k0 & [<-|[]] & K); auto.
  - mb H u r2 H2. mb H e r3 H3. apply ret_ok in H as [-> ->]. cbn [fst snd] in *. eapply optional_reads; [exact H3| |exact HO]. intros HN. destruct (ONE HI HN) as (k0 & Hk0 & K).
    eapply rd_union; [apply in_map; exact Hk0|exact K].
Qed.

(** ** fields *)
Lemma named_none : forall tfn parent target n o, named_annotation c st s tfn parent target None n o = named_annotation c st s tfn parent target (Some []) n o.
Proof. intros. unfold named_annotation. destruct (get_type s n) as [[]|]; reflexivity. Qed.
Lemma Q_empty : forall n, Q n [].
Proof.
  intros n. split.
  - intros e He. inversion He; contradiction.
  - intros f Hf. exact I.
  - intros f Hf. inversion Hf; contradiction.
Qed.
Lemma named_reads : forall parent target g fd o r res r', all_deep Qt (fn_sels g) -> N g (gty_name (fd_type fd)) -> rfield fd g -> regok r -> (o = negb (inner_nonnull (fd_type fd))) ->
  named_annotation c st s tfn parent target (fn_sels g) (gty_name (fd_type fd)) o r = (Ok res, r') -> incl (fst res) t ->
  forall v, conf_type s d (GNamed (gty_name (fd_type fd))) (selections g) v -> (o = false -> v <> RNull) -> reads (snd res) v.
Proof.
  intros parent target g fd o r res r' HQ [HE HQ'] HR RO Ho H HI v HV HO. inversion HR as [? ? Q1 Q0 Q2 Q3 Q4]; subst fd0 f.
  assert (Ho' : o = true -> inner_nonnull (fd_type fd) = false) by (intros ->; now destruct (inner_nonnull (fd_type fd))). clear Ho.
  set (n := gty_name (fd_type fd)) in *.
  assert (all_deep Qt (Some (selections g))) as HQs.
  { unfold selections. destruct (fn_sels g); [exact HQ|]. intros l x [= <-] []. }
  assert (HN : named_annotation c st s tfn parent target (Some (selections g)) n o r = (Ok res, r')).
  { unfold selections. destruct (fn_sels g); [exact H|]. now rewrite <- named_none. }
  assert (Hq : Spec_Refs.composite s n -> Q n (selections g)) by (intros HCo; unfold selections; destruct (fn_sels g) eqn:E; [eapply HQ'; eauto|apply Q_empty]).
  clear H HQ'. unfold named_annotation in HN. destruct (get_type s n) as [[dd|dd vs|dd is fs ds|dd is fs|dd ms|]|] eqn:HT; try discriminate.
  - mb HN e r1 H1. apply ret_ok in HN as [-> ->]. cbn [snd]. unfold optional_if in H1. mb H1 u r2 H2. mb H1 e0 r3 H3. apply ret_ok in H1 as [-> ->].
    unfold reference_scalar in H3. mg H3 m. assert (RO2 : regok r2) by (eapply (regok_m (if o then register_import "typing.Optional" else ret tt)); [destruct o; ev_tac|exact H2|exact RO]).
    destruct RO2 as [ES _]. rewrite ES in H3. destruct (dget n sc) as [p|] eqn:EP; [|discriminate]. mb H3 u2 r4 H4. apply ret_ok in H3 as [-> ->].
    inversion HV; subst; try congruence.
    + destruct o; [apply rd_null|]. exfalso. now apply HO.
    + assert (K : reads (EName (last_comp p)) (RScalar n x)) by (destruct (Hsc _ _ x EP); now apply rd_type). destruct o; [now apply rd_optional|exact K].
    + exfalso. match goal with G : In _ (possible s n) |- _ => unfold possible in G; rewrite HT in G; exact G end.
  - mb HN e r1 H1. apply ret_ok in HN as [-> ->]. cbn [snd]. unfold optional_if in H1. mb H1 u r2 H2. mb H1 e0 r3 H3. apply ret_ok in H1 as [-> ->].
    destruct HE as [NB HE]; [do 2 eexists; exact HT|]. unfold reference_enum in H3. rewrite NB in H3. mg H3 m.
    assert (K : forall x, In x (dkeys vs) -> reads e0 (RText x)).
    { intros x Hx. specialize (HE _ _ _ HT Hx). destruct (_ || _); [mb H3 u2 r4 H4; apply ret_ok in H3 as [-> ->]; now apply rd_forward|apply ret_ok in H3 as [-> ->]; exact HE]. }
    inversion HV; subst; try congruence.
    + destruct o; [apply rd_null|]. exfalso. now apply HO.
    + match goal with G : get_type s n = Some (TEnum _ ?v') |- _ => assert (v' = vs) by congruence; subst v' end. destruct o; [apply rd_optional|]; auto.
    + exfalso. match goal with G : In _ (possible s n) |- _ => unfold possible in G; rewrite HT in G; exact G end.
  - eapply object_reads; [exact HT|exact HQs|apply Hq; eexists; split; [exact HT|exact I]|exact Q4|exact RO|exact HN|exact HI|exact HV|exact HO].
  - eapply interface_reads; [exact HT|exact HQs|apply Hq; eexists; split; [exact HT|exact I]|exact Q4|exact RO| |exact HN|exact HI|exact HV|exact HO].
    apply Q2. unfold is_iface. now rewrite HT.
  - destruct Q3 as (Q3 & Q5 & Q6); [unfold Spec_Mro2.is_union; now rewrite HT|].
    eapply union_reads; [exact HT|exact HQs|apply Hq; eexists; split; [exact HT|exact I]|exact Q4|exact RO|exact Q3| |exact Q6|exact HN|exact HI|exact HV|exact HO].
    intros E. apply Q5. auto.
Qed.
Lemma wrap_reads : forall sels named gt o r res r',
  (forall r res r', regok r -> named (gty_name gt) (final gt o) r = (Ok res, r') -> incl (fst res) t ->
     forall v, conf_type s d (GNamed (gty_name gt)) sels v -> (final gt o = false -> v <> RNull) -> reads (snd res) v) ->
  regok r -> wrap_annotation c named gt o r = (Ok res, r') -> incl (fst res) t ->
  forall v, conf_type s d gt sels v -> (o = false -> v <> RNull) -> reads (snd res) v.
Proof.
  intros sels named. induction gt as [n|gt IH|gt IH]; intros o r res r' HN RO H HI v HV HO; cbn [wrap_annotation gty_name final] in *.
  - eapply HN; eassumption.
  - cbn zeta in H. mb H u1 r1 H1. mb H u2 r2 H2. mb H y r3 H3. apply ret_ok in H as [-> ->]. cbn [fst snd] in *.
    assert (RO1 : regok r1) by (eapply (regok_m (register_import _)); [|exact H1|exact RO]; ev_tac).
    assert (RO2 : regok r2) by (eapply (regok_m (if o then register_import "typing.Optional" else ret tt)); [destruct o; ev_tac|exact H2|exact RO1]).
    inversion HV; subst.
    + destruct o; [apply rd_null|]. exfalso. now apply HO.
    + assert (K : reads (if fz_enabled (c_freeze c) then tuple_of (snd y) else list_of (snd y)) (RList l)).
      { destruct (fz_enabled (c_freeze c)); [apply rd_tuple|apply rd_list]; intros v Hv; eapply IH; eauto; congruence. }
      destruct o; [now apply rd_optional|exact K].
  - inversion HV; subst; [discriminate|]. eapply IH; eauto.
Qed.
Lemma node_reads : forall g, Qt g.
Proof.
  assert (STEP : forall a n ar ds sels, all_deep Qt sels -> Qt (FieldNode a n ar ds sels)).
  { intros a n ar ds sels HQ parent fd r res r' RO HR HN H HI x Hx. rewrite tfn_eq in H. cbn zeta in H. mb H y r1 H1. mb H b r2 H2. apply ret_ok in H as [-> ->]. cbn [fst snd] in *.
    set (g := FieldNode a n ar ds sels) in *. assert (RK : response_key g = match a with Some k => k | None => n end) by reflexivity. rewrite <- RK in *.
    assert (RD : forall v, conf_type s d (fd_type fd) (selections g) v -> reads (snd y) v).
    { intros v HV. eapply wrap_reads; [|exact RO|exact H1|exact HI|exact HV|discriminate]. intros r0 res0 r0' RO0 H0 HI0 v0 HV0 HO0. rewrite final_inner in H0, HO0.
      eapply (named_reads parent (response_key g) g fd); [exact HQ|exact HN|exact HR|exact RO0|reflexivity|exact H0|exact HI0|exact HV0|exact HO0]. }
    unfold field_statements in H2. cbn zeta in H2. mb H2 e r3 H3. mb H2 u r4 H4. apply ret_ok in H2 as [-> ->].
    assert (RE : forall v, reads (snd y) v -> reads e v).
    { intros v Hv. unfold annotate_field_metadata in H3. mb H3 m1 r5 H5. apply ret_ok in H5 as [-> ->]. mb H3 m2 r6 H6. destruct (fd_depr fd).
      - mb H6 f r7 H7. apply ret_ok in H6 as [-> ->]. cbn [app] in H3. mb H3 u2 r8 H8. apply ret_ok in H3 as [-> ->]. apply rd_annotated; [|exact Hv].
        cbn [discriminator]. repeat (match goal with |- context[match ?z with _ => _ end] => is_var z; destruct z end; try reflexivity).
      - apply ret_ok in H6 as [-> ->]. apply ret_ok in H3 as [-> ->]. exact Hv. }
    destruct Hx as [<-|Hx].
    - split; [reflexivity| |intros v Hv; auto|].
      + fold attr. destruct (String.eqb_spec (response_key g) (attr (response_key g))) as [E|E]; destruct (is_nonnull (fd_type fd)); cbn; congruence.
      + intros ->. fold attr. destruct (String.eqb (response_key g) (attr (response_key g))); reflexivity.
    - destruct (compose_field_documentation _ _ _ _); [|contradiction]. destruct Hx as [<-|[]]. exact I. }
  apply fieldnode_rect'.
  - intros. apply STEP. intros l x E. discriminate.
  - intros a n ar ds l HL. apply STEP. intros l' x [= <-] Hx. now apply HL.
Qed.

(** ** fragments *)
Lemma all_Qt : forall sels, all_deep Qt sels.
Proof. intros sels l x _ _. destruct x; cbn; [apply node_reads|exact I|intros; apply node_reads]. Qed.
Lemma mmap_each : forall {A B} (f : A -> M B) l r ys r' i, mmap f l r = (Ok ys, r') -> In i l -> exists y ra rb, f i ra = (Ok y, rb) /\ In y ys.
Proof.
  intros A B f. induction l as [|j l IH]; intros r ys r' i H Hi; [contradiction|]. cbn [mmap] in H. mb H y ra H1. mb H zs rb H2. apply ret_ok in H as [-> ->].
  destruct Hi as [->|Hi]; [do 3 eexists; split; [exact H1|now left]|]. destruct (IH _ _ _ _ H2 Hi) as (x & a & b & E & K). do 3 eexists. split; [exact E|now right].
Qed.
Lemma dset_keys : forall (g : string -> string) l m,
  (forall j k, In (j, k) (fold_left (fun m i => dset i (g i) m) l m) -> In (j, k) m \/ (In j l /\ k = g j))
  /\ (forall j, In j l \/ dget j m = Some (g j) -> dget j (fold_left (fun m i => dset i (g i) m) l m) = Some (g j)).
Proof.
  intros g. induction l as [|i l IH]; intros m; cbn [fold_left]; [split; [auto|intros j [[]|H]; exact H]|]. destruct (IH (dset i (g i) m)) as [A B]. split.
  - intros j k H. apply A in H as [H|[H1 H2]]; [|right; split; [now right|exact H2]]. apply In_dset in H as [[-> ->]|H]; [|now left]. right. split; [now left|reflexivity].
  - intros j H. apply B. destruct (String.eqb_spec j i) as [->|NE']; [right; now rewrite dget_dset, String.eqb_refl|]. rewrite dget_dset. apply String.eqb_neq in NE'. rewrite NE'. apply String.eqb_neq in NE'.
    destruct H as [[->|H]|H]; [contradiction|now left|now right].
Qed.
Section Frag.
Variable pc : frcfg.
Variable print_fragment : fragment -> string.
Variable add : string -> res string.
Hypothesis HFb : forall b, In b (fr_bases pc) \/ In b (fr_object_bases pc) -> outer b.
Lemma fragment_outers : forall b r es r', get_fragment_bases c pc b r = (Ok es, r') -> outers es.
Proof.
  intros b r es r' H. unfold get_fragment_bases in H. mb H x r1 H1. mb H y r2 H2. mb H z r3 H3. apply ret_ok in H as [-> ->].
  apply outers_app; [eapply import_outers; [exact H1|auto]|]. apply outers_app; [|eapply import_outers; [exact H3|exact HBo]].
  destruct b; [eapply import_outers; [exact H2|auto]|apply ret_ok in H2 as [-> _]; intros e []].
Qed.
Lemma object_fragment_takes : forall f cn dx dd is fs ds r out r', get_type s (fr_on f) = Some (TObject dd is fs ds) -> Q (fr_on f) (fr_sels f) -> rsels (fr_on f) (fr_sels f) -> regok r ->
  object_fragment c st s pc print_fragment add f cn dx r = (Ok out, r') -> incl out t -> takes cn (fr_on f) (fr_sels f).
Proof.
  intros f cn dx dd is fs ds r out r' HT Hq HR RO H HI. unfold object_fragment in H. mb H ad r1 H1. mb H tn r2 H2. mb H y r3 H3. destruct y as [[classes bases] fields].
  assert (RO1 : regok r1) by (eapply (regok_m (get_additional_bases_for_type c (fr_on f))); [ev_tac|exact H1|exact RO]).
  assert (RO2 : regok r2) by (eapply (regok_m (generate_typename_field c (fr_on f))); [ev_tac|exact H2|exact RO1]).
  assert (IO : is_object s (fr_on f) = true) by (unfold is_object; now rewrite HT).
  eapply (mfold_ok _ (fun _ (acc : list stmt * list expr * list stmt) r => let '(classes, bases, fields) := acc in regok r
    /\ (forall e, In e bases -> (exists b, e = EName b /\ base_for (fr_on f) (fr_sels f) b) \/ In e ad)
    /\ (incl classes t -> exists extra, fields = [documented pc dx; tn] ++ extra /\ froms (fr_on f) (fr_sels f) extra))) in H3.
  2:{ split; [exact RO2|]. split; [auto|]. intros _. exists []. split; [now rewrite app_nil_r|intros x []]. }
  2:{ clear - HR RO Hq HT IO NDS NDT NE HBo HBi HBa HX Hsc HC HD HUO. intros pre x post [[cls' bas] fis] ra acc' rb El (RA & HB & HF) Hx. assert (Hin : In x (fr_sels f)) by (rewrite El; apply in_elt). destruct x as [g|g dirs|cond dirs m]; cbn [object_fragment_item] in Hx.
    - destruct (String.eqb (fn_name g) "__typename") eqn:T; [apply ret_ok in Hx as [-> ->]; auto|]. apply String.eqb_neq in T. mb Hx fd rc H4. apply from_opt_ok in H4 as [E ->]. mb Hx y rd H5. apply ret_ok in Hx as [-> ->].
      split; [eapply regok_tfn; eassumption|]. split; [exact HB|]. intros HI. destruct HF as (extra & -> & HF); [eapply incl_tran; [apply incl_appl, incl_refl|exact HI]|].
      exists (extra ++ snd y). split; [now rewrite app_assoc|]. apply froms_app; [exact HF|]. eapply Qt_from; [apply node_reads|exact Hin|exact T|eapply get_field_def_schema; eassumption|exact HR|exact Hq|exact RA|exact H5|].
      eapply incl_tran; [apply incl_appr, incl_refl|exact HI].
    - mg Hx m. mb Hx b rc H4. apply ret_ok in Hx as [-> ->]. inversion HR as [? ? R1 R2 R3 R4 R5]; subst.
      assert (Dg : D g) by (eapply q_spread; [exact Hq|eapply si_here; exact Hin]). pose proof (R4 IO _ _ Hin) as ON. pose proof RA as [_ RA'].
      assert (rc = ra /\ base_for (fr_on f) (fr_sels f) b) as [-> K].
      { destruct ON as [(fr & TF & E & EO)|(fr & TF & EO & EI)]; destruct (RA' g fr Dg TF) as [A1 A2 A3 A4 A5 A6].
        - rewrite E in A3. destruct (A3 EO) as [B1 B2]. rewrite B1 in H4. unfold inherit_fragment in H4. mg H4 m'. apply from_opt_ok in H4 as [E4 ->]. split; [reflexivity|]. rewrite A1 in E4. injection E4 as <-.
          eapply base_intro; [exact Dg|exact Hin|]. intros fr' TF'. assert (fr' = fr) as -> by congruence. rewrite E. rewrite possible_self by exact EO. split; [now left|exact B2].
        - destruct (A4 EO) as (m' & B1 & B2 & B3). rewrite B1 in H4. apply from_opt_ok in H4 as [E4 ->]. split; [reflexivity|]. destruct (B2 _ EI) as [B4 B5]. rewrite B4 in E4. injection E4 as <-.
          eapply base_intro; [exact Dg|exact Hin|]. intros fr' TF'. assert (fr' = fr) as -> by congruence. auto. }
      split; [exact RA|]. split; [|exact HF]. intros e [<-|He]; [left; eauto|auto].
    - apply ret_ok in Hx as [-> ->]. auto. }
  destruct H3 as (RO3 & HB & HF). mb H meta r4 H4. mb H fb r5 H5. mb H cfg r6 H6. apply ret_ok in H as [-> ->]. destruct HF as (extra & -> & HF); [eapply incl_tran; [apply incl_appl, incl_refl|exact HI]|].
  destruct (config_ok _ _ _ _ H6) as [C1 C2].
  assert (ME : class_fields meta = [] /\ ~ forbids meta).
  { unfold fragment_meta in H4. destruct (fr_meta pc); [mb H4 dc r7 H7|]; apply ret_ok in H4 as [-> _].
    - split; [reflexivity|]. intros [(a & k & [K|[]] & _)|(a & b & k & [K|[]] & _)]; discriminate.
    - split; [reflexivity|]. intros [(a & k & [] & _)|(a & b & k & [] & _)]. }
  assert (HCl : class_of cn (bases ++ fb) (([documented pc dx; tn] ++ extra) ++ cfg ++ meta)) by (exists []; apply HI; apply in_or_app; right; now left).
  assert (BB : forall b, In (EName b) (bases ++ fb) -> base_for (fr_on f) (fr_sels f) b \/ exists es, outers es /\ In (EName b) es).
  { intros b Hb. apply in_app_or in Hb as [Hb|Hb]; [|right; eexists; split; [eapply fragment_outers; exact H5|exact Hb]].
    destruct (HB _ Hb) as [(b' & [= <-] & K)|K]; [now left|]. right. eexists. split; [eapply additional_outers; exact H1|exact K]. }
  split.
  - do 2 eexists. split; [exact HCl|]. intros HE. destruct (BB _ HE) as [B|(es & B1 & B2)]; [now apply base_model in B|eapply outers_enum; eassumption].
  - intros kvs Hk. destruct (typename_fields _ _ _ _ kvs H2 (proj1 Hk)) as [T1 T2]. eapply build; [exact HCl| | |].
    + apply fields_app; [|apply fields_app; apply fields_none; [exact C1|apply ME]]. cbn [app]. apply doc_fields; [reflexivity|]. change (tn :: extra) with ([tn] ++ extra). apply fields_app; [exact T1|].
      eapply froms_fields; [exact HR|left; reflexivity|exact HF|exact Hk].
    + apply forbids_app; [|apply forbids_app; [exact C2|apply ME]]. apply plain_forbids. intros x [<-|[<-|Hx]]; [exact I|exact T2|eapply from_plain, HF; exact Hx].
    + intros b Hb. destruct (BB _ Hb) as [B|(es & B1 & B2)]; [eapply base_builds; eassumption|eapply outers_build; eassumption].
Qed.
Lemma interface_fragment_takes : forall f dx dd is fs r out r', get_type s (fr_on f) = Some (TInterface dd is fs) -> Q (fr_on f) (fr_sels f) -> rsels (fr_on f) (fr_sels f) -> regok r ->
  interface_fragment c st s pc f dx fs r = (Ok out, r') -> incl out t ->
  exists ra, evolve st Ksel r ra /\ r' = with_iffrag (dset (fr_name f) (fold_left (fun m i => dset i (cls (fr_name f) +s+ i) m) (possible s (fr_on f)) []) (r_iffrag ra)) ra
    /\ forall i, In i (possible s (fr_on f)) -> takes (cls (fr_name f) +s+ i) i (fr_sels f).
Proof.
  intros f dx dd is fs r out r' HT Hq HR RO H HI. unfold interface_fragment in H. cbn zeta in H.
  set (base := cls (fr_name f)) in *. set (mother := base +s+ "Base") in *.
  assert (II : is_iface s (fr_on f) = true) by (unfold is_iface; now rewrite HT).
  mb H ad r1 H1. mb H p r2 H2. mb H ib r3 H3. mb H tn r4 H4. mb H ics r5 H5. mb H u r6 H6. apply modify_ok in H6 as [_ ->]. apply ret_ok in H as [-> ->].
  assert (E1 : evolve st Ksel r r1) by (eapply ev_ok; [|exact H1]; ev_tac).
  assert (EV : evolve st Ksel r r5).
  { eapply evolve_trans; [exact E1|]. eapply evolve_trans; [eapply ev_ok; [|exact H2]; ev_go|]. eapply evolve_trans; [eapply ev_ok; [|exact H3]; ev_go|].
    eapply evolve_trans; [eapply ev_ok; [|exact H4]; ev_go|]. eapply ev_ok; [|exact H5]. ev_go. }
  apply (iface_items _ _ _ _ _ _ _ _ _ _ _ HT (all_Qt _) Hq HR (regok_ev _ _ E1 RO)) in H2. destruct H2 as (RO2 & HB & HF).
  destruct HF as [(extra & EF & HF) HL]; [eapply incl_tran; [apply incl_appl, incl_refl|exact HI]|].
  exists r5. split; [exact EV|]. rewrite possible_implementations by exact II. split; [reflexivity|].
  assert (HCm : class_of mother (ad ++ ib) (ip_fields p)) by (exists []; apply HI, in_or_app; right; now left).
  assert (Hout : outers (ad ++ ib)) by (apply outers_app; [eapply additional_outers; exact H1|eapply iface_outers; exact H3]).
  assert (BM : forall i kvs, In i (possible s (fr_on f)) -> confs i (fr_sels f) kvs -> builds mother kvs).
  { intros i kvs Hi Hk. eapply build; [exact HCm| | |].
    - rewrite EF. cbn [app]. apply doc_fields; [reflexivity|]. eapply froms_fields; [exact HR|right; split; [exact II|exact Hi]|exact HF|exact Hk].
    - apply plain_forbids. rewrite EF. intros x [<-|Hx]; [exact I|eapply from_plain, HF; exact Hx].
    - intros b Hb. eapply outers_build; eassumption. }
  assert (NM : mother <> "Enum").
  { apply (model_owned mother). do 2 eexists. split; [exact HCm|now apply outers_enum]. }
  intros i Hi'. destruct (mmap_each _ _ _ _ _ i H5 Hi') as (x & ra & rb & Hx & Hin). rewrite <- possible_implementations in Hi' by exact II.
  refine (proj1 (impl_takes _ _ _ _ _ _ _ _ _ _ _ II HR Hi' HB EF HF HL (fun kvs Hk => BM i kvs Hi' Hk) NM Hx _)).
  apply HI. apply in_or_app. right. cbn [app]. right. right. exact Hin.
Qed.
Definition gives (i : string) (sels : list selection) (b : string) : Prop := b <> "Enum" /\ forall kvs, confs i sels kvs -> builds b kvs.
Lemma union_fragment_takes : forall f dx dd ms r out r', get_type s (fr_on f) = Some (TUnion dd ms) -> Q (fr_on f) (fr_sels f) -> rsels (fr_on f) (fr_sels f) -> regok r ->
  (forall i dirs m g dirs', In (SelInline (Some i) dirs m) (fr_sels f) -> In (SelSpread g dirs') m -> on_object s d g i /\ cls g = g) ->
  union_fragment c st s pc f dx ms r = (Ok out, r') -> incl out t ->
  exists ra, evolve st Ksel r ra /\ evolve st Ksel (with_ufrag (dset (fr_name f) (fold_left (fun m i => dset i (cls (fr_name f) +s+ i) m) (possible s (fr_on f)) []) (r_ufrag ra)) ra) r'
    /\ (forall i, In i (possible s (fr_on f)) -> takes (cls (fr_name f) +s+ i) i (fr_sels f))
    /\ In (SAssign (EName (cls (fr_name f))) (union_of (map (fun i => EName (cls (fr_name f) +s+ i)) (possible s (fr_on f))))) t.
Proof.
  intros f dx dd ms r out r' HT Hq HR RO HM H HI. unfold union_fragment in H. cbn zeta in H. set (base := cls (fr_name f)) in *.
  assert (IU : Spec_Mro2.is_union s (fr_on f) = true) by (unfold Spec_Mro2.is_union; now rewrite HT).
  assert (PO : possible s (fr_on f) = ms) by (unfold possible; now rewrite HT).
  mb H ad r1 H1. mb H p r2 H2. mb H clz r3 H3. mb H u r4 H4. apply modify_ok in H4 as [_ ->]. mb H u2 r5 H5. apply ret_ok in H as [-> ->].
  assert (E1 : evolve st Ksel r r1) by (eapply ev_ok; [|exact H1]; ev_tac).
  assert (EV : evolve st Ksel r r3).
  { eapply evolve_trans; [exact E1|]. eapply evolve_trans; [eapply ev_ok; [|exact H2]; unfold union_fragment_item, union_inline; ev_go|]. eapply ev_ok; [|exact H3]. unfold get_fragment_bases. ev_go. }
  exists r3. split; [exact EV|]. rewrite PO. split; [eapply ev_ok; [|exact H5]; ev_tac|].
  split; [|apply HI; apply in_or_app; right; apply in_or_app; right; apply in_or_app; left; now left].
  assert (W : regok r2 /\ (forall i k, In i ms -> In k (dget_list i (ip_bases p)) -> gives i (fr_sels f) k) /\ (incl (ip_classes p) t -> forall i x, In x (dget_list i (ip_inline p)) -> inlined (fr_sels f) i x)).
  { unfold walk in H2. eapply (mfold_ok _ (fun _ p r => regok r /\ (forall i k, In i ms -> In k (dget_list i (ip_bases p)) -> gives i (fr_sels f) k)
      /\ (incl (ip_classes p) t -> forall i x, In x (dget_list i (ip_inline p)) -> inlined (fr_sels f) i x))) in H2; [exact H2| |].
    - split; [eapply regok_ev; eassumption|]. split; [intros i k _ []|intros _ i x []].
    - clear - HR Hq HM PO IU NDS NDT NE HBo HBi HBa HX Hsc HC HD HUO. intros pre x post p r p' r' El (RO & HB & HL) Hx. assert (Hin : In x (fr_sels f)) by (rewrite El; apply in_elt).
      destruct (is_typename_field x); [apply ret_ok in Hx as [-> ->]; auto|]. inversion HR as [? ? R1 R2 R3 R4 R5]; subst.
      destruct x as [g|g dirs|cond dirs m]; cbn [union_fragment_item] in Hx; [discriminate| |].
      + mb Hx m r1 H1. unfold get_union_fragment_members in H1. mg H1 m'. apply from_opt_ok in H1 as [E ->]. apply ret_ok in Hx as [-> ->]. cbn [ip_bases ip_classes ip_inline].
        split; [exact RO|]. split; [|exact HL]. intros i k Hi Hk. apply fold_dextend_inv in Hk as [Hk|Hk]; [auto|].
        assert (Dg : D g) by (eapply q_spread; [exact Hq|eapply si_here; exact Hin]). destruct (HD g Dg) as (fr & TF). destruct RO as [_ RO]. destruct (RO g fr Dg TF) as [A1 A2 A3 A4 A5 A6].
        destruct (Spec_Mro2.is_union s (fr_on fr)) eqn:IUf; [|rewrite (proj2 A6 eq_refl) in E; discriminate]. destruct (A5 eq_refl) as (_ & m' & B1 & B2 & B3 & B4). rewrite B1 in E. injection E as <-. destruct (B3 _ _ Hk) as [P ->].
        assert (BF : base_for i (fr_sels f) (cls g +s+ i)).
        { eapply base_intro; [exact Dg|exact Hin|]. intros fr' TF'. assert (fr' = fr) as -> by congruence. auto. }
        split; [now apply base_model in BF|]. intros kvs Hkv. eapply base_builds; eassumption.
      + mb Hx on r1 H1. apply from_opt_ok in H1 as [-> ->]. mb Hx y r2 H2. destruct y as [[classes bases] fields]. apply ret_ok in Hx as [-> ->]. cbn [ip_bases ip_classes ip_inline]. destruct (R3 _ _ _ Hin) as [NCo HRm].
        eapply (mfold_ok _ (fun _ (acc : list stmt * list string * list stmt) r => let '(cl, ba, fi) := acc in regok r /\ (forall b, In b ba -> exists g dirs', In (SelSpread g dirs') m /\ b = g) /\ (incl cl t -> froms on m fi))) in H2.
        2:{ split; [exact RO|]. split; [intros b []|intros _ x []]. }
        2:{ clear H2 RO r classes bases fields. intros pre' x post' [[cl ba] fi] r acc' r' El' (RO & HB' & HF) Hx. assert (Hin' : In x m) by (rewrite El'; apply in_elt). destruct x as [g|g dirs'|cond dirs' m']; cbn [union_inline] in Hx.
          - destruct (String.eqb (fn_name g) "__typename") eqn:T; [apply ret_ok in Hx as [-> ->]; auto|]. apply String.eqb_neq in T. mb Hx ty rc H3. apply from_opt_ok in H3 as [ET ->].
            mb Hx fd rc H4. apply from_opt_ok in H4 as [E ->]. mb Hx y rd H5. apply ret_ok in Hx as [-> ->].
            split; [eapply regok_tfn; eassumption|]. split; [exact HB'|]. intros HI. apply froms_app; [apply HF; eapply incl_tran; [apply incl_appl, incl_refl|exact HI]|].
            eapply Qt_from; [apply node_reads|exact Hin'|exact T|eapply get_field_def_schema; eassumption|exact HRm|eapply Q_inline; eassumption|exact RO|exact H5|]. eapply incl_tran; [apply incl_appr, incl_refl|exact HI].
          - apply ret_ok in Hx as [-> ->]. split; [exact RO|]. split; [|exact HF]. intros b Hb. apply in_app_or in Hb as [Hb|[<-|[]]]; [auto|eauto].
          - apply ret_ok in Hx as [-> ->]. auto. }
        destruct H2 as (RO2 & HB2 & HF2). split; [exact RO2|]. split.
        * intros i k Hi Hk. rewrite dget_list_dextend in Hk. destruct (String.eqb_spec i on) as [->|NEi]; [|auto]. apply in_app_or in Hk as [Hk|Hk]; [auto|].
          destruct (HB2 _ Hk) as (g & dirs' & Hg & ->). destruct (HM _ _ _ _ _ Hin Hg) as [(fr & TF & E & EO) EC].
          assert (Dg : D g) by (eapply q_spread; [eapply Q_inline; eassumption|eapply si_here; exact Hg]). destruct RO as [_ RO]. destruct (RO g fr Dg TF) as [A1 A2 A3 A4 A5 A6].
          rewrite E in A3. destruct (A3 EO) as [_ TK]. rewrite EC in TK. split; [apply (model_owned g), TK|]. intros kvs Hkv. apply TK. split; [apply Hkv|].
          destruct Hkv as [_ Hkv]. specialize (Hkv _ Hin). inversion Hkv as [| | | | |? ? ? ? ? CF| ]; subst; [|contradiction].
          assert (In (fr_on fr) (possible s (fr_on fr))) as PS by (rewrite possible_self by exact EO; now left). specialize (CF PS _ Hg).
          inversion HRm as [? ? T1 T2 T3 T4 T5]; subst. inversion CF as [| | |? ? ? fr' ? TF' CF'|? ? ? ? CO| | ]; subst; [|exfalso; eapply T2; eassumption].
          assert (fr' = fr) as -> by congruence. auto.
        * intros HI i x Hx. rewrite dget_list_dextend in Hx. destruct (String.eqb_spec i on) as [->|NEi].
          -- apply in_app_or in Hx as [Hx|Hx]; [apply HL; [eapply incl_tran; [apply incl_appl, incl_refl|exact HI]|exact Hx]|].
             exists dirs, m. split; [exact Hin|]. apply HF2; [eapply incl_tran; [apply incl_appr, incl_refl|exact HI]|exact Hx].
          -- apply HL; [eapply incl_tran; [apply incl_appl, incl_refl|exact HI]|exact Hx]. }
  destruct W as (RO2 & HB & HL). assert (HL' := HL (fun x Hx => HI x (in_or_app _ _ _ (or_introl Hx)))). clear HL.
  intros i Hi. destruct (mmap_each _ _ _ _ _ i H3 Hi) as (x & ra & rb & Hx & Hin). mb Hx fb rc Hc. mb Hx tn rd Hd. apply ret_ok in Hx as [-> ->].
  assert (IO : is_object s i = true) by (eapply HUO; [exact IU|now rewrite PO]).
  assert (HCl : class_of (base +s+ i) (map EName (dget_list i (ip_bases p)) ++ fb) (tn :: dget_list i (ip_inline p))).
  { exists []. apply HI. apply in_or_app. right. apply in_or_app. now left. }
  assert (BB : forall b, In (EName b) (map EName (dget_list i (ip_bases p)) ++ fb) -> gives i (fr_sels f) b \/ exists es, outers es /\ In (EName b) es).
  { intros b Hb. apply in_app_or in Hb as [Hb|Hb]; [|right; eexists; split; [eapply fragment_outers; exact Hc|exact Hb]]. apply in_map_iff in Hb as (b' & [= ->] & Hb). left. auto. }
  inversion HR as [? ? R1 R2 R3 R4 R5]; subst.
  split.
  - do 2 eexists. split; [exact HCl|]. intros HE. destruct (BB _ HE) as [[B _]|(es & B1 & B2)]; [now apply B|eapply outers_enum; eassumption].
  - intros kvs Hk. destruct (typename_fields _ _ _ _ kvs Hd (proj1 Hk)) as [T1 T2]. eapply build; [exact HCl| | |].
    + change (tn :: dget_list i (ip_inline p)) with ([tn] ++ dget_list i (ip_inline p)). apply fields_app; [exact T1|]. intros n a v Hn. apply class_fields_in in Hn. destruct (HL' _ _ Hn) as (dirs & m & Hm & HFr).
      destruct (R3 _ _ _ Hm) as [NCo HRm]. assert (Hk' : confs i m kvs).
      { split; [apply Hk|]. destruct Hk as [_ Hk]. specialize (Hk _ Hm). inversion Hk as [| | | | |? ? ? ? ? CF| ]; subst; [|contradiction]. apply CF. rewrite possible_self by exact IO. now left. }
      eapply (froms_fields i m i [SAnn n a v]); [exact HRm|left; reflexivity| |exact Hk'|now left]. intros x [<-|[]]. exact HFr.
    + apply plain_forbids. intros x [<-|Hx]; [exact T2|]. destruct (HL' _ _ Hx) as (dirs & m & Hm & HFr). eapply from_plain; exact HFr.
    + intros b Hb. destruct (BB _ Hb) as [[_ B]|(es & B1 & B2)]; [auto|eapply outers_build; eassumption].
Qed.
End Frag.

(** ** operations *)
Lemma operation_reads : forall oc print_operation add doc_of o root name r out r',
  (forall b, In b (o_query_bases oc) \/ In b (o_mutation_bases oc) \/ In b (o_subscription_bases oc) -> outer b) ->
  op_name o = Some name -> root_type s (op_kind o) = Some root -> Q root (op_sels o) -> rsels root (op_sels o) ->
  (forall g, In (SelField g) (op_sels o) -> fn_name g <> "__typename") -> regok r ->
  generate_operation c st s oc print_operation add doc_of o r = (Ok out, r') -> incl out t -> takes (Spec_Funcs.operation_class st (op_kind o) name) root (op_sels o).
Proof.
  intros oc print_operation add doc_of o root name r out r' HB EN ER Hq HR HN RO H HI. unfold generate_operation in H. cbn zeta in H.
  mb H nm r0 H0. apply from_opt_ok in H0 as [E0 ->]. rewrite EN in E0. injection E0 as <-. mb H cb r1 H1. mb H rt r2 H2. apply from_opt_ok in H2 as [E0 ->]. rewrite ER in E0. injection E0 as <-. mb H y r3 H3. mb H u r4 H4. mb H dc r5 H5. mb H args r6 H6. mb H cfg r7 H7.
  apply ret_ok in H as [-> ->].
  assert (K1 : fst cb = Spec_Funcs.operation_class st (op_kind o) name /\ outers (snd cb)).
  { unfold Operations.operation_class, bases_or_default, Spec_Funcs.operation_class in *. destruct (op_kind o); mb H1 k ra Ha; mb H1 es rb Hb; apply ret_ok in H1 as [-> _]; apply generate_in_spec in Ha as (_ & -> & _);
      (split; [reflexivity|]); cbn [snd]; (eapply import_outers; [exact Hb|]); intros b Hb'; match type of Hb' with In _ (match ?z with _ => _ end) => destruct z eqn:EZ end; auto; apply HB; rewrite EZ; auto. }
  assert (RO1 : regok r1).
  { pose proof (ev_ok _ _ _ _ _ _ (ltac:(unfold Operations.operation_class, bases_or_default; ev_go) : ev st [KImp; KBui; KQry; KMut; KSub] (Operations.operation_class c st oc o name)) H1) as V. destruct RO as [S0 RO]. split.
    - rewrite <- S0. eapply frame_scalars; [|exact V]. cbn; intuition discriminate.
    - intros g fr Dg TF. destruct (RO g fr Dg TF) as [A1 A2 A3 A4 A5 A6].
      pose proof (frame_frags st _ _ _ (ltac:(cbn; intuition discriminate) : ~ In KFra [KImp; KBui; KQry; KMut; KSub]) V) as F1.
      pose proof (frame_fragtypes st _ _ _ (ltac:(cbn; intuition discriminate) : ~ In KFty [KImp; KBui; KQry; KMut; KSub]) V) as F2.
      pose proof (frame_iffrag st _ _ _ (ltac:(cbn; intuition discriminate) : ~ In KIff [KImp; KBui; KQry; KMut; KSub]) V) as F3.
      pose proof (frame_ufrag st _ _ _ (ltac:(cbn; intuition discriminate) : ~ In KUff [KImp; KBui; KQry; KMut; KSub]) V) as F4.
      split; rewrite ?F1, ?F2, ?F3, ?F4; assumption. }
  eapply (mfold_ok _ (fun _ (acc : list stmt * list (list stmt)) r => regok r /\ (incl (fst acc) t -> froms root (op_sels o) (List.concat (snd acc))))) in H3.
  2:{ split; [exact RO1|]. intros _ x []. }
  2:{ clear - HR Hq HN NDS NDT NE HBo HBi HBa HX Hsc HC HD HUO. intros pre x post acc ra acc' rb El (RA & HF) Hx. assert (Hin : In x (op_sels o)) by (rewrite El; apply in_elt).
    destruct x as [g|g dirs|cond dirs m]; cbn [root_item] in Hx; try discriminate. mb Hx fd rc H4. apply from_opt_ok in H4 as [E ->]. mb Hx y rd H5. apply ret_ok in Hx as [-> ->]. cbn [fst snd].
    split; [eapply regok_tfn; eassumption|]. intros HI. rewrite concat_app. cbn [List.concat]. rewrite app_nil_r. apply froms_app; [apply HF; eapply incl_tran; [apply incl_appl, incl_refl|exact HI]|].
    eapply Qt_from; [apply node_reads|exact Hin|auto|eapply get_field_def_schema; [eassumption|auto]|exact HR|exact Hq|exact RA|exact H5|]. eapply incl_tran; [apply incl_appr, incl_refl|exact HI]. }
  destruct H3 as [RO3 HF]. specialize (HF (fun x Hx => HI x (in_or_app _ _ _ (or_introl Hx)))). destruct K1 as [<- OB].
  destruct (config_ok _ _ _ _ H7) as [C1 C2].
  assert (AR : class_fields args = [] /\ ~ forbids args).
  { unfold arguments_class in H6. destruct (o_create_arguments oc); [mb H6 fl ra Ha; mb H6 cg rb Hb; mb H6 bs rc Hc|]; apply ret_ok in H6 as [-> _].
    - split; [reflexivity|]. intros [(a & k & [K|[]] & _)|(a & b & k & [K|[]] & _)]; discriminate.
    - split; [reflexivity|]. intros [(a & k & [] & _)|(a & b & k & [] & _)]. }
  match type of HI with incl (_ ++ [SClass _ _ ([?d0] ++ _ ++ _ ++ [?m0] ++ _) _]) _ => set (docx := d0) in *; set (metax := m0) in * end.
  assert (HCl : class_of (fst cb) (snd cb) ([docx] ++ List.concat (snd y) ++ args ++ [metax] ++ cfg)) by (exists []; apply HI; apply in_or_app; right; now left).
  split.
  - do 2 eexists. split; [exact HCl|now apply outers_enum].
  - intros kvs Hk. eapply build; [exact HCl| | |].
    + cbn [app]. apply doc_fields; [reflexivity|]. apply fields_app; [eapply froms_fields; [exact HR|left; reflexivity|exact HF|exact Hk]|]. apply fields_app; [now apply fields_none|]. apply doc_fields; [reflexivity|now apply fields_none].
    + apply forbids_app; [apply plain_forbids; intros x [<-|[]]; exact I|]. apply forbids_app; [apply plain_forbids; intros x Hx; eapply from_plain, HF; exact Hx|]. apply forbids_app; [apply AR|]. apply forbids_app; [|exact C2].
      intros [(a & k & [K|[]] & _)|(a & b & k & [K|[]] & _)]; discriminate.
    + intros b Hb. eapply outers_build; eassumption.
Qed.
End Resp.
