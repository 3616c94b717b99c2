(** The whole input plugin meets [inputs_module]. *)
From Verif Require Import Base PyAst Gql Config Stylers Registry Utils Referencer Enums Inputs
  PySem Spec_Types Spec_Inputs P_Base P_Monad P_Types P_Inputs P_Inputs2 P_Serializer.

Lemma Forall2_snoc : forall {A B} (Q : A -> B -> Prop) l m x y, Forall2 Q l m -> Q x y -> Forall2 Q (l ++ [x]) (m ++ [y]).
Proof. intros; apply Forall2_app; auto. Qed.
Lemma concat_snoc : forall {A} (l : list (list A)) x, concat (l ++ [x]) = concat l ++ x.
Proof. intros. rewrite concat_app. cbn. now rewrite app_nil_r. Qed.

Section Plugin.
Variables (c : gconfig) (st : list styler) (pc : inputs_config) (s : schema) (rf : option refs).
Hypothesis HB : no_helper_enum s.
Hypothesis ND : NoDup (dkeys (s_types s)).
Variable sc : dict string.
Notation tup := (tuple_for_inputs c).
Notation leaf := (input_leaf s sc st).
Notation skipu := (ic_skip_underscore pc).
Notation v2 := (String.eqb (c_pydantic_version c) "v2").
Notation cls n := (style_with sty_input st n).
Definition good (r : reg) : Prop := r_scalars r = sc /\ names_styled st r.
Lemma good_ev : forall K {A} (m : M A) r a r', ev st K m -> ~ In KSca K -> m r = (Ok a, r') -> good r -> good r'.
Proof.
  intros K A m r a r' HE HK Hm [G1 G2]. destruct (ev_scalars st K m r a r' HE HK Hm G2). split; congruence.
Qed.
Lemma inputs_unique : forall key t t', In (key, t) (schema_inputs s) -> In (key, t') (schema_inputs s) -> t = t'.
Proof.
  intros key t t' H H'. unfold schema_inputs in *. apply in_flat_map in H. apply in_flat_map in H'.
  destruct H as ([k1 d1] & I1 & E1). destruct H' as ([k2 d2] & I2 & E2). cbn in *.
  destruct d1; try contradiction. destruct d2; try contradiction.
  destruct E1 as [E1|[]]. destruct E2 as [E2|[]]. injection E1 as -> <-. injection E2 as -> <-.
  apply (dget_In_NoDup _ _ _ ND) in I1. apply (dget_In_NoDup _ _ _ ND) in I2. congruence.
Qed.

(** ** pre-pass *)
Definition pre_inv (pre : list (string * inputdef)) (acc : prepass * list stmt) (r : reg) : Prop :=
  good r
  /\ (exists chunks, snd acc = concat chunks /\ Forall2 (member_part tup leaf st (refd rf)) pre chunks)
  /\ (forall key, In key (pp_types (fst acc)) <-> exists t, In (key, t) pre /\ union_member (refd rf) t)
  /\ (forall u l, dget u (pp_unions (fst acc)) = Some l -> NoDup l /\ l <> [])
  /\ (forall u n, (exists l, dget u (pp_unions (fst acc)) = Some l /\ In n l) <->
        exists key t dn k, In (key, t) pre /\ declares (refd rf) t u dn k /\ n = cls key)
  /\ (forall u dn, dget u (pp_discr (fst acc)) = Some dn <->
        exists key t k, In (key, t) pre /\ declares (refd rf) t u dn k).

Lemma prepass_step : forall pre acc kt r acc' r',
  pre_inv pre acc r -> prepass_type c st pc s rf acc kt r = (Ok acc', r') -> pre_inv (pre ++ [kt]) acc' r'.
Proof.
  intros pre [p tree] [key t] r acc' r' (G & (chunks & Ht & HC) & P1 & P2 & P3 & P4) H. cbn [fst snd] in *.
  pose proof (good_ev _ _ _ _ _ (ev_prepass_type c st pc s rf (p, tree) (key, t)) ltac:(nosca) H G) as G'.
  unfold prepass_type in H. apply bind_ok in H. destruct H as ([ms discr] & r1 & H1 & H).
  apply lift_ok in H1. destruct H1 as [H1 ->].
  destruct (read_spec _ _ _ _ _ H1) as (R1 & R2 & R3 & R4).
  assert (DECL : forall u dn k, In (Membership u dn k) ms <-> declares (refd rf) t u dn k) by (intros; apply R1).
  assert (P4' : forall u dn, dget u discr = Some dn <->
        exists key' t' k, In (key', t') (pre ++ [(key, t)]) /\ declares (refd rf) t' u dn k).
  { intros u dn. split.
    - intros Hg. destruct (R4 _ _ Hg) as [H0|(k & Hk)].
      + apply P4 in H0. destruct H0 as (key' & t' & k & H0 & H2). exists key', t', k. rewrite in_app_iff; auto.
      + exists key, t, k. rewrite in_app_iff; cbn. apply DECL in Hk. auto.
    - intros (key' & t' & k & Hin & Hd). apply in_app_or in Hin. destruct Hin as [Hin|[[= <- <-]|[]]].
      + apply R2, P4. eauto.
      + apply DECL in Hd. now apply R3 in Hd. }
  assert (MEM : union_member (refd rf) t <-> ms <> []).
  { split.
    - intros (u & dn & k & Hd) ->. now apply DECL in Hd.
    - destruct ms as [|[u dn k] ms]; [congruence|]. intros _. exists u, dn, k. apply DECL. now left. }
  destruct ms as [|m0 ms0].
  - apply ret_ok in H. destruct H as [-> ->]. unfold pre_inv; cbn [fst snd pp_types pp_unions pp_discr].
    assert (NM : ~ union_member (refd rf) t) by (rewrite MEM; congruence).
    split; [exact G'|]. split; [|split; [|split; [exact P2|split; [|exact P4']]]].
    + exists (chunks ++ [[]]). rewrite concat_snoc, app_nil_r. split; [exact Ht|]. apply Forall2_snoc; [exact HC|].
      split; cbn; [contradiction|reflexivity].
    + intros key'. rewrite P1. split; intros (t' & H & H').
      * exists t'. rewrite in_app_iff; auto.
      * apply in_app_or in H. destruct H as [H|[[= <- <-]|[]]]; [eauto|contradiction].
    + intros u n. rewrite P3. split; intros (key' & t' & dn & k & H & H' & H'').
      * exists key', t', dn, k. rewrite in_app_iff; auto.
      * apply in_app_or in H. destruct H as [H|[[= <- <-]|[]]]; [exists key', t', dn, k; auto|].
        exfalso; apply NM; do 3 eexists; eassumption.
  - set (ms := m0 :: ms0) in *.
    apply bind_ok in H. destruct H as (ds & r2 & H2 & H). apply lift_ok in H2. destruct H2 as [H2 ->].
    apply bind_ok in H. destruct H as (name & r3 & H3 & H).
    pose proof (good_ev _ _ _ _ _ (ev_generate_inputtype st key) ltac:(nosca) H3 G) as G3.
    apply generate_in_spec in H3. destruct H3 as (_ & -> & _).
    apply bind_ok in H. destruct H as (stm & r4 & H4 & H). apply ret_ok in H. destruct H as [-> ->].
    unfold generate_input_type in H4. apply bind_ok in H4. destruct H4 as (ab & r5 & H5 & H4).
    pose proof (good_ev _ _ _ _ _ (ev_additional_bases st c key) ltac:(nosca) H5 G3) as G5.
    apply (input_class_spec c st pc s HB) in H4; [|apply G5]. rewrite (proj1 G5) in H4.
    destruct (collect_spec _ _ H2) as [C1 C2].
    destruct (add_member_spec (style_inputtype_class st key) ms (pp_unions p) P2) as (A1 & A2 & A3).
    assert (YM : union_member (refd rf) t) by (apply MEM; discriminate).
    unfold pre_inv; cbn [fst snd pp_types pp_unions pp_discr].
    split; [exact G'|]. split; [|split; [|split; [exact A1|split; [|exact P4']]]].
    + exists (chunks ++ [[stm]]). rewrite concat_snoc, <- Ht. split; [reflexivity|]. apply Forall2_snoc; [exact HC|].
      split; cbn [fst snd]; [|contradiction]. intros _. exists ds, stm. split; [reflexivity|]. split; [exact C1|]. split.
      * intros dn k. rewrite C2. split; intros (u & Hu); exists u; now apply DECL.
      * rewrite map_map in H4. cbn [di_name di_value] in H4.
        replace (map (fun x : string * string => (fst x, snd x)) ds) with ds in H4; [exact H4|].
        clear. induction ds as [|[? ?] ds IH]; cbn; congruence.
    + intros key'. rewrite sadd_In, P1. split.
      * intros [->|(t' & H & H')]; [exists t|exists t']; rewrite in_app_iff; cbn; auto.
      * intros (t' & H & H'). apply in_app_or in H. destruct H as [H|[[= <- <-]|[]]]; eauto.
    + intros u n. rewrite A2, P3. split.
      * intros [(key' & t' & dn & k & H & H' & H'')|(-> & [u' dn k] & H & E)].
        -- exists key', t', dn, k. rewrite in_app_iff; auto.
        -- cbn in E; subst u'. exists key, t, dn, k. rewrite in_app_iff; cbn. apply DECL in H. auto.
      * intros (key' & t' & dn & k & H & H' & ->). apply in_app_or in H. destruct H as [H|[[= <- <-]|[]]].
        -- left. exists key', t', dn, k; auto.
        -- right. split; [reflexivity|]. apply DECL in H'. eexists; split; [exact H'|reflexivity].
Qed.
Lemma prepass_all : forall l r x r',
  mfold (prepass_type c st pc s rf) l (Prepass [] [] [], []) r = (Ok x, r') -> good r -> pre_inv l x r'.
Proof.
  intros l r x r' H G. eapply (mfold_ok _ pre_inv) in H; [exact H| |].
  - unfold pre_inv; cbn. split; [exact G|]. split; [exists []; split; [reflexivity|constructor]|].
    repeat split; try contradiction; try discriminate.
    + intros (t & [] & _).
    + intros (l0 & E & _); discriminate.
    + intros (a & b & d & e & [] & _).
    + intros (a & b & d & [] & _).
  - intros pre kt post acc r1 acc' r2 _ HI HS. eapply prepass_step; eassumption.
Qed.

(** ** main loop *)
Lemma is_oneof_dec : forall d f dirs, is_oneof_input_type (TInput d f dirs) = true <-> is_oneof (InputDef d f dirs).
Proof.
  intros d f dirs. cbn. unfold is_oneof; cbn. rewrite existsb_exists. split; intros (x & Hx & E); exists x; split; auto.
  - now apply String.eqb_eq.
  - now apply String.eqb_eq.
Qed.
Lemma skipped_dec : forall key,
  (match rf with Some r => negb (mem key (rf_inputs r)) | None => false end) || (skipu && startswith "_" key) = true
  <-> input_skipped skipu (refd rf) key.
Proof.
  intros key. unfold input_skipped. rewrite orb_true_iff, andb_true_iff. rewrite <- (wanted_dec rf key).
  destruct (match rf with Some _ => _ | None => _ end); intuition congruence.
Qed.
Lemma validate_spec : forall fields r u r', validate_oneof_input_type fields r = (Ok u, r') ->
  r' = r /\ forall kv, In kv fields -> is_nonnull (if_type (snd kv)) = false /\ if_default (snd kv) = None.
Proof.
  intros fields r u r' H. unfold validate_oneof_input_type in H. revert r u r' H.
  induction fields as [|kv l IH]; intros r u r' H; cbn in H.
  - minv. split; [reflexivity|]. intros ? [].
  - apply bind_ok in H. destruct H as (u1 & r1 & H1 & H). destruct (is_nonnull (if_type (snd kv))) eqn:N; [discriminate|].
    destruct (if_default (snd kv)) eqn:D; [discriminate|]. minv. apply IH in H. destruct H as [-> H].
    split; [reflexivity|]. intros x [<-|Hx]; auto.
Qed.
(** a field that is of a plain input type *)
Definition plain_field (kv : string * inputfield) (n : string) : Prop :=
  if_type (snd kv) = GNamed n /\ exists d f dirs, get_type s n = Some (TInput d f dirs) /\ ~ is_oneof (InputDef d f dirs).
Lemma member_map_spec : forall fields,
  (forall ms, get_oneof_member_map s fields = Some ms ->
     fields <> [] /\ Forall2 (fun kv m => fst m = fst kv /\ plain_field kv (snd m)) fields ms /\ NoDup (map snd ms))
  /\ (get_oneof_member_map s fields = None ->
      fields = [] \/ (exists kv, In kv fields /\ forall n, ~ plain_field kv n)
      \/ ~ NoDup (map (fun kv => gty_name (if_type (snd kv))) fields)).
Proof.
  intros fields. unfold get_oneof_member_map.
  set (F := fold_right _ _ fields).
  assert (HF : (forall l, F = Some l -> Forall2 (fun kv m => fst m = fst kv /\ plain_field kv (snd m)) fields l)
    /\ (F = None -> exists kv, In kv fields /\ forall n, ~ plain_field kv n)).
  { subst F. induction fields as [|kv l [IH1 IH2]]; cbn [fold_right].
    - split; [intros l [= <-]; constructor|discriminate].
    - set (F := fold_right _ _ l) in *.
      assert (NP : (forall n, ~ plain_field kv n) -> exists kv0, In kv0 (kv :: l) /\ forall n, ~ plain_field kv0 n)
        by (intros; exists kv; split; [now left|assumption]).
      destruct (if_type (snd kv)) as [n|t|t] eqn:T.
      2,3: split; [discriminate|intros _; apply NP; intros n [E _]; congruence].
      destruct F as [l0|] eqn:EF.
      2: { split; [discriminate|]. intros _. destruct (IH2 eq_refl) as (x & Hx & N). exists x; split; [now right|exact N]. }
      destruct (get_type s n) as [[]|] eqn:E.
      6: { destruct (is_oneof_input_type (TInput desc fields dirs)) eqn:O.
           - split; [discriminate|]. intros _. apply NP. intros n' [E1 (d & f & di & E2 & NO)].
             rewrite T in E1. injection E1 as <-. rewrite E in E2. injection E2 as <- <- <-. apply is_oneof_dec in O. contradiction.
           - split; [|discriminate]. intros l1 [= <-]. constructor; [|now apply IH1]. cbn. split; [reflexivity|].
             split; [exact T|]. do 3 eexists; split; [exact E|]. rewrite <- is_oneof_dec. congruence. }
      all: split; [discriminate|]; intros _; apply NP; intros n' [E1 (d & f & di & E2 & _)];
           rewrite T in E1; injection E1 as <-; congruence. }
  destruct HF as [HF1 HF2]. destruct F as [[|x l]|] eqn:EF.
  - split; [discriminate|]. intros _. left. specialize (HF1 _ eq_refl). now inversion HF1.
  - specialize (HF1 _ eq_refl). destruct (nodupb (map snd (x :: l))) eqn:N.
    + split; [|discriminate]. intros ms [= <-]. split; [intros ->; inversion HF1|]. split; [exact HF1|]. now apply nodupb_NoDup.
    + split; [discriminate|]. intros _. right; right. intros C. assert (nodupb (map snd (x :: l)) = true); [|congruence].
      apply nodupb_NoDup. replace (map snd (x :: l)) with (map (fun kv => gty_name (if_type (snd kv))) fields); [exact C|].
      clear - HF1. induction HF1 as [|kv m f l0 [_ [E _]] _ IH]; cbn; [reflexivity|]. rewrite E, IH. reflexivity.
  - split; [discriminate|]. intros _. right; left. now apply HF2.
Qed.

Lemma union_expr_accepts : forall (l : list string) x, accepts (union_of (map EName l)) x <-> exists n, In n l /\ x = JLeaf n.
Proof.
  intros l x. unfold union_of. destruct l as [|n l]; [cbn; split; [contradiction|intros (n & [] & _)]|].
  change (map EName (n :: l)) with (EName n :: map EName l).
  cbn [accepts String.eqb Ascii.eqb Bool.eqb].
  assert (G : forall m, (fix any (l : list expr) : Prop := match l with [] => False | x0 :: r => accepts x0 x \/ any r end) (map EName m)
            <-> exists n, In n m /\ x = JLeaf n).
  { induction m as [|a m IH]; cbn; [split; [contradiction|intros (n0 & [] & _)]|]. cbn in IH. rewrite IH. split.
    - intros [->|(n0 & H & ->)]; eauto.
    - intros (n0 & [<-|H] & ->); eauto. }
  rewrite G. cbn. split.
  - intros [->|(m & H & ->)]; eauto.
  - intros (m & [<-|H] & ->); eauto.
Qed.
Lemma wrapper_spec : forall key ab kv r n stm r', good r ->
  oneof_wrapper_class c st pc s key ab kv r = (Ok (n, stm), r') ->
  n = cls (key +s+ cap_first (fst kv)) /\ wrapper_ok tup leaf st key kv stm.
Proof.
  intros key ab [k v] r n stm r' G H. unfold oneof_wrapper_class in H.
  apply bind_ok in H. destruct H as (name & r1 & H1 & H).
  assert (E1 : ev st inputs_kinds (try_except (generate_inputtype st (key +s+ pascal k)) (is_cls AssertionErrorC)
     (fun _ => raise GenerationErrorC "Cannot generate wrapper class"))) by ev_tac.
  pose proof (good_ev _ _ _ _ _ E1 ltac:(nosca) H1 G) as G1.
  apply try_ok in H1. destruct H1 as [H1|(e & r0 & _ & _ & H1)]; [|discriminate].
  apply generate_in_spec in H1. destruct H1 as (_ & -> & _).
  apply bind_ok in H. destruct H as (a0 & r2 & H2 & H). apply bind_ok in H. destruct H as (a & r3 & H3 & H). cbn zeta in H.
  apply bind_ok in H. destruct H as (val & r4 & H4 & H). apply bind_ok in H. destruct H as (cf & r5 & H5 & H).
  apply ret_ok in H. destruct H as [[= -> ->] ->]. split; [reflexivity|].
  pose proof (generate_input_annotation_annot _ _ _ _ _ _ _ _ _ HB (proj2 G1) H2) as AN. rewrite (proj1 G1) in AN.
  destruct (annot_accepts _ _ _ (input_leaf_ok s sc st) _ _ _ AN) as [NT AC].
  destruct (field_value_spec _ _ _ _ _ _ _ H4) as [W O].
  do 3 eexists. exists (generate_node_name st k, a, val). split; [reflexivity|]. split.
  { match goal with |- class_fields (?a :: ?b :: cf) = _ => change (a :: b :: cf) with ([a; b] ++ cf) end.
    now rewrite class_fields_app, (config_no_fields _ _ _ _ _ _ H5). }
  cbn [fst snd]. split; [reflexivity|]. split; [exact W|]. split; [exact O|].
  intros x. rewrite (annotate_accepts _ _ _ _ _ _ _ H3). rewrite AC. cbn. reflexivity.
Qed.
Lemma wrapped_spec : forall key t r out r', good r ->
  generate_oneof_wrapper_input c st pc s key (id_fields t) r = (Ok out, r') ->
  oneof_wrapped tup leaf st key t out.
Proof.
  intros key t r out r' G H. unfold generate_oneof_wrapper_input in H.
  apply bind_ok in H. destruct H as (ab & r1 & H1 & H).
  pose proof (good_ev _ _ _ _ _ (ev_additional_bases st c key) ltac:(nosca) H1 G) as G1.
  apply bind_ok in H. destruct H as (l & r2 & H2 & H). apply bind_ok in H. destruct H as (alias & r3 & H3 & H).
  apply bind_ok in H. destruct H as (a & r4 & H4 & H). apply ret_ok in H. destruct H as [-> ->].
  apply generate_in_spec in H3. destruct H3 as (_ & -> & _).
  assert (F : good r2 /\ Forall2 (fun kv nc => fst nc = cls (key +s+ cap_first (fst kv)) /\ wrapper_ok tup leaf st key kv (snd nc)) (id_fields t) l).
  { eapply (mmap_inv _ good); [exact H2|exact G1|]. intros kv ra [n stm] rb _ Ga Hk. split.
    - eapply good_ev; [apply ev_oneof_wrapper_class|nosca|exact Hk|exact Ga].
    - eapply wrapper_spec; eassumption. }
  destruct F as [_ F].
  assert (HE : exists e, a = SAssign (EName (cls key)) e /\ serializer_of e = None /\ forall x, accepts e x <-> exists n, In n (map fst l) /\ x = JLeaf n).
  { unfold generate_union_alias in H4. destruct (map fst l) as [|n [|n' m]] eqn:E.
    - minv. eexists; split; [reflexivity|]. split; [reflexivity|]. apply (union_expr_accepts []).
    - minv. eexists; split; [reflexivity|]. split; [reflexivity|]. intros x; cbn. split; [intros ->; eauto|intros (n0 & [<-|[]] & ->); reflexivity].
    - minv. eexists; split; [reflexivity|]. split; [reflexivity|]. apply (union_expr_accepts (n :: n' :: m)). }
  destruct HE as (e & -> & HS & HE). exists (map snd l), e. split; [reflexivity|]. split; [exact HS|]. split.
  - apply Forall2_map_r. eapply Forall2_weaken; [exact F|]. intros x y _ [_ H]; exact H.
  - intros x. rewrite HE. clear - F. split.
    + intros (n & Hn & ->). induction F as [|kv nc f l [E _] _ IH]; cbn in *; [contradiction|].
      destruct Hn as [<-|Hn]; [exists kv; rewrite E; auto|]. destruct (IH Hn) as (kv' & ? & ?); eauto.
    + intros (kv & Hn & ->). induction F as [|kv' nc f l [E _] _ IH]; cbn in *; [contradiction|].
      destruct Hn as [->|Hn]; [eexists; split; [left; exact E|reflexivity]|].
      destruct (IH Hn) as (n & ? & ?); eauto.
Qed.
Lemma direct_spec : forall key t ms r out r', good r ->
  get_oneof_member_map s (id_fields t) = Some ms ->
  generate_oneof_direct_union st key ms r = (Ok out, r') -> oneof_direct st key t out.
Proof.
  intros key t ms r out r' G HM H. destruct (proj1 (member_map_spec _) _ HM) as (NE & F & NDm).
  unfold generate_oneof_direct_union in H. apply bind_ok in H. destruct H as (alias & r1 & H1 & H).
  pose proof (good_ev _ _ _ _ _ (ev_generate_inputtype st key) ltac:(nosca) H1 G) as G1.
  apply generate_in_spec in H1. destruct H1 as (_ & -> & _). cbn zeta in H.
  apply bind_ok in H. destruct H as (classes & r2 & H2 & H).
  apply bind_ok in H. destruct H as (u1 & r3 & _ & H). apply bind_ok in H. destruct H as (u2 & r4 & _ & H).
  apply bind_ok in H. destruct H as (u3 & r5 & _ & H). cbn zeta in H. apply ret_ok in H. destruct H as [-> ->].
  assert (EC : classes = map (fun kv => (cls (gty_name (if_type (snd kv))), fst kv)) (id_fields t)).
  { assert (F2 : Forall2 (fun m ct => ct = (cls (snd m), fst m)) ms classes).
    { eapply (mmap_inv _ good); [exact H2|exact G1|]. intros m ra ct rb _ [Ga Gb] Hm. unfold get_inputtype_class in Hm. minv.
      split; [split; assumption|]. destruct Gb as (Gb & _). apply Gb in H. now subst. }
    clear - F F2. revert classes F2. induction F as [|kv m f l [E1 [E2 _]] _ IH]; intros classes F2; inversion F2; subst; cbn; [reflexivity|].
    rewrite E2, E1. cbn. f_equal. now apply IH. }
  do 3 eexists. split; [reflexivity|]. split.
  - intros x.
    assert (X : (exists kv, In kv (id_fields t) /\ x = JLeaf (cls (gty_name (if_type (snd kv))))) <-> exists n, In n (dedup (map fst classes)) /\ x = JLeaf n).
    { subst classes. rewrite map_map. cbn [fst]. split.
      - intros (kv & Hk & ->). eexists; split; [|reflexivity]. apply dedup_In, in_map_iff. exists kv; auto.
      - intros (n & Hn & ->). apply dedup_In, in_map_iff in Hn. destruct Hn as (kv & <- & Hk). eauto. }
    rewrite X. destruct (1 <? length classes)%nat eqn:L.
    + destruct (dedup (map fst classes)) as [|n [|n' m]] eqn:E.
      * apply (union_expr_accepts []).
      * cbn. split; [intros ->; eauto|intros (n0 & [<-|[]] & ->); reflexivity].
      * apply (union_expr_accepts (n :: n' :: m)).
    + destruct classes as [|c0 [|c1 l]]; cbn in L; [|cbn|discriminate].
      * exfalso. destruct (id_fields t); [congruence|discriminate].
      * split; [intros ->; eauto|intros (n0 & [<-|[]] & ->); reflexivity].
  - rewrite <- EC. apply serializer_body_ok.
Qed.

Definition main_inv (p : prepass) (pre : list (string * inputdef))
           (acc : list stmt * list (string * list (string * string))) (tree0 : list stmt) (r : reg) : Prop :=
  good r
  /\ (exists chunks, fst acc = tree0 ++ concat chunks
        /\ Forall2 (main_part tup leaf st s skipu v2 (refd rf)) pre chunks)
  /\ (exists ds, snd acc = concat ds /\
        Forall2 (fun kt d =>
          let cond := ~ union_member (refd rf) (snd kt) /\ ~ input_skipped skipu (refd rf) (fst kt)
                      /\ is_oneof (snd kt) /\ direct_oneof s skipu v2 (refd rf) (snd kt) in
          (cond -> exists ms, d = [(fst kt, ms)] /\ get_oneof_member_map s (id_fields (snd kt)) = Some ms)
          /\ (~ cond -> d = [])) pre ds).

Lemma direct_dec : forall t,
  (let members := if v2 then get_oneof_member_map s (id_fields t) else None in
   match members with
   | Some ms => if existsb (fun m => (match rf with Some r => negb (mem (snd m) (rf_inputs r)) | None => false end)
                                     || (skipu && startswith "_" (snd m))) ms then None else Some ms
   | None => None
   end) <> None <-> direct_oneof s skipu v2 (refd rf) t.
Proof.
  intros t. cbn zeta. unfold direct_oneof. destruct v2; [|intuition discriminate].
  destruct (member_map_spec (id_fields t)) as [S1 S2].
  destruct (get_oneof_member_map s (id_fields t)) as [ms|].
  - destruct (S1 _ eq_refl) as (NE & F & N).
    assert (EM : map snd ms = map (fun kv => gty_name (if_type (snd kv))) (id_fields t)).
    { clear - F. induction F as [|kv m f l0 [_ [E _]] _ IH]; cbn; [reflexivity|]. rewrite E, IH. reflexivity. }
    destruct (existsb _ ms) eqn:X.
    + split; [congruence|]. intros (_ & _ & H & _). exfalso.
      apply existsb_exists in X. destruct X as (m & Hm & X). apply skipped_dec in X.
      clear - F Hm X H. induction F as [|kv m' f l [_ [E _]] _ IH]; [contradiction|].
      destruct Hm as [->|Hm]; [|apply IH; [exact Hm|intros; apply H; now right]].
      destruct (H kv) as (n & d & f' & di & E' & _ & _ & NS); [now left|]. rewrite E in E'. injection E' as <-. contradiction.
    + split; [|congruence]. intros _. split; [reflexivity|]. split; [exact NE|]. split; [|now rewrite <- EM].
      intros kv Hk.
      assert (exists m, In m ms /\ plain_field kv (snd m)) as (m & Hm & E & d & f & di & E2 & NO).
      { clear - F Hk. induction F as [|kv' m f l [_ P] _ IH]; [contradiction|].
        destruct Hk as [->|Hk]; [exists m; split; [now left|exact P]|]. destruct (IH Hk) as (m' & ? & ?).
        exists m'; split; [now right|assumption]. }
      exists (snd m), d, f, di. repeat split; auto. intros C. apply skipped_dec in C.
      assert (existsb (fun m => (match rf with Some r => negb (mem (snd m) (rf_inputs r)) | None => false end)
                                     || (skipu && startswith "_" (snd m))) ms = true); [|congruence].
      apply existsb_exists. eauto.
  - split; [congruence|]. intros (_ & NE & H & N). exfalso. destruct (S2 eq_refl) as [E|[(kv & Hk & P)|D]]; [contradiction| |contradiction].
    destruct (H kv Hk) as (n & d & f & di & E & E2 & NO & _). apply (P n). split; [exact E|]. eauto.
Qed.

Lemma main_step : forall p tree0 pre kt post acc r acc' r',
  (exists r0, pre_inv (schema_inputs s) (p, tree0) r0) -> schema_inputs s = pre ++ kt :: post ->
  main_inv p pre acc tree0 r -> main_type c st pc s rf p acc kt r = (Ok acc', r') ->
  main_inv p (pre ++ [kt]) acc' tree0 r'.
Proof.
  intros p tree0 pre [key t] post [tree deferred] r acc' r' (r0 & _ & _ & P1 & P2 & P3 & P4) EQ
    (G & (chunks & HT & HC) & (ds & HD & HDs)) H. cbn [fst snd] in *.
  assert (HIN : In (key, t) (schema_inputs s)) by (rewrite EQ; apply in_or_app; right; now left).
  pose proof (good_ev _ _ _ _ _ (ev_main_type c st pc s rf p (tree, deferred) (key, t)) ltac:(nosca) H G) as G'.
  assert (FIN : forall out dd, tree ++ out = fst acc' -> snd acc' = deferred ++ dd ->
     main_part tup leaf st s skipu v2 (refd rf) (key, t) out ->
     (let cond := ~ union_member (refd rf) t /\ ~ input_skipped skipu (refd rf) key
                      /\ is_oneof t /\ direct_oneof s skipu v2 (refd rf) t in
          (cond -> exists ms, dd = [(key, ms)] /\ get_oneof_member_map s (id_fields t) = Some ms)
          /\ (~ cond -> dd = [])) -> main_inv p (pre ++ [(key, t)]) acc' tree0 r').
  { intros out dd E1 E2 M1 M2. split; [exact G'|]. split.
    - exists (chunks ++ [out]). rewrite concat_snoc, app_assoc, <- HT. split; [congruence|]. now apply Forall2_snoc.
    - exists (ds ++ [dd]). rewrite concat_snoc, <- HD. split; [exact E2|]. now apply Forall2_snoc. }
  clear HC HDs. unfold main_type in H. cbn zeta in H.
  destruct (mem_spec key (pp_types p)) as [HM|HM].
  { apply ret_ok in H. destruct H as [-> ->]. apply P1 in HM. destruct HM as (t' & Hin & HM).
    assert (t' = t) by (eapply inputs_unique; eassumption). subst t'.
    apply (FIN [] []); cbn; rewrite ?app_nil_r; auto; split; tauto. }
  assert (NM : ~ union_member (refd rf) t) by (intros C; apply HM, P1; eauto).
  set (unref := match rf with Some r => negb (mem key (rf_inputs r)) | None => false end) in *.
  destruct (unref || (skipu && startswith "_" key)) eqn:SK.
  { pose proof (proj1 (skipped_dec key) SK) as SKP.
    assert (H' : ret (tree, deferred) r = (Ok acc', r')).
    { apply orb_true_iff in SK. destruct SK as [SK|SK]; rewrite SK in H; [exact H|]. destruct unref; exact H. }
    apply ret_ok in H'. destruct H' as [-> ->]. apply (FIN [] []); cbn; rewrite ?app_nil_r; auto; split; tauto. }
  assert (NS : ~ input_skipped skipu (refd rf) key) by (rewrite <- skipped_dec; fold unref; congruence).
  apply orb_false_iff in SK. destruct SK as [SK1 SK2]. rewrite SK1, SK2 in H. clear SK1 SK2 unref.
  destruct (is_oneof_input_type (TInput (id_desc t) (id_fields t) (id_dirs t))) eqn:ONE.
  - assert (ON : is_oneof t) by (apply is_oneof_dec in ONE; destruct t; exact ONE).
    apply bind_ok in H. destruct H as (u1 & r1 & H1 & H). apply validate_spec in H1. destruct H1 as [-> VAL].
    pose proof (direct_dec t) as DD. cbn zeta in DD.
    assert (WRAP : ~ direct_oneof s skipu v2 (refd rf) t ->
      (let* l := generate_oneof_wrapper_input c st pc s key (id_fields t) in ret (tree ++ l, deferred)) r = (Ok acc', r') ->
      main_inv p (pre ++ [(key, t)]) acc' tree0 r').
    { intros NDI HW. apply bind_ok in HW. destruct HW as (l & r2 & HW & H2). apply ret_ok in H2. destruct H2 as [-> ->].
      apply (FIN l []); [reflexivity|cbn; now rewrite app_nil_r| |cbn; tauto].
      split; [tauto|]. intros _ _. split; [|split; intros; contradiction]. intros _. split; [exact VAL|]. split; [intros; contradiction|].
      intros _. exact (wrapped_spec _ _ _ _ _ G HW). }
    destruct (if v2 then get_oneof_member_map s (id_fields t) else None) as [ms|] eqn:MM.
    + destruct (existsb _ ms) eqn:X.
      * apply WRAP; [|exact H]. rewrite <- DD. congruence.
      * assert (DI : direct_oneof s skipu v2 (refd rf) t) by (apply DD; congruence).
        apply ret_ok in H. destruct H as [-> ->].
        apply (FIN [] [(key, ms)]); [cbn; now rewrite app_nil_r|reflexivity| |].
        -- split; [tauto|]. intros _ _. split; [|split; intros; contradiction]. intros _. split; [exact VAL|]. split; [reflexivity|intros; contradiction].
        -- split; [|tauto]. intros _. exists ms. split; [reflexivity|]. destruct v2; [exact MM|discriminate].
    + apply WRAP; [|exact H]. rewrite <- DD. congruence.
  - assert (ON : ~ is_oneof t) by (intros C; destruct t; apply is_oneof_dec in C; cbn in *; congruence).
    destruct (dget key (pp_unions p)) as [members|] eqn:U.
    + apply bind_ok in H. destruct H as (u1 & r1 & _ & H). apply bind_ok in H. destruct H as (u2 & r2 & _ & H).
      apply bind_ok in H. destruct H as (u3 & r3 & _ & H). apply bind_ok in H. destruct H as (alias & r4 & H4 & H).
      apply ret_ok in H. destruct H as [-> ->]. apply generate_in_spec in H4. destruct H4 as (_ & -> & _).
      eapply (FIN _ []); [reflexivity|cbn; now rewrite app_nil_r| |cbn; tauto].
      split; [tauto|]. intros _ _. split; [intros; contradiction|]. split.
      * intros _ (key1 & t1 & dn1 & k1 & I1 & D1).
        assert (GD : dget key (pp_discr p) = Some dn1) by (apply P4; eauto).
        exists members, dn1. rewrite GD. split; [reflexivity|]. split; [now apply (P2 key)|].
        assert (AG : forall key' t' dn' k, In (key', t') (schema_inputs s) -> declares (refd rf) t' key dn' k -> dn' = dn1).
        { intros key' t' dn' k Hi Hd. assert (dget key (pp_discr p) = Some dn') by (apply P4; eauto). congruence. }
        split; [|split; [|exact AG]].
        -- intros ->. assert (E : exists l, dget key (pp_unions p) = Some l /\ In (cls key1) l) by (apply P3; eauto 8).
           destruct E as (l & E & Hl). rewrite U in E. injection E as <-. exact Hl.
        -- intros n. split.
           ++ intros Hn. assert (E : exists l, dget key (pp_unions p) = Some l /\ In n l) by eauto. apply P3 in E.
              destruct E as (key' & t' & dn' & k & Hi & Hd & ->). assert (dn' = dn1) by eauto. subst. eauto 6.
           ++ intros (key' & t' & k & Hi & Hd & ->).
              assert (E : exists l, dget key (pp_unions p) = Some l /\ In (cls key') l) by (apply P3; eauto 8).
              destruct E as (l & E & Hl). rewrite U in E. injection E as <-. exact Hl.
      * intros _ NT. exfalso. apply NT.
        destruct members as [|n l]; [now destruct (P2 _ _ U)|].
        assert (E : exists l0, dget key (pp_unions p) = Some l0 /\ In n l0) by (exists (n :: l); split; [exact U|now left]).
        apply P3 in E. destruct E as (key' & t' & dn' & k & Hi & Hd & _). exists key', t', dn', k; auto.
    + apply bind_ok in H. destruct H as (ab & r1 & H1 & H).
      pose proof (good_ev _ _ _ _ _ (ev_additional_bases st c key) ltac:(nosca) H1 G) as G1.
      apply bind_ok in H. destruct H as (name & r2 & H2 & H).
      pose proof (good_ev _ _ _ _ _ (ev_generate_inputtype st key) ltac:(nosca) H2 G1) as G2.
      apply generate_in_spec in H2. destruct H2 as (_ & -> & _).
      apply bind_ok in H. destruct H as (stm & r3 & H3 & H). apply ret_ok in H. destruct H as [-> ->].
      apply (input_class_spec c st pc s HB) in H3; [|apply G2]. rewrite (proj1 G2) in H3. cbn [map] in H3.
      apply (FIN [stm] []); [reflexivity|cbn; now rewrite app_nil_r| |cbn; tauto].
      split; [tauto|]. intros _ _. split; [intros; contradiction|]. split; [|intros _ _; eauto].
      intros _ (key1 & t1 & dn1 & k1 & I1 & D1). exfalso.
      assert (E : exists l, dget key (pp_unions p) = Some l /\ In (cls key1) l) by (apply P3; eauto 8).
      destruct E as (l & E & _). congruence.
Qed.

Lemma deferred_all : forall kts ds,
  Forall2 (fun kt d =>
          let cond := ~ union_member (refd rf) (snd kt) /\ ~ input_skipped skipu (refd rf) (fst kt)
                      /\ is_oneof (snd kt) /\ direct_oneof s skipu v2 (refd rf) (snd kt) in
          (cond -> exists ms, d = [(fst kt, ms)] /\ get_oneof_member_map s (id_fields (snd kt)) = Some ms)
          /\ (~ cond -> d = [])) kts ds ->
  (forall kt d, In kt kts -> In d ds -> True) ->
  forall r yss r', good r ->
  mmap (fun km => generate_oneof_direct_union st (fst km) (snd km)) (concat ds) r = (Ok yss, r') ->
  exists outs, concat yss = concat outs /\ Forall2 (direct_part st s skipu v2 (refd rf)) kts outs.
Proof.
  intros kts ds H _. induction H as [|[key t] d kts ds [H1 H2] _ IH]; intros r yss r' G HM.
  - cbn in HM. minv. exists []. split; [reflexivity|constructor].
  - cbn [fst snd] in *. cbn zeta in *.
    set (cond := _ /\ _) in *.
    assert (DEC : cond \/ ~ cond).
    { destruct d as [|x d].
      - right. intros C. destruct (H1 C) as (ms & E & _). discriminate.
      - left. destruct (is_oneof_input_type (TInput (id_desc t) (id_fields t) (id_dirs t))) eqn:O.
        2: { exfalso. assert (N : ~ cond); [|specialize (H2 N); discriminate]. intros (_ & _ & C & _).
             destruct t; apply is_oneof_dec in C; cbn in *; congruence. }
        (* decide the remaining conjuncts *)
        destruct (direct_dec t) as [D1 D2].
        match type of D1 with ?X <> None -> _ => destruct X as [ms|] eqn:EX end.
        2: { exfalso. assert (N : ~ cond); [|specialize (H2 N); discriminate]. intros (_ & _ & _ & C). now apply D2 in C. }
        assert (DI : direct_oneof s skipu v2 (refd rf) t) by (apply D1; discriminate).
        assert (ON : is_oneof t) by (apply is_oneof_dec in O; destruct t; exact O).
        destruct ((match rf with Some r => negb (mem key (rf_inputs r)) | None => false end) || (skipu && startswith "_" key)) eqn:SK.
        { exfalso. assert (N : ~ cond); [|specialize (H2 N); discriminate]. apply skipped_dec in SK. intros (_ & C & _). contradiction. }
        assert (NS : ~ input_skipped skipu (refd rf) key) by (rewrite <- skipped_dec; congruence).
        split; [|auto]. intros C. assert (N : ~ cond) by (intros (C' & _); contradiction). specialize (H2 N). discriminate. }
    destruct DEC as [C|C].
    + destruct (H1 C) as (ms & -> & HMM). cbn in HM. apply bind_ok in HM. destruct HM as (y & r1 & Hy & HM).
      apply bind_ok in HM. destruct HM as (ys & r2 & Hys & HM). apply ret_ok in HM. destruct HM as [-> ->].
      pose proof (good_ev _ _ _ _ _ (ev_oneof_direct_union st key ms) ltac:(nosca) Hy G) as G1.
      destruct (IH _ _ _ G1 Hys) as (outs & E & F). exists (y :: outs). cbn. split; [congruence|]. constructor; [|exact F].
      split; [intros _; exact (direct_spec _ _ _ _ _ _ G HMM Hy)|contradiction].
    + rewrite (H2 C) in HM. cbn in HM. destruct (IH _ _ _ G HM) as (outs & E & F). exists ([] :: outs). cbn. split; [exact E|].
      constructor; [|exact F]. split; [contradiction|reflexivity].
Qed.
End Plugin.

Theorem generate_inputs_module : forall c st pc s documents r body r',
  no_helper_enum s -> NoDup (dkeys (s_types s)) -> names_styled st r ->
  generate_inputs c st pc s documents r = (Ok body, r') ->
  exists rf, plugin_refs c (ic_skip_unreferenced pc) s documents r = (Ok rf, r)
    /\ inputs_module (tuple_for_inputs c) (input_leaf s (r_scalars r) st) st s (ic_skip_underscore pc)
                     (String.eqb (c_pydantic_version c) "v2") (refd rf) body.
Proof.
  intros c st pc s documents r body r' HB ND HN H. unfold generate_inputs in H.
  apply bind_ok in H. destruct H as (rf & r1 & H1 & H).
  assert (r1 = r).
  { unfold plugin_refs in H1. destruct (_ && _); [|now apply ret_ok in H1].
    apply bind_ok in H1. destruct H1 as (d & r2 & Hd & H1). apply lift_ok in Hd. destruct Hd as [_ ->].
    apply bind_ok in H1. destruct H1 as (d' & r2 & Hd & H1). apply lift_ok in Hd. destruct Hd as [_ ->]. now apply ret_ok in H1. }
  subst r1. exists rf. split; [exact H1|].
  apply bind_ok in H. destruct H as (u & r2 & H2 & H).
  apply bind_ok in H. destruct H as ([p tree0] & r3 & H3 & H).
  apply bind_ok in H. destruct H as ([tree deferred] & r4 & H4 & H).
  apply bind_ok in H. destruct H as (l & r5 & H5 & H). apply ret_ok in H. destruct H as [-> ->]. cbn [fst snd] in *.
  assert (G2 : good st (r_scalars r) r2).
  { eapply (good_ev st (r_scalars r) [KImp]); [|nosca|exact H2|split; [reflexivity|exact HN]]. ev_tac. }
  change (input_types s) with (schema_inputs s) in *.
  pose proof (prepass_all c st pc s rf HB (r_scalars r) _ _ _ _ H3 G2) as PI.
  pose proof PI as (G3 & (pre & Epre & Fpre) & _).
  assert (MI : main_inv c st pc s rf (r_scalars r) p (schema_inputs s) (tree, deferred) tree0 r4).
  { eapply (mfold_ok _ (fun pre acc r => main_inv c st pc s rf (r_scalars _) p pre acc tree0 r)); [exact H4| |].
    - split; [exact G3|]. split; [exists []; cbn; rewrite app_nil_r; auto|exists []; cbn; auto].
    - intros pre0 x post acc ra acc' rb E HI HS. eapply main_step; eauto. }
  destruct MI as (G4 & (main & Em & Fm) & (ds & Ed & Fd)). cbn [fst snd] in *.
  apply mconcat_ok in H5. destruct H5 as (yss & H5 & ->). rewrite Ed in H5.
  destruct (deferred_all c st pc s rf (r_scalars r) _ _ Fd (fun _ _ _ _ => I) _ _ _ G4 H5) as (outs & E & F).
  exists pre, main, outs. rewrite Em, Epre, E. split; [now rewrite app_assoc|]. auto.
Qed.
