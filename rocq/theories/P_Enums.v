(** Proofs about the enum plugin. *)
From Verif Require Import Base PyAst Gql Config Stylers Registry Utils Referencer Enums
  PySem Spec_Types Spec_Inputs P_Base P_Monad P_Inputs2 P_Inputs.

Definition refd_enums (rf : option refs) : option (list string) := option_map rf_enums rf.
Lemma enum_skipped_spec : forall pc rf key, enum_skipped pc rf key = true <->
  enum_left_out (ec_skip_underscore pc) (ec_skip_double_underscore pc) (refd_enums rf) key.
Proof.
  intros pc rf key. unfold enum_skipped, enum_left_out. rewrite !orb_true_iff, !andb_true_iff, !prefix_ex.
  assert (E : (match rf with Some r => negb (mem key (rf_enums r)) | None => false end) = true <-> ~ wanted (refd_enums rf) key).
  { destruct rf as [rf|]; cbn; unfold wanted.
    - rewrite negb_true_iff, mem_false. split; [intros H G; apply H, G; reflexivity|intros H G; apply H; intros l [= <-]; exact G].
    - split; [discriminate|]. intros H. exfalso; apply H. discriminate. }
  rewrite E. tauto.
Qed.
Lemma enum_members_body : forall desc vs,
  enum_members (class_doc desc :: flat_map enum_member vs) = map (fun kv => (fst kv, ev_value (snd kv))) vs.
Proof.
  intros desc vs. unfold class_doc, docstring. cbn [enum_members flat_map app].
  induction vs as [|[k v] vs IH]; [reflexivity|]. cbn [flat_map map fst snd enum_member app enum_members].
  unfold enum_members in *. rewrite flat_map_app. cbn [estr app]. f_equal.
  destruct (truthy _); cbn; exact IH.
Qed.
Lemma plugin_refs_state : forall c b s documents r x r', plugin_refs c b s documents r = (Ok x, r') -> r' = r.
Proof.
  intros c b s documents r x r' H. unfold plugin_refs in H. destruct (_ && _); [|now apply ret_ok in H].
  apply bind_ok in H. destruct H as (d & r2 & Hd & H). apply lift_ok in Hd. destruct Hd as [_ ->].
  apply bind_ok in H. destruct H as (d' & r2 & Hd & H). apply lift_ok in Hd. destruct Hd as [_ ->]. now apply ret_ok in H.
Qed.
Theorem generate_enums_module : forall c st pc s documents r body r',
  generate_enums c st pc s documents r = (Ok body, r') ->
  exists rf parts, plugin_refs c (ec_skip_unreferenced pc) s documents r = (Ok rf, r)
    /\ body = concat parts
    /\ Forall2 (enum_part st (ec_skip_underscore pc) (ec_skip_double_underscore pc) (refd_enums rf)) (schema_enums s) parts.
Proof.
  intros c st pc s documents r body r' H. unfold generate_enums in H.
  apply bind_ok in H. destruct H as (rf & r1 & H1 & H). pose proof (plugin_refs_state _ _ _ _ _ _ _ H1); subst r1.
  apply mconcat_ok in H. destruct H as (yss & H & ->). exists rf, yss. split; [exact H1|]. split; [reflexivity|].
  eapply (mmap_inv _ (fun _ => True)) in H; [exact (proj2 H)|exact I|].
  intros [key [d vs]] r1 y r2 _ _ HE. cbn [fst snd] in HE. split; [exact I|]. unfold enum_part. cbn [fst snd].
  rewrite <- enum_skipped_spec. destruct (enum_skipped pc rf key).
  - apply ret_ok in HE. destruct HE as [-> _]. split; [reflexivity|congruence].
  - apply bind_ok in HE. destruct HE as (cn & r3 & HG & HE). apply ret_ok in HE. destruct HE as [-> _].
    apply generate_in_spec in HG. destruct HG as (_ & -> & _). split; [discriminate|]. intros _.
    eexists. split; [reflexivity|apply enum_members_body].
Qed.
Lemma py_enum_good : forall l, (forall n v, In (n, v) l -> iskeyword n = false /\ n <> "mro" /\ startswith "_" n = false) ->
  py_enum l = Some l.
Proof.
  induction l as [|[n v] l IH]; intros H; [reflexivity|]. cbn [py_enum].
  destruct (H n v) as (H1 & H2 & H3); [now left|]. rewrite H1. destruct (String.eqb_spec n "mro"); [contradiction|].
  assert (S : is_sunder n = false) by (unfold is_sunder; rewrite H3, andb_false_r; reflexivity).
  rewrite S. cbn [orb]. rewrite IH by (intros; apply (H n1 v0); now right).
  destruct (startswith "__" n) eqn:P; [|reflexivity]. exfalso.
  apply prefix_ex in P. destruct P as (rest & ->). assert (startswith "_" ("__" +s+ rest) = true); [|congruence].
  apply prefix_ex. exists ("_" +s+ rest). reflexivity.
Qed.
Theorem generate_enums_succeeds : forall c st pc s documents r rf,
  plugin_refs c (ec_skip_unreferenced pc) s documents r = (Ok rf, r) ->
  NoDup (dkeys (s_types s)) -> (forall n d vs, get_type s n = Some (TEnum d vs) -> dget n (r_enums r) = None) ->
  exists body r', generate_enums c st pc s documents r = (Ok body, r').
Proof.
  intros c st pc s documents r rf H ND HF. unfold generate_enums, mconcat. unfold bind at 1. rewrite H.
  assert (G : forall l r1, NoDup (map fst l) ->
     (forall e, In e l -> dget (fst e) (r_enums r1) = None) -> exists ys r2,
     mmap (fun kv =>
             if enum_skipped pc rf (fst kv) then ret []
             else let* classname := generate_enum st (fst kv) in
                  ret [SClass classname [EName "str"; EName "Enum"]
                         (class_doc (fst (snd kv)) :: flat_map enum_member (snd (snd kv))) []]) l r1 = (Ok ys, r2)).
  { induction l as [|[k e] l IH]; intros r1 N F; [cbn; unfold ret; eauto|]. inversion N as [|? ? N1 N2]; subst.
    pose proof (F _ (or_introl eq_refl)) as F0. cbn [fst] in F0.
    cbn [mmap]. unfold bind at 1. cbn [fst].
    destruct (enum_skipped pc rf k).
    - cbn [ret]. destruct (IH r1 N2) as (ys & r2 & E); [intros; apply F; now right|]. unfold bind at 1. rewrite E. unfold ret. eauto.
    - erewrite (bind_eq (generate_enum st k)) by (exact (generate_in_eq _ with_enums _ _ _ F0)). cbn [ret].
      destruct (IH (with_enums (dset k (style_enum_class st k) (r_enums r1)) r1) N2) as (ys & r2 & E).
      + intros e' He'. cbn [r_enums with_enums]. rewrite dget_dset. destruct (String.eqb_spec (fst e') k) as [X|X].
        * exfalso. apply N1. rewrite <- X. now apply in_map.
        * apply F. now right.
      + rewrite (bind_eq _ _ _ _ _ E). unfold ret. eauto. }
  destruct (G (enum_types s) r) as (ys & r2 & E).
  - clear - ND. unfold enum_types, dkeys in *. induction (s_types s) as [|[k t] l IH]; cbn; [constructor|].
    inversion ND as [|? ? N1 N2]; subst. destruct t; cbn; try (apply IH; exact N2). constructor; [|apply IH; exact N2].
    intros H. apply N1. clear - H. induction l as [|[k' t'] l IH]; cbn in *; [contradiction|]. rewrite map_app in H.
    apply in_app_or in H. destruct H as [H|H]; [left|right; auto]. destruct t'; cbn in H; try contradiction. now destruct H.
  - intros [k [d vs]] He. eapply HF. unfold enum_types in He. apply in_flat_map in He.
    destruct He as ([k' t] & Hk & Ht). cbn in Ht. destruct t; try contradiction. destruct Ht as [[= -> -> ->]|[]].
    unfold get_type. cbn. apply dget_In_NoDup; [exact ND|exact Hk].
  - rewrite (bind_eq _ _ _ _ _ E). unfold ret. eauto.
Qed.
Definition skip_unref (c : gconfig) (pc : enums_config) : bool := ec_skip_unreferenced pc && truthy (c_documents c).
Theorem enums_C31 : forall c st pc s documents r body r',
  generate_enums c st pc s documents r = (Ok body, r') ->
  exists refd parts,
    (if skip_unref c pc then exists d rr, documents = Ok d /\ create_reference_registry s d = Ok rr /\ refd = Some (rf_enums rr)
     else refd = None)
    /\ body = concat parts
    /\ Forall2 (enum_part st (ec_skip_underscore pc) (ec_skip_double_underscore pc) refd) (schema_enums s) parts.
Proof.
  intros c st pc s documents r body r' H. destruct (generate_enums_module _ _ _ _ _ _ _ _ H) as (rf & parts & HR & HB & HF).
  exists (refd_enums rf), parts. split; [|auto]. unfold plugin_refs in HR. unfold skip_unref. destruct (_ && _).
  - apply bind_ok in HR. destruct HR as (d & r1 & H1 & HR). apply lift_ok in H1. destruct H1 as [-> ->].
    apply bind_ok in HR. destruct HR as (x & r2 & H2 & HR). apply lift_ok in H2. destruct H2 as [H2 ->].
    apply ret_ok in HR. destruct HR as [-> _]. exists d, x. auto.
  - apply ret_ok in HR. destruct HR as [-> _]. reflexivity.
Qed.
