(** The references of a document can be collected. *)
From Verif Require Import Base PyAst Gql Config Stylers Registry Utils Recurse Referencer Print Spec_Mro Spec_Mro2 Spec_Docs Spec_Refs Spec_Inline Spec_Valid Spec_ValidDoc P_Base P_Gql P_Monad P_Refs P_Total P_Total2 P_Total5.
Require Import Lia.

Lemma rfold_total : forall {A S} (f : A -> S -> res S) (P : S -> Prop) l st, P st -> (forall x st, In x l -> P st -> exists st', f x st = Ok st' /\ P st') -> exists st', rfold f l st = Ok st' /\ P st'.
Proof.
  intros A S f P l. induction l as [|x l IH]; intros st H0 H; [exists st; auto|]. cbn. destruct (H x st (or_introl eq_refl) H0) as (st1 & -> & H1). cbn. apply IH; [exact H1|]. intros y st2 Hy. apply H. now right.
Qed.
Section Refs.
Variable s : schema. Variable d : document.
Hypothesis V : valid_schema s.
Definition ref_good (f : fieldnode) : Prop := forall t st, valid_node s d (gty_name t) f = true -> supported_node s (gty_name t) f = true -> exists st', recurse_find_references s f t st = Ok st'.
Lemma ref_field : forall on t f st, get_type s on = Some t -> valid_sel s d on (SelField f) = true -> supported_field s on (SelField f) = true -> String.eqb (fn_name f) "__typename" = false -> ref_good f ->
  exists fd, field_of t (fn_name f) = Ok fd /\ field_of_any (Some t) (fn_name f) = Ok fd /\ exists st', recurse_find_references s f (fd_type fd) st = Ok st'.
Proof.
  intros on t f st G Va Su N H. destruct (valid_has_field s d on f Va N) as (t' & fd & G' & Gf). rewrite G in G'. injection G' as <-.
  assert (get_field_def s on (fn_name f) = Some fd) as Gd by (eapply field_def_of; eassumption).
  destruct (field_of_def s on t (fn_name f) fd G) as (E1 & E2); [now apply String.eqb_neq|exact Gd|].
  exists fd. split; [exact E1|]. split; [exact E2|]. cbn [valid_sel supported_field] in *. rewrite N in Va. unfold field_type in *. rewrite G, Gf in *. cbn [option_map] in *. now apply H.
Qed.
Lemma ref_sels : forall on t l st, get_type s on = Some t -> forallb (valid_sel s d on) l = true -> forallb (supported_sel s on) l = true ->
  (forall f, In (SelField f) l -> ref_good f) -> (forall c ds m f, In (SelInline c ds m) l -> In (SelField f) m -> ref_good f) -> exists st', rfold (ref_selection s t) l st = Ok st'.
Proof.
  intros on t l st G Va Su Go GoI. rewrite forallb_forall in Va, Su. destruct (rfold_total (ref_selection s t) (fun _ => True) l st I) as (st' & E & _); [|eauto].
  intros x st1 Hx _. specialize (Va _ Hx). specialize (Su _ Hx). destruct x as [f|n ds|[k|] ds m]; cbn [ref_selection].
  - destruct (String.eqb (fn_name f) "__typename") eqn:N; [eauto|]. destruct (ref_field on t f st1 G Va Su N (Go _ Hx)) as (fd & -> & _ & st' & E). cbn. eauto.
  - eauto.
  - cbn [supported_sel] in Su. apply andb_true_iff in Su as (_ & Sf). cbn [valid_sel] in Va. apply andb_true_iff in Va as (_ & Va). rewrite forallb_forall in Va, Sf.
    apply (rfold_total _ (fun _ => True)); [exact I|]. intros y st2 Hy _. destruct y as [f| |]; eauto. destruct (String.eqb (fn_name f) "__typename") eqn:N; [eauto|].
    destruct (valid_has_field s d k f (Va _ Hy) N) as (t' & fd & G' & _). rewrite G'. destruct (ref_field k t' f st2 G' (Va _ Hy) (Sf _ Hy) N (GoI _ _ _ _ Hx Hy)) as (fd' & -> & _ & st' & E). cbn. eauto.
  - discriminate.
Qed.
Lemma ref_node : forall f, (forall g, In (SelField g) (sub_sels f) -> ref_good g) -> (forall c ds m g, In (SelInline c ds m) (sub_sels f) -> In (SelField g) m -> ref_good g) -> ref_good f.
Proof.
  intros [al nm args ds sels] G1 G2 t st Va Su. cbn [recurse_find_references]. cbn [sub_sels fn_sels valid_node supported_node] in *. destruct sels as [l|].
  - apply andb_true_iff in Va as (Va & Vl). apply andb_true_iff in Va as (Co & _). apply andb_true_iff in Su as (Su & _). unfold is_composite, is_object, is_iface, is_union in Co.
    destruct (get_type s (gty_name t)) as [[]|] eqn:G; cbn in Co; try discriminate; eapply ref_sels; eassumption.
  - unfold is_leaf, Spec_Valid.is_enum, Spec_Valid.is_scalar in Va. destruct (get_type s (gty_name t)) as [[]|]; cbn in Va; try discriminate; eauto.
Qed.
Lemma ref_all : forall f, ref_good f.
Proof.
  assert (forall x, match x with SelField f => ref_good f | SelSpread _ _ => True | SelInline _ _ l => forall f, In (SelField f) l -> ref_good f end) as H; [|intros f; exact (H (SelField f))].
  apply sel_ind.
  - intros al n args ds. apply ref_node; intros; contradiction.
  - intros al n args ds l H. rewrite Forall_forall in H. apply ref_node; cbn; [intros g Hg; exact (H _ Hg)|intros c ds' m g Hm Hg; exact (H _ Hm g Hg)].
  - intros. exact I.
  - intros c ds l H f Hf. rewrite Forall_forall in H. exact (H _ Hf).
Qed.
Lemma ref_root_ok : forall on t f st, get_type s on = Some t -> valid_sel s d on (SelField f) = true -> supported_field s on (SelField f) = true -> exists st', ref_root_field s (Some t) f st = Ok st'.
Proof.
  intros on t f st G Va Su. unfold ref_root_field. destruct (String.eqb (fn_name f) "__typename") eqn:N; [eauto|]. destruct (ref_field on t f st G Va Su N (ref_all f)) as (fd & _ & -> & st' & E). cbn. eauto.
Qed.
Lemma composite_type : forall n, is_composite s n = true -> exists t, get_type s n = Some t.
Proof. intros n H. unfold is_composite, is_object, is_iface, is_union in H. destruct (get_type s n); [eauto|discriminate]. Qed.
Lemma input_sides : forall n, input_type s n = true -> input_side s n.
Proof. intros n H. unfold input_type, Spec_Valid.is_scalar, Spec_Valid.is_enum, Spec_Valid.is_input in H. unfold input_side. destruct (get_type s n) as [t|]; [|discriminate]. exists t. split; [reflexivity|]. destruct t; auto; discriminate. Qed.
Hypothesis VD : valid_document s d.
Lemma fragment_ok : forall f st, In f (fragments_of d) -> forallb (supported_fragment s d (fr_on f)) (fr_sels f) = true -> exists st', ref_fragment s f st = Ok st'.
Proof.
  intros f st Hf Su. destruct (vd_conditions s d VD f Hf) as (Co & Va). destruct (composite_type _ Co) as (t & G). rewrite forallb_forall in Va, Su. unfold ref_fragment.
  destruct (rfold_total (fun sel st => match sel with SelField f0 => ref_root_field s (get_type s (fr_on f)) f0 st | SelInline None _ _ => rraise AttributeErrorC "name"
    | SelInline (Some c) _ l => rfold (fun sub st => match sub with SelField f => ref_root_field s (get_type s c) f st | _ => Ok st end) l st | SelSpread _ _ => Ok st end) (fun _ => True) (fr_sels f) st I) as (st' & E & _); [|eauto].
  intros x st1 Hx _. specialize (Va _ Hx). specialize (Su _ Hx). destruct x as [g|n ds|[k|] ds m].
  - rewrite G. destruct (ref_root_ok _ _ g st1 G Va Su) as (st' & E). eauto.
  - eauto.
  - cbn [supported_fragment] in Su. cbn [valid_sel] in Va. apply andb_true_iff in Va as (Va & Vl). apply andb_true_iff in Va as (Va & _). apply andb_true_iff in Va as (Ck & _). destruct (composite_type _ Ck) as (tk & Gk).
    rewrite forallb_forall in Vl, Su. apply (rfold_total _ (fun _ => True)); [exact I|]. intros y st2 Hy _. destruct y as [g| |]; eauto. rewrite Gk. destruct (ref_root_ok _ _ g st2 Gk (Vl _ Hy) (Su _ Hy)) as (st' & E). eauto.
  - discriminate.
Qed.
Lemma variables_ok : forall vs st, (forall v, In v vs -> input_type s (gty_name (v_type v)) = true) -> inputs_wf s st ->
  exists st', rfold (fun v st => recurse_type_annotation_refs s (v_type v) st) vs st = Ok st' /\ inputs_wf s st'.
Proof.
  intros vs st Hv W. apply rfold_total; [exact W|]. intros v st1 Hin W1. unfold recurse_type_annotation_refs.
  destruct (ref_input_fuel s (length (s_types s)) (gty_name (v_type v)) st1 W1) as [NF S]; [lia|].
  destruct (ref_input_ok s (length (s_types s)) (gty_name (v_type v)) st1) as (st' & E); [|apply input_sides; auto|exact NF|].
  - intros n d0 f dirs kv G Hk. apply input_sides. unfold get_type in G. apply dget_Some_In in G. destruct kv as [k fd]. eapply vs_in; [exact V|exact G|exact Hk].
  - exists st'. split; [exact E|]. now apply S.
Qed.
Lemma operation_ok : forall o st root, In o (operations_of d) -> root_type s (op_kind o) = Some root -> (forall x, In x (op_sels o) -> supported_field s root x = true) -> inputs_wf s st ->
  exists st', ref_operation s o st = Ok st' /\ inputs_wf s st'.
Proof.
  intros o st root Ho R Su W. destruct (vd_roots s d VD o Ho) as (root' & R' & O & Va). rewrite R in R'. injection R' as <-. unfold is_object in O. destruct (get_type s root) as [t|] eqn:G; [|discriminate].
  unfold ref_operation. rewrite R, G. destruct (variables_ok (op_vars o) st) as (st1 & -> & W1); [intros v Hv; eapply vd_variables; eassumption|exact W|]. cbn [rbind].
  pose proof (root_sels_out s (Some t) (op_sels o) st1) as HS. rewrite forallb_forall in Va.
  destruct (rfold_total (fun sel st => match sel with SelField f => ref_root_field s (Some t) f st | _ => Ok st end) (fun _ => True) (op_sels o) st1 I) as (st2 & E & _).
  { intros [f| |] st2 Hx _; eauto. destruct (ref_root_ok _ _ f st2 G (Va _ Hx) (Su _ Hx)) as (st' & E). eauto. }
  rewrite E in *. exists st2. split; [reflexivity|]. destruct HS as [_ HS]. destruct W1 as [W1 W2]. split; rewrite HS; assumption.
Qed.
Theorem references_ok : (forall o, In o (operations_of d) -> exists n, op_name o = Some n) ->
  (forall o x root, In o (operations_of d) -> root_type s (op_kind o) = Some root -> In x (op_sels o) -> supported_field s root x = true) ->
  (forall f, In f (fragments_of d) -> forallb (supported_fragment s d (fr_on f)) (fr_sels f) = true) ->
  exists r, create_reference_registry s d = Ok r.
Proof.
  intros Nm Ro Fr. unfold create_reference_registry.
  rewrite dvals_dict_of by (rewrite map_map; exact (vd_fragments s d VD)). rewrite map_map. cbn [snd]. rewrite map_id.
  assert (exists l, rmap (fun o => match op_name o with Some n => Ok (n, o) | None => rraise AttributeErrorC "value" end) (operations_of d) = Ok l) as (l & E).
  { clear - Nm. induction (operations_of d) as [|o ops IH]; [eexists; reflexivity|]. cbn. destruct (Nm o (or_introl eq_refl)) as (n & ->). cbn. destruct IH as (l & ->); [intros; apply Nm; now right|]. cbn. eauto. }
  rewrite E. cbn [rbind]. destruct (named_ops _ _ E) as [N1 N2].
  assert (NDl : NoDup (map fst l)). { pose proof (vd_operations s d VD) as U2. rewrite <- N2 in U2. clear - U2. rewrite <- (map_map fst Some) in U2. now apply NoDup_map_inv in U2. }
  rewrite (dvals_dict_of l NDl), N1.
  destruct (rfold_total (ref_fragment s) (fun st => rf_inputs st = []) (fragments_of d) no_refs eq_refl) as (st & -> & W).
  { intros f st Hf W. destruct (fragment_ok f st Hf (Fr f Hf)) as (st' & Ef). exists st'. split; [exact Ef|]. pose proof (fragment_out s f st) as O. rewrite Ef in O. destruct O as [_ O]. congruence. }
  cbn [rbind]. destruct (rfold_total (ref_operation s) (inputs_wf s) (operations_of d) st) as (st' & -> & _); [unfold inputs_wf; rewrite W; split; [constructor|intros ? []]| |eauto].
  intros o st1 Ho W1. destruct (vd_roots s d VD o Ho) as (root & R & _). eapply operation_ok; eauto.
Qed.
End Refs.
