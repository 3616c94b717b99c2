(** Consequences of the module characterisation, one per property. *)
From Verif Require Import Base PyAst Gql Config Stylers Registry Utils Referencer Enums Inputs
  PySem Spec_Types Spec_Refs Spec_Inputs P_Base P_Monad P_Types P_Inputs P_Inputs2 P_Inputs3 P_Refs P_Enums.

Definition within (out body : list stmt) : Prop := exists a b, body = a ++ out ++ b.
Lemma within_concat : forall (l : list (list stmt)) x, In x l -> within x (concat l).
Proof.
  intros l x H. apply in_split in H. destruct H as (l1 & l2 & ->). rewrite concat_app. cbn.
  exists (concat l1), (concat l2). reflexivity.
Qed.
Lemma Forall2_in_l : forall {A B} (Q : A -> B -> Prop) l m x, Forall2 Q l m -> In x l -> exists y, In y m /\ Q x y.
Proof.
  intros A B Q l m x H. induction H as [|a b l m Hab _ IH]; intros Hx; [contradiction|].
  destruct Hx as [<-|Hx]; [exists b; cbn; auto|]. destruct (IH Hx) as (y & Hy & HQ). exists y; cbn; auto.
Qed.
Lemma within_app_l : forall out a b, within out a -> within out (a ++ b).
Proof. intros out a b (x & y & ->). exists x, (y ++ b). now rewrite <- !app_assoc. Qed.
Lemma within_app_r : forall out a b, within out b -> within out (a ++ b).
Proof. intros out a b (x & y & ->). exists (a ++ x), y. now rewrite <- !app_assoc. Qed.

Definition skipping (c : gconfig) (skip_unreferenced : bool) : bool := skip_unreferenced && truthy (c_documents c).
Lemma plugin_refs_inputs : forall c b s documents r rf, plugin_refs c b s documents r = (Ok rf, r) ->
  referenced_inputs (skipping c b) s documents (refd rf).
Proof.
  intros c b s documents r rf H. unfold plugin_refs, skipping, referenced_inputs in *. destruct (b && truthy (c_documents c)).
  - apply bind_ok in H. destruct H as (d & r1 & H1 & H). apply lift_ok in H1. destruct H1 as [-> ->].
    apply bind_ok in H. destruct H as (x & r2 & H2 & H). apply lift_ok in H2. destruct H2 as [H2 ->].
    apply ret_ok in H. destruct H as [-> _]. exists d, (rf_inputs x). split; [reflexivity|]. split; [reflexivity|].
    intros U. exact (proj1 (registry_inputs _ _ _ U H2)).
  - apply ret_ok in H. destruct H as [-> _]. reflexivity.
Qed.

Section One.
Variables (c : gconfig) (st : list styler) (pc : inputs_config) (s : schema) (documents : res document).
Variables (r r' : reg) (body : list stmt).
Hypothesis HB : no_helper_enum s.
Hypothesis ND : NoDup (dkeys (s_types s)).
Hypothesis HN : names_styled st r.
Hypothesis HG : generate_inputs c st pc s documents r = (Ok body, r').
Notation tup := (tuple_for_inputs c).
Notation leaf := (input_leaf s (r_scalars r) st).
Notation v2 := (String.eqb (c_pydantic_version c) "v2").
Notation skipu := (ic_skip_underscore pc).

Theorem inputs_module_referenced : exists refd,
  referenced_inputs (skipping c (ic_skip_unreferenced pc)) s documents refd
  /\ inputs_module tup leaf st s skipu v2 refd body.
Proof.
  destruct (generate_inputs_module _ _ _ _ _ _ _ _ HB ND HN HG) as (rf & HR & HM).
  exists (refd rf). split; [eapply plugin_refs_inputs; exact HR|exact HM].
Qed.
Theorem plain_inputs : exists refd,
  referenced_inputs (skipping c (ic_skip_unreferenced pc)) s documents refd
  /\ forall key t, In (key, t) (schema_inputs s) ->
       ~ union_member refd t -> ~ input_skipped skipu refd key -> ~ is_oneof t -> ~ union_target refd s key ->
       exists stm, In stm body /\ represents_input tup leaf st key [] (id_fields t) stm.
Proof.
  destruct inputs_module_referenced as (rf & HR & pre & main & direct & -> & F1 & F2 & F3). exists rf. split; [exact HR|].
  intros key t Hk M S O U. destruct (Forall2_in_l _ _ _ _ F2 Hk) as (out & Ho & _ & H2).
  destruct (H2 M S) as (_ & _ & H3). destruct (H3 O U) as (stm & -> & HRep). exists stm. split; [|exact HRep].
  rewrite !in_app_iff. right; left. apply in_concat. exists [stm]; cbn; auto.
Qed.
Theorem oneof_inputs : exists refd,
  referenced_inputs (skipping c (ic_skip_unreferenced pc)) s documents refd
  /\ forall key t, In (key, t) (schema_inputs s) -> is_oneof t ->
       ~ union_member refd t -> ~ input_skipped skipu refd key ->
       oneof_valid t /\ exists out, within out body
         /\ ((direct_oneof s skipu v2 refd t /\ oneof_direct st key t out)
             \/ (~ direct_oneof s skipu v2 refd t /\ oneof_wrapped tup leaf st key t out)).
Proof.
  destruct (generate_inputs_module _ _ _ _ _ _ _ _ HB ND HN HG) as (rf & HR & HM).
  exists (refd rf). split; [eapply plugin_refs_inputs; exact HR|].
  destruct HM as (pre & main & direct & -> & F1 & F2 & F3).
  intros key t Hk O M S. destruct (Forall2_in_l _ _ _ _ F2 Hk) as (out & Ho & _ & H2).
  destruct (H2 M S) as (H3 & _ & _). destruct (H3 O) as (V & H4 & H5). split; [exact V|].
  destruct (Forall2_in_l _ _ _ _ F3 Hk) as (out3 & Ho3 & H6 & _).
  destruct (direct_dec c pc s rf t) as [D1 D2].
  match type of D1 with ?X <> None -> _ => destruct X as [ms|] end.
  - assert (D : direct_oneof s skipu v2 (refd rf) t) by (apply D1; discriminate).
    exists out3. split; [apply within_app_r, within_app_r, within_concat, Ho3|]. left. split; [exact D|]. apply H6. auto.
  - assert (D : ~ direct_oneof s skipu v2 (refd rf) t) by (intros D; now apply D2 in D).
    exists out. split; [apply within_app_r, within_app_l, within_concat, Ho|]. right. split; [exact D|]. apply H5, D.
Qed.
Theorem union_inputs : exists refd,
  referenced_inputs (skipping c (ic_skip_unreferenced pc)) s documents refd
  /\ (forall key t, In (key, t) (schema_inputs s) -> union_member refd t ->
       exists discr stm, In stm body
       /\ NoDup (map fst discr)
       /\ (forall dn k, In (dn, k) discr <-> exists u, declares refd t u dn k)
       /\ represents_input tup leaf st key discr (id_fields t) stm)
  /\ (forall key t, In (key, t) (schema_inputs s) -> union_target refd s key ->
       ~ union_member refd t -> ~ input_skipped skipu refd key -> ~ is_oneof t ->
       exists out, within out body /\ union_alias st s refd key out).
Proof.
  destruct inputs_module_referenced as (rf & HR & pre & main & direct & -> & F1 & F2 & F3). exists rf. split; [exact HR|]. split.
  - intros key t Hk M. destruct (Forall2_in_l _ _ _ _ F1 Hk) as (out & Ho & H1 & _).
    destruct (H1 M) as (discr & stm & -> & N & D & R). exists discr, stm. split; [|auto].
    rewrite in_app_iff. left. apply in_concat. exists [stm]; cbn; auto.
  - intros key t Hk U M S O. destruct (Forall2_in_l _ _ _ _ F2 Hk) as (out & Ho & _ & H2).
    destruct (H2 M S) as (_ & H3 & _). exists out. split; [apply within_app_r, within_app_l, within_concat, Ho|]. auto.
Qed.
End One.

Lemma validate_oneof_rejects : forall key t r, ~ oneof_valid (InputDef key (id_fields t) (id_dirs t)) ->
  exists msg, validate_oneof_input_type (id_fields t) r = (Err (Exn GenerationErrorC msg), r).
Proof.
  intros key [d fields dirs] r H. cbn in *. unfold oneof_valid in H. cbn in H.
  induction fields as [|kv l IH]; [exfalso; apply H; intros ? []|]. cbn.
  destruct (is_nonnull (if_type (snd kv))) eqn:N.
  - unfold bind, raise. eauto.
  - destruct (if_default (snd kv)) as [v|] eqn:D; [unfold bind, raise; eauto|].
    unfold bind, ret. cbn. apply IH. intros G. apply H. intros x [<-|Hx]; auto.
Qed.
Theorem field_C12 : forall c st s name k v r l r',
  no_helper_enum s -> names_styled st r ->
  generate_input_field c st s name k v r = (Ok l, r') ->
  exists tup fld, input_tuples c tup /\ class_fields l = [fld]
    /\ input_field_ok tup (input_leaf s (r_scalars r) st) st k v fld.
Proof.
  intros c st s name k v r l r' HB HN H. destruct (input_field_spec _ _ _ _ _ _ _ _ _ HB HN H) as (fld & E & _ & F).
  exists (tuple_for_inputs c), fld. split; [apply tuple_for_inputs_spec|auto].
Qed.
