(** The class of an operation never has configuration. *)
From Verif Require Import Base PyAst Gql Config Stylers Registry Utils Documents Recurse Inline Print Fragments Operations
  Spec_Config P_Base P_Config P_Monad P_Freeze.

Lemma op_config_none : forall o c r l r', generate_pydantic_config (KOp o) c None r = (Ok l, r') -> config_entries l = [].
Proof.
  intros o c r l r' H. destruct (config_total (KOp o) c None r) as (b & r2 & H2 & E). rewrite H in H2. injection H2 as <- <-.
  rewrite E. unfold freeze_kws, options_kws, additional_kws. cbn [kind_in truthy]. destruct (fz_enabled _), (oc_enabled _); reflexivity.
Qed.
Lemma field_body_quiet : forall c st s f p fd r x r', type_field_node c st s f p fd r = (Ok x, r') -> Forall quiet_stm (snd x).
Proof.
  intros c st s [al n ar di sels] p fd r x r' H. cbn [type_field_node] in H. cbn zeta in H.
  apply bind_ok in H as (y & r1 & _ & H). apply bind_ok in H as (b & r2 & H2 & H). apply ret_ok in H as [-> ->]. cbn [snd].
  eapply statements_quiet; exact H2.
Qed.
Lemma arguments_none : forall c st pc o name r l r', arguments_class c st pc o name r = (Ok l, r') -> config_entries l = [].
Proof.
  intros c st pc o name r l r' H. unfold arguments_class in H. destruct (o_create_arguments pc); [|apply ret_ok in H as [-> _]; reflexivity].
  minv; reflexivity.
Qed.
Theorem operation_unconfigured : forall c st s pc po add doc_of o r l r',
  generate_operation c st s pc po add doc_of o r = (Ok l, r') ->
  exists pre cls bases body, l = pre ++ [SClass cls bases body []] /\ config_entries body = [].
Proof.
  intros c st s pc po add doc_of o r l r' H. unfold generate_operation in H.
  apply bind_ok in H as (name & r1 & H1 & H). apply bind_ok in H as (cb & r2 & H2 & H). apply bind_ok in H as (root & r3 & H3 & H). cbn zeta in H.
  apply bind_ok in H as (x & r4 & H4 & H). apply bind_ok in H as (u & r5 & H5 & H). apply bind_ok in H as (document & r6 & H6 & H).
  apply bind_ok in H as (args & r7 & H7 & H). apply bind_ok in H as (cfg & r8 & H8 & H). apply ret_ok in H as [-> ->].
  do 4 eexists. split; [reflexivity|]. apply op_config_none in H8. apply arguments_none in H7. rewrite !entries_app, H8, H7.
  assert (Q : Forall (Forall quiet_stm) (snd x)).
  { eapply (mfold_ok _ (fun _ a _ => Forall (Forall quiet_stm) (snd a))) in H4; [exact H4|constructor|].
    intros pre g post acc ra acc' rb _ HP Hs. unfold root_item in Hs. destruct g as [g|g gd|i d l]; [|discriminate|discriminate].
    apply bind_ok in Hs as (fd & r9 & _ & Hs). apply bind_ok in Hs as (y & r10 & Hy & Hs). apply ret_ok in Hs as [-> ->]. cbn [snd].
    apply Forall_app. split; [exact HP|]. constructor; [|constructor]. eapply field_body_quiet; exact Hy. }
  rewrite (quiet_list (concat (snd x))); [reflexivity|]. clear - Q. induction Q; cbn; [constructor|]. apply Forall_app; auto.
Qed.
