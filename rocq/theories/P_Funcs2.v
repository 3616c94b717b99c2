(** Sync and async variants; input factory functions. *)
From Coq Require Import Lia.
From Verif Require Import Base PyAst Gql Config Stylers Registry Utils Funcs PySem Spec_Types Spec_Annot Spec_Funcs
  P_Base P_Monad P_Annot P_Funcs P_Indep.

Lemma indep_at : forall {A} (m : M A) r r1 x r2, indep m -> core r1 = core r -> m r1 = (x, r2) -> fst (m r) = x /\ core r2 = core r.
Proof.
  intros A m r r1 x r2 [H1 H2] E H. split.
  - rewrite (H2 r r1) by congruence. now rewrite H.
  - specialize (H1 r1). rewrite H in H1. cbn in H1. congruence.
Qed.

Section Variants.
Variable c : gconfig.
Variable st : list styler.
Variable s : schema.
Variable pc : fcfg.
Variable doc_of : operation -> option string.
Notation node := (generate_node_name st).
Notation coll o := (f_collapse_lonely pc && is_collapsable o).
(** the parts of a function, computed in one registry *)
Lemma func_parts : forall o d r f r', generate_operation_func c st s pc doc_of o d r = (Ok f, r') ->
  exists name doc args rt, op_name o = Some name
  /\ fst (generate_query_doc st s pc doc_of d o (coll o) r) = Ok doc
  /\ fst (generate_parameters c st s pc d o r) = Ok args
  /\ fst (get_return_type_annotation st s o (coll o) r) = Ok rt
  /\ f = SFunc (d_async d) ((if d_async d then f_prepend_async pc else f_prepend_sync pc) +s+ camel_to_snake name) args
           (doc :: (NewDict "variables" :: flat_map (var_assign c st s pc) (op_vars o))
              ++ [the_call st pc d o name (collapsed_to node (f_collapse_lonely pc) (op_sels o))])
           (Some (match d_kind d with
                  | OpSubscription => ESub (EName (if d_async d then "AsyncIterator" else "Iterator")) rt
                  | _ => rt end)) [].
Proof.
  intros o d r f r' H. unfold generate_operation_func in H.
  apply bind_ok in H. destruct H as (rt & r1 & H1 & H). destruct (indep_at _ r _ _ _ (indep_return_annotation st s o (coll o)) eq_refl H1) as [A1 C1].
  apply bind_ok in H. destruct H as (doc & r2 & H2 & H). destruct (indep_at _ r _ _ _ (indep_doc st s pc doc_of d o (coll o)) C1 H2) as [A2 C2].
  apply bind_ok in H. destruct H as (asg & r3 & H3 & H). destruct (indep_at _ r _ _ _ (indep_assignments c st s pc o) C2 H3) as [A3 C3].
  apply bind_ok in H. destruct H as ([] & r4 & H4 & H).
  assert (I4 : indep (match op_kind o with OpSubscription => register_import ("typing." +s+ (if d_async d then "AsyncIterator" else "Iterator")) | _ => ret tt end)) by (destruct (op_kind o); ind_tac).
  destruct (indep_at _ r _ _ _ I4 C3 H4) as [A4 C4].
  apply bind_ok in H. destruct H as (n & r5 & H5 & H). destruct (indep_at _ r _ _ _ (indep_func_name pc _ _) C4 H5) as [A5 C5].
  apply bind_ok in H. destruct H as (args & r6 & H6 & H). destruct (indep_at _ r _ _ _ (indep_parameters c st s pc d o) C5 H6) as [A6 C6].
  apply bind_ok in H. destruct H as (cl & r7 & H7 & H). apply ret_ok in H. destruct H as [-> _].
  apply call_stmt_ok in H7. destruct H7 as (name & HN & ->). apply assignments_ok in H3. subst asg.
  unfold func_name in H5. minv. rewrite HN in H. injection H as <-.
  exists name, doc, args, rt. rewrite A1, A2, A6. repeat split; auto.
Qed.
Lemma doc_ext : forall d1 d2 o b, extra_args pc d1 = extra_args pc d2 -> extra_kwargs pc d1 = extra_kwargs pc d2 ->
  generate_query_doc st s pc doc_of d1 o b = generate_query_doc st s pc doc_of d2 o b.
Proof. intros d1 d2 o b H1 H2. unfold generate_query_doc. now rewrite H1, H2. Qed.
Lemma params_ext : forall d1 d2 o, extra_args pc d1 = extra_args pc d2 -> extra_kwargs pc d1 = extra_kwargs pc d2 ->
  generate_parameters c st s pc d1 o = generate_parameters c st s pc d2 o.
Proof. intros d1 d2 o H1 H2. unfold generate_parameters. now rewrite H1, H2. Qed.
Theorem variants_of : forall o d1 d2 r f1 r1 r' f2 r2, core r' = core r ->
  generate_operation_func c st s pc doc_of o d1 r = (Ok f1, r1) ->
  generate_operation_func c st s pc doc_of o d2 r' = (Ok f2, r2) ->
  d_async d1 = false -> d_async d2 = true -> d_kind d1 = d_kind d2 ->
  d_args d1 = d_args d2 -> d_kwargs d1 = d_kwargs d2 ->
  variants (last_comp (d_use d1)) (last_comp (d_use d2)) f1 f2.
Proof.
  intros o d1 d2 r f1 r1 r' f2 r2 HC H1 H2 S1 S2 HK HA HW.
  assert (EA : extra_args pc d1 = extra_args pc d2) by (unfold extra_args; congruence).
  assert (EK : extra_kwargs pc d1 = extra_kwargs pc d2) by (unfold extra_kwargs; congruence).
  apply func_parts in H1. destruct H1 as (n1 & doc1 & a1 & t1 & N1 & D1 & P1 & R1 & ->).
  apply func_parts in H2. destruct H2 as (n2 & doc2 & a2 & t2 & N2 & D2 & P2 & R2 & ->).
  rewrite N1 in N2. injection N2 as <-.
  rewrite (doc_ext d1 d2) in D1 by assumption. rewrite (params_ext d1 d2) in P1 by assumption.
  assert (doc1 = doc2) by (destruct (indep_doc st s pc doc_of d2 o (coll o)) as [_ I]; rewrite (I r' r HC) in D2; congruence).
  assert (a1 = a2) by (destruct (indep_parameters c st s pc d2 o) as [_ I]; rewrite (I r' r HC) in P2; congruence).
  assert (t1 = t2) by (destruct (indep_return_annotation st s o (coll o)) as [_ I]; rewrite (I r' r HC) in R2; congruence).
  subst. rewrite S1, S2. unfold the_call. rewrite S1, S2, HK. unfold pass_args, pass_kwargs. rewrite EA, EK.
  rewrite !app_comm_cons.
  destruct (d_kind d2); apply var_call || apply var_stream.
Qed.
(** all functions of one plugin run are made from the same registry *)
Theorem plugin_functions : forall ops r fs r', generate_functions c st s pc doc_of ops r = (Ok fs, r') ->
  exists F, fs = flat_map (fun o => map (F o) (definitions_for pc o)) ops
  /\ forall o d, In o ops -> In d (definitions_for pc o) -> exists r1 r2, core r1 = core r /\ generate_operation_func c st s pc doc_of o d r1 = (Ok (F o d), r2).
Proof.
  intros ops r fs r' H.
  set (F := fun o d => match fst (generate_operation_func c st s pc doc_of o d r) with Ok f => f | Err _ => SPass end).
  assert (S1 : forall o ds r0 l r1, core r0 = core r -> mmap (generate_operation_func c st s pc doc_of o) ds r0 = (Ok l, r1) ->
     core r1 = core r /\ l = map (F o) ds /\ forall d, In d ds -> exists r1 r2, core r1 = core r /\ generate_operation_func c st s pc doc_of o d r1 = (Ok (F o d), r2)).
  { intros o. induction ds as [|d ds IH]; intros r0 l r1 E HM; cbn in HM; minv; [repeat split; [assumption|easy]|].
    destruct (indep_at _ r _ _ _ (indep_func c st s pc doc_of o d) E H0) as [A1 C1].
    assert (FE : F o d = a) by (unfold F; now rewrite A1).
    destruct (IH _ _ _ C1 H1) as (C2 & -> & G). repeat split; [assumption|cbn; now rewrite FE|].
    intros d' [<-|Hd]; [|auto]. exists r0, r2. rewrite FE. auto. }
  exists F. unfold generate_functions, mconcat in H. minv.
  enough (G : forall ops r0 l r1, core r0 = core r -> mmap (fun o => mmap (generate_operation_func c st s pc doc_of o) (definitions_for pc o)) ops r0 = (Ok l, r1) ->
    l = map (fun o => map (F o) (definitions_for pc o)) ops
    /\ forall o d, In o ops -> In d (definitions_for pc o) -> exists r1 r2, core r1 = core r /\ generate_operation_func c st s pc doc_of o d r1 = (Ok (F o d), r2)).
  { destruct (G _ _ _ _ eq_refl H0) as [-> G2]. split; [|exact G2]. now rewrite flat_map_concat_map. }
  clear H0. clear a r0. induction ops0 as [|o os IH]; intros r0 l r1 E HM; cbn in HM; minv; [split; [reflexivity|easy]|].
  destruct (S1 _ _ _ _ _ E H) as (C1 & -> & G). destruct (IH _ _ _ C1 H0) as [-> G2]. split; [reflexivity|].
  intros o' d [<-|Ho] Hd; auto.
Qed.
End Variants.

(** ** input factory functions *)
Section Factory.
Variable c : gconfig.
Variable st : list styler.
Variable s : schema.
Variable pc : ifcfg.
Notation node := (generate_node_name st).
Variable glob : string -> option pv.
Variable subclass : string -> string -> bool.
Variable call : pv -> list pv -> list (string * pv) -> PySem.pres pv.
Notation exb := (exec_block glob subclass call).

Lemma input_func_ok : forall n fields r f r', generate_input_func c st s pc n fields r = (Ok f, r') ->
  exists cls doc p, dget n (r_inputs r) = Some cls /\ params_shape c st fields p
  /\ (doc = [] \/ exists t, doc = [docstring t])
  /\ f = SFunc false (let x := i_prepend pc +s+ generate_parameter_name st n in if String.eqb x cls then x +s+ "_" else x)
           (PyArgs (p_pos p ++ p_kw p) (p_def p))
           (doc ++ NewDict "data" :: map (fun kf => Assign (unset_name c) (nonnullb (if_type (snd kf))) "data" (fst kf) (node (fst kf))) fields
                ++ [SReturn (Some (ECall (EName cls) [] [(None, EName "data")]))]) (Some (EName cls)) [].
Proof.
  intros n fields r f r' H. unfold generate_input_func in H.
  apply bind_ok in H. destruct H as (cls & r1 & H1 & H).
  apply bind_ok in H. destruct H as (p & r2 & H2 & H). apply input_type_params_ok in H2.
  apply bind_ok in H. destruct H as (doc & r3 & H3 & H).
  apply bind_ok in H. destruct H as (h & r4 & H4 & H). apply new_dict_ok in H4. subst h.
  apply bind_ok in H. destruct H as (b & r5 & H5 & H).
  assert (B : b = map (fun kf => Assign (unset_name c) (nonnullb (if_type (snd kf))) "data" (fst kf) (node (fst kf))) fields).
  { eapply mmap_map; [|exact H5]. intros [k x] r7 y r8 _ E. now apply assign_or_guard_ok in E. }
  apply ret_ok in H. destruct H as [-> _].
  assert (HC : dget n (r_inputs r) = Some cls) by (unfold get_inputtype_class in H1; minv; assumption).
  exists cls, doc, p. rewrite B. repeat split; auto.
  - apply H2. - apply H2. - apply H2.
  - destruct (i_extract_documentation pc); minv; eauto.
Qed.
Lemma object_provided : forall us args fields,
  object_of node us args fields = map (fun kv => (PVConst (CStr (fst kv)), snd kv)) (provided_fields node us args fields).
Proof.
  intros us args fields. unfold object_of, provided_fields, entry. induction fields as [|kf l IH]; [reflexivity|]. cbn. rewrite map_app, IH. f_equal.
  destruct (dget (node (fst kf)) args); [|reflexivity]. destruct (_ || _); reflexivity.
Qed.
Lemma spread_dict : forall l, spread (PVDict (map (fun kv : string * pv => (PVConst (CStr (fst kv)), snd kv)) l)) = POk l.
Proof. intros l. unfold spread. induction l as [|[k v] l IH]; [reflexivity|]. cbn in *. now rewrite IH. Qed.
Theorem factory : forall n fields r f r' a fn args body rt decs us k cls pos kws env,
  generate_input_func c st s pc n fields r = (Ok f, r') -> f = SFunc a fn args body rt decs ->
  dget n (r_inputs r) = Some cls -> NoDup (map fst fields) ->
  let u := sentinel_name (c_unset_instance c) in
  no_clash (map pa_name (a_args args)) ["data"] [u; cls] ->
  glob u = Some (PVSing us) -> glob cls = Some (PVClass k) ->
  binds glob subclass call args pos kws env ->
  let sent := provided_fields node (PVSing us) (passed args pos kws) fields in
  run_body glob subclass call body env = call (PVClass k) [] sent
  /\ (forall key x, In (key, x) fields -> nonnullb (if_type x) = true ->
        exists v, dget (node key) (passed args pos kws) = Some v /\ In (key, v) sent).
Proof.
  intros n fields r f r' a fn args body rt decs us k cls pos kws env HG -> HC HN u NC Gu Gc HB sent.
  apply input_func_ok in HG. destruct HG as (cls' & doc & p & HC' & (S1 & S2 & S3) & HD & [= -> -> -> -> -> ->]).
  rewrite HC in HC'. injection HC' as <-.
  set (args := PyArgs (p_pos p ++ p_kw p) (p_def p)) in *.
  assert (P1 : map pa_name (a_args args) = map pa_name (p_pos p) ++ map pa_name (p_kw p)) by (cbn; apply map_app).
  assert (P2 : length (a_defaults args) = length (map pa_name (p_kw p))) by (cbn; now rewrite S3, !map_length).
  assert (SN := signature_names _ _ _ P1 P2). assert (SS := signature_split _ _ _ P1 P2).
  destruct NC as [NC1 NC2 NC3 NC4]. rewrite <- SN in NC1.
  assert (EN := binds_names _ _ _ _ _ _ _ HB).
  assert (Hnone : forall x, ~ In x (map pa_name (a_args args)) -> dget x env = None).
  { intros x Hx. apply dget_None. unfold dkeys. now rewrite EN, SN. }
  assert (Breq : forall x, In x (map pa_name (p_pos p)) -> bound us (passed args pos kws) env true x /\ exists v, dget x (passed args pos kws) = Some v).
  { intros x Hx. assert (I : In (x, None) (signature args)).
    { rewrite SS. apply in_or_app. left. apply (in_map (fun x : string => (x, @None expr))) in Hx. exact Hx. }
    destruct (binds_value _ _ _ _ _ _ _ _ _ HB NC1 I) as (v & Hv & W). unfold bound.
    destruct (dget x (passed args pos kws)); [split; [congruence|eauto]|]. destruct W as (? & [=] & _). }
  assert (Bopt : forall x, In x (map pa_name (p_kw p)) -> bound us (passed args pos kws) env false x).
  { intros x Hx. assert (I : In (x, Some (EName u)) (signature args)).
    { rewrite SS. apply in_or_app. right. cbn. rewrite S3, map_map. unfold u. rewrite <- sentinel_eq.
      clear - Hx. induction (p_kw p) as [|y l IH]; [easy|]. cbn. destruct Hx as [<-|Hx]; [now left|right; auto]. }
    destruct (binds_value _ _ _ _ _ _ _ _ _ HB NC1 I) as (v & Hv & W). unfold bound.
    destruct (dget x (passed args pos kws)); [congruence|]. destruct W as (e & [= <-] & E). cbn in E. rewrite Gu in E.
    injection E as <-. auto. }
  assert (Ipos : forall key x, In (key, x) fields -> nonnullb (if_type x) = true -> In (node key) (map pa_name (p_pos p))).
  { intros key x I E. rewrite S1. apply in_map_iff. exists (key, x). split; [reflexivity|]. apply filter_In. cbn. now rewrite E. }
  assert (Ikw : forall key x, In (key, x) fields -> nonnullb (if_type x) = false -> In (node key) (map pa_name (p_kw p))).
  { intros key x I E. rewrite S2. apply in_map_iff. exists (key, x). split; [reflexivity|]. apply filter_In. cbn. now rewrite E. }
  destruct (NC3 u (or_introl eq_refl)) as (Cu1 & Cu2 & _).
  destruct (NC3 cls) as (Cc1 & Cc2 & _); [now right; left|].
  assert (NP : forall x, In x (map pa_name (p_pos p)) \/ In x (map pa_name (p_kw p)) -> x <> "data").
  { intros x Hx E. apply (NC2 x); [rewrite P1; now apply in_or_app|]. left. now symmetry. }
  split.
  2: { intros key x I E. destruct (Breq _ (Ipos _ _ I E)) as [_ [v Hv]]. exists v. split; [exact Hv|].
       unfold sent, provided_fields. apply in_flat_map. exists (key, x). split; [exact I|]. cbn [fst snd]. rewrite Hv, E. now left. }
  set (last := SReturn (Some (ECall (EName cls) [] [(None, EName "data")]))).
  edestruct (exec_fields glob subclass call u us Gu (passed args pos kws) node (fun f => nonnullb (if_type f)) "data" fields
               (dset "data" (PVDict []) env) [] [last]) as (env1 & E1 & D1 & O1).
  { rewrite dget_dset. destruct (String.eqb_spec u "data") as [E|]; [|now apply Hnone]. destruct Cu2. now left. }
  { intros E. apply Cu2. now left. }
  { reflexivity || now rewrite dget_dset. }
  { exact HN. }
  { intros ? ? []. }
  { intros key x I.
    assert (W : node key <> "data" /\ bound us (passed args pos kws) env (nonnullb (if_type x)) (node key)).
    { destruct (nonnullb (if_type x)) eqn:E; split; [apply NP; left; eauto|apply Breq; eauto|apply NP; right; eauto|apply Bopt; eauto]. }
    destruct W as [W1 W2]. split; [exact W1|]. unfold bound in *. rewrite dget_dset.
    destruct (String.eqb_spec (node key) "data"); [contradiction|exact W2]. }
  cbn [app] in D1. unfold run_body.
  assert (RUN : exb (doc ++ NewDict "data" :: map (fun kf => Assign (unset_name c) (nonnullb (if_type (snd kf))) "data" (fst kf) (node (fst kf))) fields ++ [last]) env = exb [last] env1).
  { replace (unset_name c) with u by (symmetry; apply sentinel_eq).
    destruct HD as [->|[t ->]]; unfold docstring; cbn [app exec_block exec eval pbind snd fst]; exact E1. }
  fold last. rewrite RUN. cbn [exec_block]. unfold last. cbn [exec]. cbn [eval pmap].
  assert (Hc : dget cls env1 = None).
  { rewrite O1, dget_dset; [|intros ->; apply Cc2; now left]. destruct (String.eqb_spec cls "data") as [->|]; [destruct Cc2; now left|]. now apply Hnone. }
  rewrite Hc, Gc. cbn [pbind fst snd]. rewrite (eval_local _ _ _ _ _ _ D1). cbn [pbind].
  assert (SP : spread (PVDict (flat_map (fun kf : string * inputfield => entry (PVSing us) (passed args pos kws) (nonnullb (if_type (snd kf))) (fst kf) (node (fst kf))) fields)) = POk sent).
  { change (spread (PVDict (object_of node (PVSing us) (passed args pos kws) fields)) = POk sent). rewrite object_provided. apply spread_dict. }
  rewrite SP. cbn [pbind concat]. rewrite app_nil_r.
  assert (AP : apply subclass call (PVClass k) [] sent = call (PVClass k) [] sent).
  { unfold apply. clear. do 5 (destruct k as [|[[] [] [] [] [] [] [] []] k]; try reflexivity). }
  rewrite AP. destruct (call (PVClass k) [] sent); reflexivity.
Qed.
End Factory.
