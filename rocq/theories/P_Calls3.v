(** Names looked up by generated functions: the functions. *)
From Verif Require Import Base PyAst Gql Config Stylers Registry Utils Documents Inline Referencer Enums Inputs Recurse Fragments Operations Objects Funcs InputFuncs Run
  Spec_Types Spec_Inputs Spec_Imports Spec_Scope Spec_Refs Spec_Funcs Spec_Classes Spec_Calls
  P_Base P_Monad P_Stylers P_Inputs P_Annot P_Recurse P_Fields P_Post P_Imports P_InlineProps P_Return P_Funcs P_Funcs2 P_Scope P_Classes P_Calls P_Calls2.
Arguments register_import : simpl never.
Arguments register_builtin : simpl never.
Ltac mb H x r Hx := apply bind_ok in H; destruct H as (x & r & Hx & H).

Lemma checked_incl : forall L G l h h', incl h h' -> checked L G h l -> checked L G h' l.
Proof.
  intros L G. induction l as [|x l IH]; intros h h' I H; [exact Logic.I|]. destruct H as (H1 & H2). split; [intros n Hn; eapply okn_incl; [exact I|auto]|].
  eapply IH; [|exact H2]. intros n Hn. apply in_app_iff in Hn. apply in_app_iff. destruct Hn; auto.
Qed.
Lemma checked_app : forall L G a b h, checked L G h a -> checked L G h b -> checked L G h (a ++ b).
Proof.
  intros L G. induction a as [|x a IH]; intros b h H1 H2; [exact H2|]. destruct H1 as (H0 & H1). split; [exact H0|]. apply IH; [exact H1|].
  eapply checked_incl; [|exact H2]. now apply incl_appr.
Qed.
Lemma checked_flat : forall {A} L G (f : A -> list stmt) l h, (forall x, In x l -> checked L G h (f x)) -> checked L G h (flat_map f l).
Proof. intros A L G f. induction l as [|x l IH]; intros h H; [exact I|]. cbn. apply checked_app; [apply H; now left|]. apply IH. intros y Hy. apply H. now right. Qed.

Section Fn.
Variables (bi : list string) (Hbi : incl simple_types bi).
Variables (c : gconfig) (st : list styler) (s : schema).
Notation u := (unset_name c).
Lemma unset_given : forall r e r', reference_unset c r = (Ok e, r') -> given bi r' u.
Proof.
  intros r e r' H. unfold reference_unset, reference_override, unset_name in *.
  assert (BU : forall r1 r2 x, register_builtin "UNSET" r1 = (Ok x, r2) -> given bi r2 "UNSET").
  { intros r1 r2 x Hx. cbn in Hx. injection Hx as _ <-. eapply builtin_given; [cbn; apply sadd_In; auto|reflexivity|cbn; tauto]. }
  destruct (c_unset_instance c) as [o|]; [destruct (truthy (Some o))|]; mb H x r1 Hx; apply ret_ok in H as (_ & ->); [|eauto|eauto]. eapply import_given; eassumption.
Qed.
Lemma guard_given : forall b d k p r x r', assign_or_guard c b d k p r = (Ok x, r') -> b = false -> given bi r' u.
Proof. intros b d k p r x r' H ->. unfold assign_or_guard, guarded_assign in H. mb H e r1 He. apply unset_given in He. apply ret_ok in H as (_ & ->). exact He. Qed.
Lemma given_ev : forall {A} K (m : M A) r a r' n, ev st K m -> m r = (Ok a, r') -> given bi r n -> given bi r' n.
Proof. intros A K m r a r' n E H G. eapply given_rle; [|exact G]. eapply evolve_rle. eapply ev_ok; eassumption. Qed.
Lemma mmap_given : forall {A B} K (f : A -> M B) (Q : A -> Prop) n l r ys r', (forall x, ev st K (f x)) ->
  (forall x r y r', f x r = (Ok y, r') -> Q x -> given bi r' n) -> mmap f l r = (Ok ys, r') -> forall x, In x l -> Q x -> given bi r' n.
Proof.
  intros A B K f Q n. induction l as [|z l IH]; intros r ys r' E HQ H x Hx Qx; [destruct Hx|]. cbn [mmap] in H. mb H y r1 Hy. mb H zs r2 Hz. apply ret_ok in H as (_ & ->).
  destruct Hx as [->|Hx]; [|eapply IH; eassumption]. eapply (given_ev K); [apply ev_mmap; intros; apply E|exact Hz|]. eapply HQ; eassumption.
Qed.

(** *** functions for operations *)
Variable pc : fcfg.
Notation param := (generate_parameter_name st).
Notation node := (generate_node_name st).
Notation expand := (f_expand_input_types pc).
Definition guarded (v : vardef) : Prop :=
  if mem (v_name v) expand then exists kf, In kf (input_fields s (v_type v)) /\ nonnullb (if_type (snd kf)) = false else requiredb v = false.
Lemma assignment_given : forall v r l r', variable_assignment c st s pc v r = (Ok l, r') -> guarded v -> given bi r' u.
Proof.
  intros v r l r' H Gv. unfold variable_assignment, guarded in *. destruct (mem (v_name v) expand).
  - mb H t r1 Ht. mb H fl r2 Hf. mb H h r3 Hh. mb H b r4 Hb. apply ret_ok in H as (_ & ->). rewrite (expanded_fields s _ _ _ _ Ht _ _ _ Hf) in *. destruct Gv as (kf & Hk & Q).
    eapply (mmap_given Kf _ (fun kf => nonnullb (if_type (snd kf)) = false)); [| |exact Hb|exact Hk|exact Q].
    + intros x. apply ev_guard.
    + intros x ra y rb Hy Qx. cbn beta in Hy. eapply guard_given; [exact Hy|]. exact Qx.
  - mb H x r1 Hx. apply ret_ok in H as (_ & ->). eapply guard_given; [exact Hx|]. now rewrite required_eq.
Qed.
Lemma assignments_given : forall o r l r', generate_variable_assignments c st s pc o r = (Ok l, r') -> forall v, In v (op_vars o) -> guarded v -> given bi r' u.
Proof.
  intros o r l r' H v Hv Gv. unfold generate_variable_assignments in H. mb H h r1 Hh. mb H b r2 Hb. apply ret_ok in H as (_ & ->). apply mconcat_ok in Hb as (ys & Hb & _).
  eapply (mmap_given Kf _ guarded); [| |exact Hb|exact Hv|exact Gv]; [intros x; apply ev_assignment|]. intros x ra y rb Hy Gx. eapply assignment_given; eassumption.
Qed.
Definition inner (v : vardef) : string := "_" +s+ param (v_name v).
Lemma uses_Assign : forall b d k p n, In n (uses (Assign u b d k p)) -> n = p \/ n = d \/ (b = false /\ n = u).
Proof. intros b d k p n H. destruct b; cbn in H; intuition. Qed.
Lemma sets_Assign : forall b d k p, sets (Assign u b d k p) = [] /\ assigns (Assign u b d k p) = [].
Proof. intros [] d k p; split; reflexivity. Qed.
(** the names of the parameters *)
Lemma var_checked : forall L G h v, In "variables" h -> (mem (v_name v) expand = false -> In (param (v_name v)) h) ->
  (mem (v_name v) expand = true -> forall kf, In kf (input_fields s (v_type v)) -> In (node (fst kf)) h) ->
  (guarded v -> okn L G h u) -> checked L G h (var_assign c st s pc v).
Proof.
  intros L G h v HV HP HN HU. unfold var_assign, guarded in *. destruct (mem (v_name v) expand).
  - cbn zeta. split; [intros n []|]. cbn [sets NewDict app]. apply checked_app.
    + assert (X : forall fl, incl fl (input_fields s (v_type v)) ->
        checked L G (("_" +s+ param (v_name v)) :: h) (map (fun kf => Assign u (nonnullb (if_type (snd kf))) ("_" +s+ param (v_name v)) (fst kf) (node (fst kf))) fl)).
      { induction fl as [|kf fl IH]; intros IF; [exact I|]. cbn [map checked]. rewrite (proj1 (sets_Assign _ _ _ _)). split; [|apply IH; intros y Hy; apply IF; now right].
        intros n Hn. apply uses_Assign in Hn. destruct Hn as [->|[->|(E & ->)]]; [left; right; apply HN; [reflexivity|apply IF; now left]|left; now left|].
        eapply okn_incl; [|apply HU; exists kf; split; [apply IF; now left|exact E]]. intros m; now right. }
      apply X, incl_refl.
    + split; [|exact I]. intros n Hn. cbn in Hn. left. destruct Hn as [<-|[<-|[]]]; [now left|now right].
  - cbn [checked]. split; [|exact I]. intros n Hn. apply uses_Assign in Hn. destruct Hn as [->|[->|(E & ->)]]; [left; auto|now left|auto].
Qed.
Lemma var_assigns : forall v n, In n (flat_map assigns (var_assign c st s pc v)) -> mem (v_name v) expand = true /\ n = inner v.
Proof.
  intros v n H. unfold var_assign in H. destruct (mem (v_name v) expand).
  - split; [reflexivity|]. cbn zeta in H. cbn [flat_map assigns NewDict app] in H. destruct H as [H|H]; [now symmetry|]. exfalso. rewrite flat_map_app in H. apply in_app_iff in H as [H|H]; [|destruct H].
    apply in_flat_map in H as (x & Hx & H). apply in_map_iff in Hx as (kf & <- & _). now rewrite (proj2 (sets_Assign _ _ _ _)) in H.
  - cbn [flat_map] in H. rewrite (proj2 (sets_Assign _ _ _ _)) in H. destruct H.
Qed.
Lemma func_callable : forall doc_of o d r f r', In d (definitions_for pc o) ->
  no_optional_expansion expand (op_vars o) ->
  (forall n g, op_name o = Some n -> In g (meant_global c st o n d) -> ~ In g (own_names st pc o)) ->
  generate_operation_func c st s pc doc_of o d r = (Ok f, r') ->
  callable (fun n => given bi r' n \/ exists m, op_name o = Some m /\ n = Spec_Funcs.operation_class st (op_kind o) m) f.
Proof.
  intros doc_of o d r f r' Hd HE HA H. pose proof (func_ok c st s pc doc_of o d r f r' H) as (name & doc & args & rt & r1 & r2 & HN & HP & ->).
  apply (parameters_spec c st s pc d o r1 args r2 HE) in HP as (HP & _).
  assert (HU : forall v, In v (op_vars o) -> guarded v -> given bi r' u).
  { intros v Hv Gv. clear HP. unfold generate_operation_func in H. mb H a1 q1 H1. mb H a2 q2 H2. mb H a3 q3 H3. mb H a4 q4 H4. mb H a5 q5 H5. mb H a6 q6 H6. mb H a7 q7 H7. apply ret_ok in H as (_ & ->).
    assert (X := assignments_given o _ _ _ H3 v Hv Gv).
    eapply (given_ev Kf); [apply ev_call|exact H7|]. eapply (given_ev Kf); [apply ev_parameters|exact H6|]. eapply (given_ev Kf); [|exact H5|]; [unfold func_name, Kf; ev_tac|].
    eapply (given_ev Kf); [|exact H4|exact X]. unfold Kf. destruct (op_kind o); ev_tac. }
  assert (HD : given bi r' (last_comp (d_use d))).
  { unfold generate_operation_func in H. mb H a1 q1 H1. mb H a2 q2 H2. mb H a3 q3 H3. mb H a4 q4 H4. mb H a5 q5 H5. mb H a6 q6 H6. mb H a7 q7 H7. apply ret_ok in H as (_ & ->).
    unfold call_stmt, proxy_call in H7. mb H7 b1 q8 H8. mb H8 b2 q9 H9. mb H8 b3 q10 H10. apply ret_ok in H8 as (_ & ->). apply (import_given bi Hbi) in H9.
    assert (Y : given bi q10 (last_comp (d_use d))) by (eapply (given_ev Kf); [apply ev_class_name|exact H10|exact H9]).
    destruct (d_kind d); mb H7 b4 q11 H11; apply ret_ok in H7 as (_ & ->); (eapply (given_ev Kf); [apply ev_collapsed|exact H11|exact Y]). }
  clear H. set (G := fun n => _). apply checked_callable. set (params := map pa_name (a_args args)) in *. set (L := params ++ _).
  assert (KD : d_kind d = op_kind o).
  { unfold definitions_for in Hd. apply filter_In in Hd as (_ & Hd). destruct (d_kind d), (op_kind o); try discriminate; reflexivity. }
  assert (HL : incl L (params ++ "variables" :: own_names st pc o)).
  { subst L. apply incl_app; [apply incl_appl, incl_refl|]. apply incl_appr. intros n Hn. cbn [flat_map assigns docstring app] in Hn. cbn [NewDict assigns app] in Hn. destruct Hn as [<-|Hn]; [now left|right].
    rewrite flat_map_app in Hn. unfold own_names. apply in_app_iff in Hn as [Hn|Hn]; apply in_app_iff.
    - right. apply in_flat_map in Hn as (x & Hx & Hn). apply in_flat_map in Hx as (v & Hv & Hx). assert (Y : In n (flat_map assigns (var_assign c st s pc v))) by (apply in_flat_map; eauto).
      apply var_assigns in Y as (Y & ->). apply in_map_iff. exists v. split; [reflexivity|]. apply filter_In. auto.
    - left. unfold the_call in Hn. rewrite KD in Hn. destruct (op_kind o); cbn in Hn; exact Hn. }
  assert (GL : forall g, In g (meant_global c st o name d) -> G g -> okn L G ("variables" :: params) g).
  { intros g Hg HGg. destruct (in_dec string_dec g ("variables" :: params)) as [Y|Y]; [now left|]. right. split; [|exact HGg]. intros Z. apply HL in Z. apply in_app_iff in Z as [Z|[Z|Z]].
    - apply Y. now right. - apply Y. now left. - exact (HA name g HN Hg Z). }
  cbn [checked]. split; [intros n []|]. cbn [sets docstring app checked]. split; [intros n []|]. cbn [sets NewDict]. change (["variables"] ++ params) with ("variables" :: params).
  apply checked_app.
  - apply checked_flat. intros v Hv. apply var_checked; [now left| | |].
    + intros M. right. subst params. rewrite HP. unfold required_parameters, optional_parameters. rewrite !in_app_iff.
      assert (Z : In (param (v_name v)) (plain_names param expand (op_vars o) (requiredb v))).
      { unfold plain_names. apply in_map_iff. exists v. split; [reflexivity|]. apply filter_In. split; [exact Hv|]. now rewrite M, eqb_reflx. }
      destruct (requiredb v); auto.
    + intros M kf Hk. right. subst params. rewrite HP. unfold required_parameters, optional_parameters. rewrite !in_app_iff.
      assert (Z : In (node (fst kf)) (expanded_names s node expand (op_vars o) (nonnullb (if_type (snd kf))))).
      { unfold expanded_names. apply in_flat_map. exists v. split; [exact Hv|]. rewrite M. apply in_map_iff. exists kf. split; [reflexivity|]. apply filter_In. split; [exact Hk|apply eqb_reflx]. }
      destruct (nonnullb _); auto.
    + intros Gv. apply GL; [rewrite sentinel_eq; right; right; now left|]. left. eauto.
  - assert (UC : forall n, In n (loads (ECall (EName (last_comp (d_use d))) (pass_args pc d ++ [EName (Spec_Funcs.operation_class st (op_kind o) name); EName "variables"]) (pass_kwargs pc d))) -> okn L G ("variables" :: params) n).
    { intros n Hn. cbn [loads] in Hn. rewrite flat_map_app, !in_app_iff in Hn. destruct Hn as [[<-|[]]|[[Hn|Hn]|Hn]].
      - apply GL; [right; now left|]. now left.
      - left. right. subst params. rewrite HP. unfold required_parameters. rewrite !in_app_iff. left; left. unfold pass_args in Hn. apply in_flat_map in Hn as (x & Hx & Hn).
        apply in_map_iff in Hx as (y & <- & Hy). destruct Hn as [<-|[]]. now apply in_map.
      - cbn in Hn. destruct Hn as [<-|[<-|[]]]; [apply GL; [now left|right; eauto]|left; now left].
      - left. right. subst params. rewrite HP. unfold optional_parameters. rewrite !in_app_iff. right; right; right. unfold pass_kwargs in Hn. apply in_flat_map in Hn as (x & Hx & Hn).
        apply in_map_iff in Hx as (y & <- & Hy). destruct Hn as [<-|[]]. now apply in_map. }
    assert (UA : forall attr e n, In n (loads (get_attr attr e)) -> In n (loads e)) by (intros [a|] e n Hn; exact Hn).
    unfold the_call. cbn zeta. destruct (d_kind d); split; try exact I; intros n Hn; cbn [uses opt_loads] in Hn.
    1,2: apply UA in Hn; apply UC; destruct (d_async d); exact Hn.
    apply in_app_iff in Hn as [Hn|Hn]; [now apply UC|]. apply filter_In in Hn as (Hn & M). cbn [flat_map uses loads] in Hn. rewrite app_nil_r in Hn. apply UA in Hn. cbn in Hn. destruct Hn as [<-|[]]. discriminate.
Qed.
End Fn.
