(** The parameters for the fields of expanded variables. *)
From Verif Require Import Base PyAst Gql Config Stylers Registry Utils Enums Inputs Recurse Funcs
  Spec_Types Spec_Inputs Spec_Imports Spec_Refs Spec_Funcs Spec_Classes Spec_Annot Spec_Params
  P_Base P_Monad P_Inputs P_Funcs P_Funcs2 P_Calls2 P_Params P_Params2 P_Annot P_Loaders.

Section Expanded.
Variables (c : gconfig) (st : list styler) (s : schema) (pc : fcfg) (sc : dict string).
Hypothesis HB : no_helper_enum s.
Notation leaf := (param_leaf s sc st (fun n => dget n (f_coercible_scalars pc)) (fun n => dget n (f_coercible_inputs pc))).
Notation fparam := (field_param leaf (unset_class (c_unset_type_class c)) st).
Lemma fields_params : forall fields r p r', at_params st sc r -> generate_input_type_params c st s pc fields r = (Ok p, r') ->
  forall k y, In (k, y) fields -> exists a, In a (p_pos p ++ p_kw p) /\ fparam k y a.
Proof.
  intros fields r p r' HA H k y Hk. unfold generate_input_type_params in H. eapply (params_loop c st s pc sc HB) in H; [|exact HA].
  destruct H as (pos & kw & E1 & E2 & F1 & F2). cbn [p_pos p_kw pnil app] in E1, E2. subst pos kw. destruct (nullable y) eqn:N.
  - destruct (Forall2_In_l _ _ _ (k, y) F2) as (a & Ia & EN & e & EA & HT); [apply filter_In; auto|]. exists a. split; [apply in_app_iff; now right|].
    split; [exact EN|]. exists e. split; [exact EA|]. intros x. rewrite HT, N. cbn [snd]. intuition.
  - destruct (Forall2_In_l _ _ _ (k, y) F1) as (a & Ia & EN & e & EA & HT); [apply filter_In; cbn [snd]; rewrite N; auto|]. exists a. split; [apply in_app_iff; now left|].
    split; [exact EN|]. exists e. split; [exact EA|]. intros x. rewrite HT, N. cbn [snd]. intuition discriminate.
Qed.
Ltac go := unfold Kf in *; repeat (cbn beta zeta; first [ev_one | match goal with |- ev _ _ (match ?x with _ => _ end) => destruct x end]).
Lemma expanded_loop : forall vs acc r p r', at_params st sc r ->
  mfold (fun acc v =>
      if mem (v_name v) (f_expand_input_types pc) then
        let* t := expanded_type s v in
        let* fields := fields_of t in
        let* p := generate_input_type_params c st s pc fields in
        ret (papp acc p)
      else ret acc) vs acc r = (Ok p, r') ->
  (forall a, In a (p_pos acc ++ p_kw acc) -> In a (p_pos p ++ p_kw p))
  /\ forall v, In v vs -> In (v_name v) (f_expand_input_types pc) -> forall k y, In (k, y) (input_fields s (v_type v)) -> exists a, In a (p_pos p ++ p_kw p) /\ fparam k y a.
Proof.
  induction vs as [|w vs IH]; intros acc r p r' HA H; cbn [mfold] in H; [apply ret_ok in H as (-> & _); split; [auto|intros v []]|].
  apply bind_ok in H as (acc1 & r1 & H1 & H). destruct (mem_spec (v_name w) (f_expand_input_types pc)) as [I|I].
  - apply bind_ok in H1 as (t & r2 & H2 & H1). apply bind_ok in H1 as (fs & r3 & H3 & H1). apply bind_ok in H1 as (q & r4 & H4 & H1). apply ret_ok in H1 as (-> & ->).
    assert (A2 : at_params st sc r2) by (eapply (at_ok st sc); [|exact H2|exact HA]; unfold expanded_type; go).
    assert (A3 : at_params st sc r3) by (eapply (at_ok st sc); [|exact H3|exact A2]; unfold fields_of; go).
    pose proof (expanded_fields _ _ _ _ _ H2 _ _ _ H3) as EF. pose proof (fields_params _ _ _ _ A3 H4) as FP.
    assert (A4 : at_params st sc r4) by (eapply (at_ok st sc); [apply ev_input_params|exact H4|exact A3]).
    destruct (IH _ _ _ _ A4 H) as (K & R). unfold papp in K. cbn [p_pos p_kw] in K. split.
    + intros a Ha. apply K. rewrite !in_app_iff in *. tauto.
    + intros v [<-|Hv] Hi k y Hk; [|eapply R; eassumption]. rewrite EF in FP. destruct (FP k y Hk) as (a & Ha & Q). exists a. split; [|exact Q]. apply K. rewrite !in_app_iff in *. tauto.
  - apply ret_ok in H1 as (-> & ->). destruct (IH _ _ _ _ HA H) as (K & R). split; [exact K|]. intros v [<-|Hv] Hi; [now destruct I|]. intros k y Hk. eapply R; eassumption.
Qed.
End Expanded.
Theorem run_expanded : forall c st s pc doc_of o d r a n args body rt decs r', names_styled st r -> no_helper_enum s ->
  NoDup (dkeys (f_coercible_scalars pc)) -> NoDup (dkeys (f_coercible_inputs pc)) ->
  generate_operation_func c st s (merged_config c pc) doc_of o d r = (Ok (SFunc a n args body rt decs), r') ->
  forall v, In v (op_vars o) -> required_var v -> In (v_name v) (f_expand_input_types pc) -> forall k y, In (k, y) (input_fields s (v_type v)) ->
  exists p, In p (a_args args)
  /\ field_param (param_leaf s (r_scalars r) st (coerced (f_coercible_scalars pc) (c_coercible_scalars c)) (coerced (f_coercible_inputs pc) (c_coercible_inputs c)))
       (unset_class (c_unset_type_class c)) st k y p.
Proof.
  intros c st s pc doc_of o d r a n args body rt decs r' HN HB D1 D2 H v Hv RQ HE k y Hk. apply func_parts in H as (name & doc & args' & rt' & _ & _ & HP & _ & E). injection E as -> -> -> _ _ _.
  destruct (generate_parameters c st s (merged_config c pc) d o r) as [x r1] eqn:G. cbn [fst] in HP. subst x.
  unfold generate_parameters in G. cbn zeta in G. apply bind_ok in G as (ex & r2 & H1 & G). apply bind_ok in G as (xp & r3 & H2 & G).
  apply bind_ok in G as (pl & r4 & _ & G). apply bind_ok in G as (op & r5 & _ & G). apply bind_ok in G as (kw & r6 & _ & G). apply ret_ok in G as (-> & _). cbn [a_args].
  assert (A2 : at_params st (r_scalars r) r2) by (eapply (at_ok st); [|exact H1|split; [exact HN|reflexivity]]; unfold Kf; ev_tac).
  destruct (expanded_loop c st s (merged_config c pc) (r_scalars r) HB _ _ _ _ _ A2 H2) as (_ & R).
  destruct (R v) with (k := k) (y := y) as (p & Ip & EN & e & EA & HT); [apply filter_In; split; [exact Hv|now apply required_is]|exact HE|exact Hk|].
  exists p. split; [rewrite !in_app_iff in *; tauto|]. split; [exact EN|]. exists e. split; [exact EA|]. intros z. rewrite HT. apply or_iff_compat_r. apply leaf_ext.
  intros m x. unfold param_leaf, coerced, merged_config. cbn [f_coercible_scalars f_coercible_inputs]. rewrite !dget_dmerge by assumption. reflexivity.
Qed.
