(** The parameters of the factories of a run. *)
From Verif Require Import Base PyAst Gql Config Stylers Registry Utils Documents Inline Referencer Enums Inputs Recurse Fragments Operations Objects Funcs InputFuncs Run
  Spec_Types Spec_Inputs Spec_Imports Spec_Refs Spec_Funcs Spec_Classes Spec_Factories Spec_Annot Spec_Params
  P_Base P_Monad P_Inputs P_Funcs P_Funcs2 P_Calls2 P_Calls4 P_Calls5 P_Factories P_Build P_Params P_Annot P_Loaders.

Section Params.
Variables (c : gconfig) (st : list styler) (s : schema) (fc : ifcfg).
Hypothesis HB : no_helper_enum s.
Hypothesis D1 : NoDup (dkeys (i_coercible_scalars fc)).
Hypothesis D2 : NoDup (dkeys (i_coercible_inputs fc)).
Definition factory_takes (scalars : dict string) (omit : inputfield -> bool) (fields : list (string * inputfield)) : pyargs -> Prop :=
  params_of (param_leaf s scalars st (coerced (i_coercible_scalars fc) (c_coercible_scalars c)) (coerced (i_coercible_inputs fc) (c_coercible_inputs c)))
    (unset_class (c_unset_type_class c)) st omit fields.
Lemma takes_loop : forall refd ts r l r', names_styled st r ->
  mmap (fun kt => match snd kt with
    | TInput _ fields _ =>
        let skip := match refd with Some refs => negb (mem (fst kt) refs) | None => false end in
        if skip || (i_skip_underscore (merged_ifcfg c fc) && startswith "_" (fst kt)) then ret []
        else let* m := gets r_inputs in
          if dmem (fst kt) m then let* f := generate_input_func c st s (merged_ifcfg c fc) (fst kt) fields in ret [f] else ret []
    | _ => ret [] end) ts r = (Ok l, r') ->
  Forall (fun f => exists key d fields dirs args body, In (key, TInput d fields dirs) ts
    /\ f = SFunc false (factory_name st (i_prepend fc) key) args body (Some (EName (input_class st key))) [] /\ factory_takes (r_scalars r) nullable fields args) (concat l).
Proof.
  intros refd. induction ts as [|[k t] ts IH]; intros r l r' HN H; cbn [mmap fst snd] in *; [apply ret_ok in H as (-> & _); constructor|].
  apply bind_ok in H as (a & r1 & H1 & H). apply bind_ok in H as (b & r2 & H2 & H). apply ret_ok in H as (-> & _). cbn [concat].
  assert (V : evolve st Kall r r1 /\ Forall (fun f => exists d fields dirs args body, t = TInput d fields dirs
    /\ f = SFunc false (factory_name st (i_prepend fc) k) args body (Some (EName (input_class st k))) [] /\ factory_takes (r_scalars r) nullable fields args) a).
  { destruct t as [| | | | |d fields dirs]; try (apply ret_ok in H1 as (-> & ->); split; [apply ev_refl|constructor]).
    cbn zeta in H1. destruct (_ || _); [apply ret_ok in H1 as (-> & ->); split; [apply ev_refl|constructor]|].
    apply bind_ok in H1 as (m & r3 & H3 & H1). unfold gets in H3. injection H3 as <- <-. destruct (dmem k (r_inputs r)); [|apply ret_ok in H1 as (-> & ->); split; [apply ev_refl|constructor]].
    apply bind_ok in H1 as (f & r4 & H4 & H1). apply ret_ok in H1 as (-> & ->). split.
    - eapply ev_ok; [|exact H4]. eapply ev_weak; [|apply ev_input_func]. intros x; cbn; tauto.
    - constructor; [|constructor]. destruct (factory_shape c st s _ _ _ _ _ _ HN H4) as (args & fbody & ->). exists d, fields, dirs, args. eexists.
      split; [reflexivity|]. split; [reflexivity|]. eapply (factory_params c st s fc); [exact HN|exact HB|exact D1|exact D2|exact H4]. }
  destruct V as (V & FA). apply Forall_app. split.
  - eapply Forall_impl; [|exact FA]. cbn beta. intros f (d & fields & dirs & args & body & -> & E & P). exists k, d, fields, dirs, args, body. split; [now left|auto].
  - assert (E : r_scalars r1 = r_scalars r) by (eapply (frame_scalars st Kall); [cbn; intuition discriminate|exact V]).
    eapply Forall_impl; [|exact (IH _ _ _ (names_styled_evolve _ _ _ _ V HN) H2)]. cbn beta. intros f (k' & d & fields & dirs & args & body & I & E' & P).
    exists k', d, fields, dirs, args, body. rewrite E in P. split; [now right|auto].
Qed.
End Params.

Theorem run_params : forall c st s ps1 ps2 t0 r r1 r2 r3 ic fc docs docs' li lf tree t,
  Forall (beside_plugin c st s) ps1 -> Forall (beside_plugin c st s) ps2 ->
  run_plugins ps1 (init_reg c) [] = Ok (t0, r) -> inputs_plugin c st ic s docs r = (Ok li, r1) ->
  run_plugins ps2 r1 tree = Ok (t, r2) -> input_funcs_plugin c st fc s docs' r2 = (Ok lf, r3) ->
  no_helper_enum s -> NoDup (dkeys (i_coercible_scalars fc)) -> NoDup (dkeys (i_coercible_inputs fc)) ->
  forall f, In f lf -> exists key x args body, In (key, x) (schema_inputs s)
    /\ f = SFunc false (factory_name st (i_prepend fc) key) args body (Some (EName (input_class st key))) []
    /\ params_of (param_leaf s (r_scalars (init_reg c)) st (coerced (i_coercible_scalars fc) (c_coercible_scalars c)) (coerced (i_coercible_inputs fc) (c_coercible_inputs c)))
         (unset_class (c_unset_type_class c)) st nullable (id_fields x) args
    /\ ((forall k y, In (k, y) (id_fields x) -> if_default y <> None -> nullable y = true) ->
        params_of (param_leaf s (r_scalars (init_reg c)) st (coerced (i_coercible_scalars fc) (c_coercible_scalars c)) (coerced (i_coercible_inputs fc) (c_coercible_inputs c)))
         (unset_class (c_unset_type_class c)) st omittable (id_fields x) args).
Proof.
  intros c st s ps1 ps2 t0 r r1 r2 r3 ic fc docs docs' li lf tree t F1 F2 R1 HI R2 HF HB D1 D2 f Hf.
  pose proof (two_styled2 c st s _ _ _ _ _ _ _ _ _ _ _ F1 F2 R1 HI R2) as S2.
  assert (E0 : r_scalars r = r_scalars (init_reg c)) by (eapply (frame_scalars st Kall); [cbn; intuition discriminate|eapply beside_run; [exact F1|exact R1]]).
  assert (E1 : r_scalars r1 = r_scalars r) by (eapply (frame_scalars st); [|eapply ev_ok; [|exact HI]; apply ev_inputs_plugin]; cbn; intuition discriminate).
  assert (E2 : r_scalars r2 = r_scalars r1) by (eapply (frame_scalars st Kall); [cbn; intuition discriminate|eapply beside_run; [exact F2|exact R2]]).
  unfold input_funcs_plugin in HF. apply bind_ok in HF as (rf & r5 & H1 & H2).
  assert (r5 = r2).
  { unfold plugin_refs in H1. destruct (_ && _); [|apply ret_ok in H1 as (_ & ->); reflexivity].
    apply bind_ok in H1 as (d & r6 & H5 & H1). apply lift_ok in H5 as (_ & ->). apply bind_ok in H1 as (x & r7 & H6 & H1). apply lift_ok in H6 as (_ & ->). apply ret_ok in H1 as (_ & ->). reflexivity. }
  subst r5. unfold generate_input_funcs in H2. apply mconcat_ok in H2 as (ll & H2 & ->).
  pose proof (takes_loop c st s fc HB D1 D2 _ _ _ _ _ S2 H2) as F. rewrite Forall_forall in F. destruct (F f Hf) as (key & d & fields & dirs & args & body & I & E & P).
  exists key, (InputDef d fields dirs), args, body. split; [|split; [exact E|]].
  - unfold schema_inputs. apply in_flat_map. exists (key, TInput d fields dirs). split; [exact I|]. cbn. now left.
  - rewrite E2, E1, E0 in P. cbn [id_fields]. split; [exact P|]. intros H. exact (factory_omits _ _ _ _ _ H P).
Qed.

(** ** Variables *)
Section Vars.
Variables (c : gconfig) (st : list styler) (s : schema) (pc : fcfg) (r0 : reg).
Notation mc := (merged_config c pc).
Hypothesis D1 : NoDup (dkeys (f_coercible_scalars pc)).
Hypothesis D2 : NoDup (dkeys (f_coercible_inputs pc)).
Notation vleaf := (variable_leaf st r0 (coerced (f_coercible_scalars pc) (c_coercible_scalars c)) (coerced (f_coercible_inputs pc) (c_coercible_inputs c))).
Definition at_vars (r : reg) : Prop := names_styled st r /\ same_maps r0 r.
Lemma at_vars_ev : forall {A} (m : M A) r r' (x : A), ev st Kf m -> m r = (Ok x, r') -> at_vars r -> at_vars r'.
Proof.
  intros A m r r' x E H (N & S). assert (V : evolve st Kf r r') by (eapply ev_ok; [exact E|exact H]). split; [eapply names_styled_evolve; eassumption|]. eapply same_trans; [exact S|].
  repeat split; [eapply (frame_scalars st Kf)|eapply (frame_inputs st Kf)|eapply (frame_enums st Kf)]; try exact V; cbn; intuition discriminate.
Qed.
Lemma variable_leaf_same : forall r f g n x, same_maps r0 r -> variable_leaf st r f g n x <-> variable_leaf st r0 f g n x.
Proof. intros r f g n x H. unfold variable_leaf. destruct (f n); [reflexivity|]. destruct (g n); [reflexivity|]. now apply class_for_same. Qed.
Lemma var_ann_here : forall t r e r', at_vars r -> named st (gty_name t) ->
  coerced (f_coercible_scalars pc) (c_coercible_scalars c) (gty_name t) <> Some "" -> coerced (f_coercible_inputs pc) (c_coercible_inputs c) (gty_name t) <> Some "" ->
  generate_variable_annotation st mc t r = (Ok e, r') -> forall v, takes e v <-> legal (fun b => b = false) vleaf t v.
Proof.
  intros t r e r' (N & S) HN N1 N2 H v.
  assert (E1 : forall n, dget n (f_coercible_scalars mc) = coerced (f_coercible_scalars pc) (c_coercible_scalars c) n) by (intros n; cbn; now rewrite dget_dmerge).
  assert (E2 : forall n, dget n (f_coercible_inputs mc) = coerced (f_coercible_inputs pc) (c_coercible_inputs c) n) by (intros n; cbn; now rewrite dget_dmerge).
  rewrite (variable_ann st mc t r e r' N HN) by (rewrite ?E1, ?E2; assumption || exact H). apply leaf_ext. intros n x.
  rewrite variable_leaf_same by exact S. unfold variable_leaf. now rewrite E1, E2.
Qed.
Notation var_param := (variable_param vleaf (unset_class (c_unset_type_class c)) st).
Ltac go := unfold Kf in *; repeat (cbn beta zeta; first [ev_one | match goal with |- ev _ _ (match ?x with _ => _ end) => destruct x end]).
Lemma required_is : forall v, var_required v = true <-> required_var v.
Proof. intros v. rewrite required_eq. apply requiredb_spec. Qed.
Lemma vars_params : forall d o r args r', at_vars r ->
  (forall v, In v (op_vars o) -> named st (gty_name (v_type v)) /\ coerced (f_coercible_scalars pc) (c_coercible_scalars c) (gty_name (v_type v)) <> Some ""
     /\ coerced (f_coercible_inputs pc) (c_coercible_inputs c) (gty_name (v_type v)) <> Some "") ->
  generate_parameters c st s mc d o r = (Ok args, r') ->
  forall v, In v (op_vars o) -> ~ required_var v \/ ~ In (v_name v) (f_expand_input_types pc) -> exists a, In a (a_args args) /\ var_param v a.
Proof.
  intros d o r args r' HA HV H v Hv HE. unfold generate_parameters in H. cbn zeta in H.
  apply bind_ok in H as (ex & r1 & H1 & H). assert (A1 : at_vars r1) by (eapply at_vars_ev; [|exact H1|exact HA]; unfold Kf; ev_tac).
  apply bind_ok in H as (xp & r2 & H2 & H).
  assert (A2 : at_vars r2) by (eapply at_vars_ev; [|exact H2|exact A1]; unfold expanded_type, fields_of; go; try apply ev_input_params).
  apply bind_ok in H as (pl & r3 & H3 & H).
  eapply (mmap_inv _ at_vars) with (Q := fun v a => var_required v = true -> var_param v a) in H3 as [A3 FP]; [|exact A2|].
  2:{ intros w ra y rb Hw Ha HW. apply bind_ok in HW as (e & rc & HE' & HW). apply ret_ok in HW as (-> & ->). split; [eapply at_vars_ev; [apply ev_variable_annotation|exact HE'|exact Ha]|].
      intros RQ. split; [reflexivity|]. exists e. split; [reflexivity|]. apply filter_In in Hw as (Hw & _). apply filter_In in Hw as (Hw & _). destruct (HV w Hw) as (B1 & B2 & B3). intros x. rewrite (var_ann_here _ _ _ _ Ha B1 B2 B3 HE' x). apply required_is in RQ. tauto. }
  apply bind_ok in H as (op & r4 & H4 & H).
  eapply (mmap_inv _ at_vars) with (Q := fun v a => var_required v = false -> var_param v (fst a)) in H4 as [A4 FO]; [|exact A3|].
  2:{ intros w ra y rb Hw Ha HW. apply bind_ok in HW as (e & rc & HE' & HW). apply bind_ok in HW as (u & rd & HU & HW). apply bind_ok in HW as (z & re & HZ & HW). apply ret_ok in HW as (-> & ->).
      assert (Ac : at_vars rc) by (eapply at_vars_ev; [apply ev_variable_annotation|exact HE'|exact Ha]).
      assert (Ad : at_vars rd) by (eapply at_vars_ev; [|exact HU|exact Ac]; apply ev_unset_union).
      split; [eapply at_vars_ev; [|exact HZ|exact Ad]; apply ev_unset|].
      intros RQ. split; [reflexivity|]. exists u. split; [reflexivity|]. apply filter_In in Hw as (Hw & _). destruct (HV w Hw) as (B1 & B2 & B3).
      unfold unset_union_annotation in HU. apply bind_ok in HU as (q & rf & _ & HU). apply bind_ok in HU as (q2 & rg & H6 & HU). apply ret_ok in HU as (-> & _).
      unfold reference_unset_type in H6. apply override_is in H6. intros x. rewrite takes_union2, (var_ann_here _ _ _ _ Ha B1 B2 B3 HE' x). subst q2.
      apply or_iff_compat_l. rewrite (takes_ref _ (unset_class (c_unset_type_class c))) by (now left). assert (~ required_var w) by (intros Q; apply required_is in Q; congruence). tauto. }
  apply bind_ok in H as (kw & r5 & _ & H). apply ret_ok in H as (-> & _). cbn [a_args].
  destruct (var_required v) eqn:RQ.
  - destruct HE as [HE|HE]; [now apply required_is in RQ|]. destruct (Forall2_In_l _ _ _ v FP) as (a & Ia & Q).
    { apply filter_In. split; [apply filter_In; auto|]. destruct (mem_spec (v_name v) (f_expand_input_types mc)) as [I|I]; [now destruct HE|reflexivity]. }
    exists a. split; [rewrite !in_app_iff; tauto|auto].
  - destruct (Forall2_In_l _ _ _ v FO) as (a & Ia & Q); [apply filter_In; split; [exact Hv|now rewrite RQ]|].
    exists (fst a). split; [apply (in_map fst) in Ia; rewrite !in_app_iff; tauto|auto].
Qed.
End Vars.
Theorem run_variables : forall c st s pc doc_of o d r a n args body rt decs r', names_styled st r ->
  NoDup (dkeys (f_coercible_scalars pc)) -> NoDup (dkeys (f_coercible_inputs pc)) ->
  (forall v, In v (op_vars o) -> named st (gty_name (v_type v)) /\ coerced (f_coercible_scalars pc) (c_coercible_scalars c) (gty_name (v_type v)) <> Some ""
     /\ coerced (f_coercible_inputs pc) (c_coercible_inputs c) (gty_name (v_type v)) <> Some "") ->
  generate_operation_func c st s (merged_config c pc) doc_of o d r = (Ok (SFunc a n args body rt decs), r') ->
  forall v, In v (op_vars o) -> ~ required_var v \/ ~ In (v_name v) (f_expand_input_types pc) -> exists p, In p (a_args args) /\ variable_param (variable_leaf st r (coerced (f_coercible_scalars pc) (c_coercible_scalars c)) (coerced (f_coercible_inputs pc) (c_coercible_inputs c))) (unset_class (c_unset_type_class c)) st v p.
Proof.
  intros c st s pc doc_of o d r a n args body rt decs r' HN D1 D2 HV H v Hv HE. apply func_parts in H as (name & doc & args' & rt' & _ & _ & HP & _ & E). injection E as -> -> -> _ _ _.
  destruct (generate_parameters c st s (merged_config c pc) d o r) as [x r1] eqn:G. cbn [fst] in HP. subst x.
  eapply (vars_params c st s pc r D1 D2); [split; [exact HN|apply same_refl]|exact HV|exact G|exact Hv|exact HE].
Qed.
