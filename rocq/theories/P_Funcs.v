(** Proofs about generated operation functions. *)
From Coq Require Import Lia.
From Verif Require Import Base PyAst Gql Config Stylers Registry Utils Funcs PySem Spec_Types Spec_Annot Spec_Funcs P_Base P_Monad P_Annot.

(** ** Generic facts *)
Lemma pmap_ok : forall {A} (f : A -> PySem.pres pv) (g : A -> pv) l, (forall x, In x l -> f x = POk (g x)) -> pmap f l = POk (map g l).
Proof.
  intros A f g l. induction l as [|x l IH]; intros H; [reflexivity|]. cbn. rewrite (H x) by now left. cbn.
  rewrite IH by (intros; apply H; now right). reflexivity.
Qed.
Lemma Forall2_In_l : forall {A B} (R : A -> B -> Prop) l l' x, Forall2 R l l' -> In x l -> exists y, In y l' /\ R x y.
Proof.
  intros A B R l l' x H. induction H as [|a b l l' H1 H2 IH]; intros []; [subst; eexists; split; [now left|assumption]|].
  destruct (IH H) as (y & Hy & HR). exists y; split; [now right|assumption].
Qed.
Lemma mconcat_flat : forall {A B} (f : A -> M (list B)) (g : A -> list B) l r ys r',
  (forall x r y r', In x l -> f x r = (Ok y, r') -> y = g x) -> mconcat f l r = (Ok ys, r') -> ys = flat_map g l.
Proof.
  intros A B f g l r ys r' H E. unfold mconcat in E. minv.
  revert r a r0 H0. induction l as [|x l IH]; intros r a r0 E; cbn in E; minv; [reflexivity|].
  cbn. match goal with HX : f x _ = _ |- _ => rewrite (H x _ _ _ (or_introl eq_refl) HX) end. f_equal.
  eapply IH; [intros; eapply H; [right; eassumption|eassumption]|eassumption].
Qed.
Lemma mmap_map : forall {A B} (f : A -> M B) (g : A -> B) l r ys r',
  (forall x r y r', In x l -> f x r = (Ok y, r') -> y = g x) -> mmap f l r = (Ok ys, r') -> ys = map g l.
Proof.
  intros A B f g l. induction l as [|x l IH]; intros r ys r' H E; cbn in E; minv; [reflexivity|].
  cbn. f_equal; [eapply H; [now left|eassumption]|eapply IH; [intros; eapply H; [right|]; eassumption|eassumption]].
Qed.

Definition unset_name (c : gconfig) : string :=
  match c_unset_instance c with Some o => if truthy (Some o) then last_comp o else "UNSET" | None => "UNSET" end.
Lemma reference_unset_ok : forall c r e r', reference_unset c r = (Ok e, r') -> e = EName (unset_name c).
Proof.
  intros c r e r' H. unfold reference_unset, reference_override, unset_name in *. destruct (c_unset_instance c) as [o|].
  - destruct (truthy (Some o)); minv; reflexivity.
  - minv; reflexivity.
Qed.

(** ** The statements a function consists of *)
Definition Assign (u : string) (required : bool) (d key p : string) : stmt :=
  if required then assign_item d key p
  else SIf (ECompare (EName p) OpIsNot (EName u)) [assign_item d key p].
Definition dict_ann : expr := ESub (EName "Dict") (ETuple [EName "str"; EName "Any"]).
Definition NewDict (d : string) : stmt := SAnn d dict_ann (Some (EDict [])).
Lemma new_dict_ok : forall d r st r', new_dict d r = (Ok st, r') -> st = NewDict d.
Proof. intros d r st r' H. unfold new_dict, dict_str_any_annotation in H. minv. reflexivity. Qed.
Lemma assign_or_guard_ok : forall c req d k p r st r', assign_or_guard c req d k p r = (Ok st, r') -> st = Assign (unset_name c) req d k p.
Proof.
  intros c req d k p r st r' H. unfold assign_or_guard, guarded_assign, Assign in *. destruct req; minv; [reflexivity|].
  apply reference_unset_ok in H0. now subst.
Qed.

Section Shapes.
Variable c : gconfig.
Variable st : list styler.
Variable s : schema.
Variable pc : fcfg.
Notation param := (generate_parameter_name st).
Notation node := (generate_node_name st).
Notation u := (unset_name c).
Notation expand := (f_expand_input_types pc).

Definition var_assign (v : vardef) : list stmt :=
  if mem (v_name v) expand then
    let inner := "_" +s+ param (v_name v) in
    NewDict inner :: map (fun kf => Assign u (nonnullb (if_type (snd kf))) inner (fst kf) (node (fst kf))) (input_fields s (v_type v))
    ++ [assign_item "variables" (v_name v) inner]
  else [Assign u (requiredb v) "variables" (v_name v) (param (v_name v))].
Lemma required_eq : forall v, var_required v = requiredb v.
Proof. intros v. unfold var_required, requiredb, is_nonnull. destruct (v_type v), (v_default v); reflexivity. Qed.
Lemma expanded_fields : forall v r t r', expanded_type s v r = (Ok t, r') -> forall r1 fs r1', fields_of t r1 = (Ok fs, r1') ->
  fs = input_fields s (v_type v).
Proof.
  intros v r t r' H r1 fs r1' F. unfold expanded_type in H. unfold input_fields.
  destruct (v_type v) as [|[]|[]]; try discriminate; minv; cbn; rewrite H; destruct t; try discriminate; cbn in F; now minv.
Qed.
Lemma variable_assignment_ok : forall v r l r', variable_assignment c st s pc v r = (Ok l, r') -> l = var_assign v.
Proof.
  intros v r l r' H. unfold variable_assignment, var_assign in *. destruct (mem (v_name v) expand); minv.
  - rewrite (expanded_fields _ _ _ _ H0 _ _ _ H1) in *. apply new_dict_ok in H2. subst a1. f_equal. f_equal.
    eapply mmap_map; [|eassumption]. intros [k f] r4 y r5 _ E. now apply assign_or_guard_ok in E.
  - apply assign_or_guard_ok in H0. subst. now rewrite required_eq.
Qed.
Lemma assignments_ok : forall o r l r', generate_variable_assignments c st s pc o r = (Ok l, r') ->
  l = NewDict "variables" :: flat_map var_assign (op_vars o).
Proof.
  intros o r l r' H. unfold generate_variable_assignments in H. minv. apply new_dict_ok in H0. subst. f_equal.
  eapply mconcat_flat; [|eassumption]. intros; eapply variable_assignment_ok; eassumption.
Qed.

(** parameters *)
Notation extra d := (map fa_key (extra_args pc d)).
Notation extra_kw d := (map fk_key (extra_kwargs pc d)).
Notation req d := (required_parameters s param node expand (extra d)).
Notation opt d := (optional_parameters s param node expand (extra_kw d)).
Definition params_shape (fields : list (string * inputfield)) (p : params) : Prop :=
  map pa_name (p_pos p) = map (fun kf => node (fst kf)) (filter (fun kf => Bool.eqb (nonnullb (if_type (snd kf))) true) fields)
  /\ map pa_name (p_kw p) = map (fun kf => node (fst kf)) (filter (fun kf => Bool.eqb (nonnullb (if_type (snd kf))) false) fields)
  /\ p_def p = map (fun _ => EName u) (p_kw p).
Lemma input_type_params_ok : forall fields r p r', generate_input_type_params c st s pc fields r = (Ok p, r') -> params_shape fields p.
Proof.
  intros fields r p r' H. unfold generate_input_type_params in H.
  enough (G : forall fields done acc r p r', params_shape done acc ->
      mfold (fun acc kf =>
        let t := if_type (snd kf) in
        if is_nonnull t then
          let* a := generate_input_annotation st s pc t true in
          ret (papp acc (Params [PyArg (node (fst kf)) (Some a)] [] []))
        else
          let* a := generate_input_annotation st s pc t true in
          let* u := unset_union_annotation c a in
          let* d := reference_unset c in
          ret (papp acc (Params [] [PyArg (node (fst kf)) (Some u)] [d]))) fields acc r = (Ok p, r') -> params_shape (done ++ fields) p).
  { eapply (G fields [] pnil); [repeat split|exact H]. }
  clear. induction fields as [|[k f] fields IH]; intros done acc r p r' S H; cbn in H; minv; [now rewrite app_nil_r|].
  replace (done ++ (k, f) :: fields) with ((done ++ [(k, f)]) ++ fields) by now rewrite <- app_assoc.
  eapply IH; [|eassumption]. destruct S as (S1 & S2 & S3). unfold is_nonnull, params_shape in *.
  rewrite !filter_app, !map_app. cbn. destruct (if_type f); cbn in *; minv; cbn; rewrite ?map_app, ?app_nil_r; cbn;
    repeat split; try congruence; apply reference_unset_ok in H3; congruence.
Qed.
Lemma filter_filter : forall {A} (f g : A -> bool) l, filter f (filter g l) = filter (fun x => g x && f x) l.
Proof. intros A f g l. induction l as [|x l IH]; [reflexivity|]. cbn. destruct (g x); cbn; [destruct (f x)|]; cbn; now rewrite IH. Qed.

Lemma requiredb_spec : forall v, requiredb v = true <-> required_var v.
Proof.
  intros v. unfold requiredb, required_var. destruct (v_type v), (v_default v); split; try discriminate; try (intros ((? & ?) & ?); discriminate).
  intros _. split; eauto. reflexivity.
Qed.

(** what the signature looks like, whatever is expanded *)
Definition opt_all (d : fdef) (vars : list vardef) : list string :=
  expanded_names s node expand (filter var_required vars) false
  ++ map (fun v => param (v_name v)) (filter (fun v => negb (var_required v)) vars) ++ extra_kw d.
Definition req_all (d : fdef) (vars : list vardef) : list string :=
  extra d ++ expanded_names s node expand (filter var_required vars) true ++ plain_names param expand vars true.
Definition defaults_all (d : fdef) (vars : list vardef) : list expr :=
  map (fun _ => EName u) (expanded_names s node expand (filter var_required vars) false)
  ++ map (fun _ => EName u) (filter (fun v => negb (var_required v)) vars)
  ++ map (fun k => EConst (fk_default k)) (extra_kwargs pc d).
Lemma expanded_params_ok : forall vars acc0 done r p r',
  map pa_name (p_pos acc0) = expanded_names s node expand done true ->
  map pa_name (p_kw acc0) = expanded_names s node expand done false ->
  p_def acc0 = map (fun _ => EName u) (p_kw acc0) ->
  mfold (fun acc v =>
      if mem (v_name v) expand then
        let* t := expanded_type s v in
        let* fields := fields_of t in
        let* p := generate_input_type_params c st s pc fields in
        ret (papp acc p)
      else ret acc) vars acc0 r = (Ok p, r') ->
  map pa_name (p_pos p) = expanded_names s node expand (done ++ vars) true
  /\ map pa_name (p_kw p) = expanded_names s node expand (done ++ vars) false
  /\ p_def p = map (fun _ => EName u) (p_kw p).
Proof.
  induction vars as [|v vars IH]; intros acc0 done r p r' S1 S2 S3 H; cbn in H; minv; [rewrite app_nil_r; auto|].
  replace (done ++ v :: vars) with ((done ++ [v]) ++ vars) by now rewrite <- app_assoc.
  unfold expanded_names in *.
  destruct (mem (v_name v) expand) eqn:E; minv.
  - rewrite (expanded_fields _ _ _ _ H1 _ _ _ H2) in *. apply input_type_params_ok in H3. destruct H3 as (P1 & P2 & P3).
    eapply IH; [..|eassumption]; cbn; rewrite ?map_app, ?flat_map_app; cbn; rewrite ?E, ?app_nil_r; congruence.
  - eapply IH; [..|eassumption]; rewrite ?flat_map_app; cbn; rewrite ?E, ?app_nil_r; assumption.
Qed.
Lemma parameters_ok : forall d o r args r', generate_parameters c st s pc d o r = (Ok args, r') ->
  map pa_name (a_args args) = req_all d (op_vars o) ++ opt_all d (op_vars o) /\ a_defaults args = defaults_all d (op_vars o).
Proof.
  intros d o r args r' H. unfold generate_parameters in H. minv.
  assert (A1 : map pa_name a = extra d).
  { erewrite (mmap_map _ (fun x => PyArg (fa_key x) (Some (EName (last_comp (fa_type x))))) _ _ _ _ _ H0).
    now rewrite map_map. Unshelve. intros; cbn in *; minv. reflexivity. }
  eapply (expanded_params_ok _ pnil []) in H1; try reflexivity. cbn [app] in H1. destruct H1 as (P1 & P2 & P3).
  assert (A2 : map pa_name a1 = plain_names param expand (op_vars o) true).
  { unfold plain_names. clear - H2. rewrite filter_filter in H2.
    assert (F : filter (fun v => var_required v && negb (mem (v_name v) expand)) (op_vars o)
              = filter (fun v => negb (mem (v_name v) expand) && Bool.eqb (requiredb v) true) (op_vars o)).
    { apply filter_ext. intros v. rewrite required_eq. destruct (requiredb v), (mem (v_name v) expand); reflexivity. }
    rewrite F in H2. clear F. revert r1 a1 r2 H2. induction (filter _ _) as [|v l IH]; intros r a r' H; cbn in H; minv; [reflexivity|].
    cbn. f_equal. eauto. }
  assert (A3 : map pa_name (map fst a2) = map (fun v => param (v_name v)) (filter (fun v => negb (var_required v)) (op_vars o))
            /\ map snd a2 = map (fun _ => EName u) (filter (fun v => negb (var_required v)) (op_vars o))).
  { clear - H3. revert r2 a2 r3 H3. induction (filter _ _) as [|v l IH]; intros r a r' H; cbn in H; minv; [split; reflexivity|].
    cbn. match goal with HX : mmap _ _ _ = _ |- _ => destruct (IH _ _ _ HX) end.
    split; f_equal; try assumption. eapply reference_unset_ok; eassumption. }
  assert (A4 : map pa_name (map fst a3) = extra_kw d /\ map snd a3 = map (fun k => EConst (fk_default k)) (extra_kwargs pc d)).
  { clear - H4. revert H4. generalize r3, a3, r4. induction (extra_kwargs pc d) as [|v l IH]; intros r a r' H; cbn in H; minv; [split; reflexivity|].
    cbn. match goal with HX : mmap _ _ _ = _ |- _ => destruct (IH _ _ _ HX) end. split; f_equal; assumption. }
  destruct A3, A4. cbn. unfold req_all, opt_all, defaults_all. rewrite !map_app, A1, P1, A2, P2, H, H5, P3, H1, H6.
  rewrite <- P2, map_map. rewrite <- !app_assoc. split; reflexivity.
Qed.
Lemma defaults_length : forall d vars, length (defaults_all d vars) = length (opt_all d vars).
Proof. intros. unfold defaults_all, opt_all. rewrite !app_length, !map_length. reflexivity. Qed.
Lemma expanded_filter : forall b vars, no_optional_expansion expand vars ->
  expanded_names s node expand (filter var_required vars) b = expanded_names s node expand vars b.
Proof.
  intros b vars. induction vars as [|v vars IH]; intros H; [reflexivity|]. cbn.
  assert (IH' := IH (fun w Hw => H w (or_intror Hw))). unfold expanded_names in *.
  rewrite required_eq. destruct (requiredb v) eqn:E; cbn; rewrite IH'; [reflexivity|].
  destruct (mem_spec (v_name v) expand) as [I|I]; [|reflexivity].
  apply (H v (or_introl eq_refl)), requiredb_spec in I. congruence.
Qed.
Lemma plain_filter : forall vars, no_optional_expansion expand vars ->
  map (fun v => param (v_name v)) (filter (fun v => negb (var_required v)) vars) = plain_names param expand vars false.
Proof.
  intros vars H. unfold plain_names. f_equal. apply filter_ext_in. intros v Hv. rewrite required_eq.
  destruct (requiredb v) eqn:E; cbn; [now rewrite andb_false_r|].
  destruct (mem_spec (v_name v) expand) as [I|I]; [|reflexivity]. apply (H v Hv), requiredb_spec in I. congruence.
Qed.
Lemma parameters_spec : forall d o r args r', no_optional_expansion expand (op_vars o) ->
  generate_parameters c st s pc d o r = (Ok args, r') ->
  map pa_name (a_args args) = req d (op_vars o) ++ opt d (op_vars o)
  /\ length (a_defaults args) = length (opt d (op_vars o))
  /\ a_defaults args = map (fun _ => EName u) (expanded_names s node expand (op_vars o) false)
       ++ map (fun _ => EName u) (plain_names param expand (op_vars o) false)
       ++ map (fun k => EConst (fk_default k)) (extra_kwargs pc d).
Proof.
  intros d o r args r' HE H. apply parameters_ok in H. destruct H as (H1 & H2).
  assert (E1 : opt_all d (op_vars o) = opt d (op_vars o)).
  { unfold opt_all, optional_parameters. now rewrite expanded_filter, plain_filter. }
  repeat split.
  - rewrite H1, E1. unfold req_all, required_parameters. now rewrite expanded_filter.
  - now rewrite H2, defaults_length, E1.
  - rewrite H2. unfold defaults_all. rewrite expanded_filter by assumption. do 2 f_equal. now rewrite <- plain_filter, map_map.
Qed.
End Shapes.

(** ** Running a function *)
Section Run.
Variable glob : string -> option pv.
Variable subclass : string -> string -> bool.
Variable call : pv -> list pv -> list (string * pv) -> PySem.pres pv.
Notation evl := (eval glob subclass call).
Notation exb := (exec_block glob subclass call).

Lemma eval_local : forall env n v, dget n env = Some v -> evl env (EName n) = POk v.
Proof. intros env n v H. cbn. now rewrite H. Qed.
Lemma eval_global : forall env n v, dget n env = None -> glob n = Some v -> evl env (EName n) = POk v.
Proof. intros env n v H1 H2. cbn. now rewrite H1, H2. Qed.
Lemma apply_fun : forall p a k, p <> "isinstance" -> apply subclass call (PVFun p) a k = call (PVFun p) a k.
Proof.
  intros p a k H. unfold apply. destruct (String.eqb_spec p "isinstance") as [|N]; [contradiction|].
  clear H. do 11 (destruct p as [|[[] [] [] [] [] [] [] []] p]; try reflexivity). now contradiction N.
Qed.

Variable u : string.
Variable us : string.
Hypothesis Hu : glob u = Some (PVSing us).
Variable args : dict pv.  (* what the caller passed *)
Notation entry := (Spec_Funcs.entry (PVSing us) args).

(** [p] is bound to what was passed for it, or to the sentinel if it is optional *)
Definition bound (env : dict pv) (required : bool) (p : string) : Prop :=
  match dget p args with
  | Some v => dget p env = Some v
  | None => required = false /\ dget p env = Some (PVSing us)
  end.
Lemma exec_Assign : forall required d key p env acc rest, p <> d -> dget u env = None ->
  dget d env = Some (PVDict acc) -> bound env required p -> (forall v, In (PVConst (CStr key), v) acc -> False) ->
  (forall k v, In (k, v) acc -> exists n, k = PVConst (CStr n)) ->
  exists env', exb (Assign u required d key p :: rest) env = exb rest env'
  /\ dget d env' = Some (PVDict (acc ++ entry required key p)) /\ forall n, n <> d -> dget n env' = dget n env.
Proof.
  intros required d key p env acc rest Hpd Hue Hd Hb Hf Hk. unfold bound in Hb.
  assert (S : forall v, dget p env = Some v -> exists env', exb (assign_item d key p :: rest) env = exb rest env'
     /\ dget d env' = Some (PVDict (acc ++ [(PVConst (CStr key), v)])) /\ forall n, n <> d -> dget n env' = dget n env).
  { intros v Hv. exists (dset d (PVDict (acc ++ [(PVConst (CStr key), v)])) env). split; [|split].
    - unfold assign_item. cbn [exec_block exec]. rewrite (eval_local _ _ _ Hv). cbn [pbind].
      rewrite (eval_local _ _ _ Hd). cbn [pbind eval estr]. rewrite pset_fresh; [reflexivity|].
      intros k' v' I. destruct (Hk _ _ I) as [n ->]. cbn. destruct (String.eqb_spec key n) as [->|]; [|reflexivity].
      destruct (Hf _ I).
    - rewrite dget_dset, String.eqb_refl. reflexivity.
    - intros n Hn. rewrite dget_dset. now destruct (String.eqb_spec n d). }
  unfold Assign, Spec_Funcs.entry.
  assert (I : required = false -> forall v, dget p env = Some v ->
     exb (SIf (ECompare (EName p) OpIsNot (EName u)) [assign_item d key p] :: rest) env
     = if same_object v (PVSing us) then exb rest env else exb (assign_item d key p :: rest) env).
  { intros _ v Hv. cbn [exec_block]. rewrite exec_SIf. cbn [eval]. rewrite Hv, Hue, Hu. cbn [pbind].
    destruct (same_object v (PVSing us)); cbn [negb ptruthy]; [reflexivity|].
    unfold assign_item. cbn [exec_block exec]. rewrite (eval_local _ _ _ Hv). cbn [pbind]. rewrite (eval_local _ _ _ Hd).
    cbn [pbind eval estr]. reflexivity. }
  destruct (dget p args) as [v|] eqn:Ep.
  - destruct required; cbn [orb]; [now apply S|]. rewrite (I eq_refl v Hb). destruct (same_object v (PVSing us)); cbn [negb].
    + exists env. rewrite app_nil_r. auto.
    + now apply S.
  - destruct Hb as [-> Hb]. rewrite (I eq_refl _ Hb). cbn [same_object]. rewrite String.eqb_refl. exists env. rewrite app_nil_r. auto.
Qed.
Lemma entry_keys : forall required key p k v, In (k, v) (entry required key p) -> k = PVConst (CStr key).
Proof.
  intros required key p k v H. unfold Spec_Funcs.entry in H. destruct (dget p args); [|easy].
  destruct (required || _); [|easy]. destruct H as [[= <- <-]|[]]. reflexivity.
Qed.

(** a block of entries *)
Lemma exec_fields : forall (node : string -> string) (nn : inputfield -> bool) d fields env acc rest,
  dget u env = None -> u <> d -> dget d env = Some (PVDict acc) ->
  NoDup (map fst fields) -> (forall k v, In (k, v) acc -> exists n, k = PVConst (CStr n) /\ ~ In n (map fst fields)) ->
  (forall k f, In (k, f) fields -> node k <> d /\ bound env (nn f) (node k)) ->
  exists env', exb (map (fun kf => Assign u (nn (snd kf)) d (fst kf) (node (fst kf))) fields ++ rest) env = exb rest env'
  /\ dget d env' = Some (PVDict (acc ++ flat_map (fun kf => entry (nn (snd kf)) (fst kf) (node (fst kf))) fields))
  /\ forall n, n <> d -> dget n env' = dget n env.
Proof.
  intros node nn d. induction fields as [|[k f] fields IH]; intros env acc rest Hue Hud Hd HN HA HF.
  - exists env. cbn. rewrite app_nil_r. auto.
  - inversion HN as [|? ? HN1 HN2]; subst. destruct (HF k f (or_introl eq_refl)) as [F1 F2].
    edestruct (exec_Assign (nn f) d k (node k) env acc) as (env1 & E1 & D1 & O1); try eassumption.
    { intros v I. destruct (HA _ _ I) as (n & [= <-] & Hn). apply Hn. now left. }
    { intros k' v I. destruct (HA _ _ I) as (n & -> & _). eauto. }
    edestruct (IH env1) as (env2 & E2 & D2 & O2).
    { rewrite O1; assumption. } { assumption. } { exact D1. } { assumption. }
    { intros k' v I. apply in_app_or in I. destruct I as [I|I].
      - destruct (HA _ _ I) as (n & -> & Hn). exists n. split; [reflexivity|]. intros X; apply Hn; now right.
      - apply entry_keys in I. subst. eauto. }
    { intros k' f' I. destruct (HF k' f' (or_intror I)) as [G1 G2]. split; [assumption|]. unfold bound in *.
      rewrite !O1 by assumption. exact G2. }
    exists env2. cbn [map app fst snd flat_map]. split; [|split].
    + rewrite E1. exact E2.
    + rewrite D2, <- app_assoc. reflexivity.
    + intros n Hn. rewrite O2, O1; auto.
Qed.
Lemma exec_NewDict : forall d env rest, exb (NewDict d :: rest) env = exb rest (dset d (PVDict []) env).
Proof. reflexivity. Qed.
Lemma exec_item : forall d key p env acc v rest, dget p env = Some v -> dget d env = Some (PVDict acc) ->
  (forall k w, In (k, w) acc -> exists n, k = PVConst (CStr n) /\ n <> key) ->
  exb (assign_item d key p :: rest) env = exb rest (dset d (PVDict (acc ++ [(PVConst (CStr key), v)])) env).
Proof.
  intros d key p env acc v rest Hv Hd Hk. unfold assign_item. cbn [exec_block exec]. rewrite (eval_local _ _ _ Hv). cbn [pbind].
  rewrite (eval_local _ _ _ Hd). cbn [pbind eval estr]. rewrite pset_fresh; [reflexivity|].
  intros k' v' I. destruct (Hk _ _ I) as (n & -> & Hn). cbn. destruct (String.eqb_spec key n) as [->|]; [now contradiction Hn|reflexivity].
Qed.
Section Vars.
Variable c : gconfig.
Hypothesis Hc : u = unset_name c.
Variable st : list styler.
Variable s : schema.
Variable pc : fcfg.
Notation param := (generate_parameter_name st).
Notation node := (generate_node_name st).
Notation expand := (f_expand_input_types pc).
Notation inner v := ("_" +s+ param (v_name v)).
Variable L : list string.  (* local variables *)
Hypothesis HuL : ~ In u L.
Hypothesis HvL : In "variables" L.
Definition var_ok (env : dict pv) (v : vardef) : Prop :=
  if mem (v_name v) expand then
    In (inner v) L /\ NoDup (map fst (input_fields s (v_type v)))
    /\ forall k f, In (k, f) (input_fields s (v_type v)) -> ~ In (node k) L /\ bound env (nonnullb (if_type f)) (node k)
  else ~ In (param (v_name v)) L /\ bound env (requiredb v) (param (v_name v)).
Lemma bound_frame : forall env env' b p, (forall n, ~ In n L -> dget n env' = dget n env) -> ~ In p L -> bound env b p -> bound env' b p.
Proof. intros env env' b p H HL HB. unfold bound in *. rewrite !H by assumption. exact HB. Qed.
Lemma var_ok_frame : forall env env' v, (forall n, ~ In n L -> dget n env' = dget n env) -> var_ok env v -> var_ok env' v.
Proof.
  intros env env' v H V. unfold var_ok in *. destruct (mem (v_name v) expand).
  - destruct V as (V1 & V2 & V3). repeat split; auto; destruct (V3 k f) as [V4 V5]; eauto using bound_frame.
  - destruct V. split; eauto using bound_frame.
Qed.
Notation pay := (payload s param node expand (PVSing us) args).
Notation pay1 := (var_entry s param node expand (PVSing us) args).
Lemma pay1_keys : forall v k w, In (k, w) (pay1 v) -> k = PVConst (CStr (v_name v)).
Proof.
  intros v k w H. unfold var_entry in H. destruct (mem (v_name v) expand); [destruct H as [[= <- <-]|[]]; reflexivity|].
  eapply entry_keys; eassumption.
Qed.
Lemma exec_var : forall v env acc rest, dget u env = None -> dget "variables" env = Some (PVDict acc) ->
  (forall k w, In (k, w) acc -> exists n, k = PVConst (CStr n) /\ n <> v_name v) -> var_ok env v ->
  exists env', exb (var_assign c st s pc v ++ rest) env = exb rest env'
  /\ dget "variables" env' = Some (PVDict (acc ++ pay1 v)) /\ forall n, ~ In n L -> dget n env' = dget n env.
Proof.
  intros v env acc rest Hue Hd HA V. unfold var_assign, var_ok, var_entry in *. rewrite <- Hc. destruct (mem (v_name v) expand).
  - destruct V as (V1 & V2 & V3). cbn [app]. rewrite exec_NewDict, <- app_assoc.
    assert (HI : "_" +s+ param (v_name v) <> "variables") by discriminate.
    edestruct (exec_fields node (fun f => nonnullb (if_type f)) (inner v) (input_fields s (v_type v)) (dset (inner v) (PVDict []) env) [])
      as (env1 & E1 & D1 & O1).
    + rewrite dget_dset. destruct (String.eqb_spec u (inner v)) as [E|]; [|assumption]. destruct HuL. rewrite E. exact V1.
    + intros E. apply HuL. rewrite E. exact V1.
    + rewrite dget_dset, String.eqb_refl. reflexivity.
    + assumption.
    + intros ? ? [].
    + intros k f I. destruct (V3 k f I) as [W1 W2].
      assert (WN : node k <> inner v) by (intros E; apply W1; rewrite E; exact V1).
      split; [exact WN|]. unfold bound in *. rewrite !dget_dset. destruct (String.eqb_spec (node k) (inner v)); [contradiction|exact W2].
    + rewrite E1. cbn [app] in D1 |- *. erewrite exec_item; [|exact D1| |exact HA].
      2: { rewrite O1 by congruence. rewrite dget_dset. destruct (String.eqb_spec "variables" (inner v)); [congruence|exact Hd]. }
      eexists; split; [reflexivity|]. split; [rewrite dget_dset, String.eqb_refl; reflexivity|].
      intros n Hn. rewrite dget_dset. destruct (String.eqb_spec n "variables") as [->|]; [contradiction|].
      assert (n <> inner v) by (intros ->; contradiction). rewrite O1, dget_dset by assumption.
      destruct (String.eqb_spec n (inner v)); [contradiction|reflexivity].
  - destruct V as [V1 V2]. cbn [app].
    edestruct (exec_Assign (requiredb v) "variables" (v_name v) (param (v_name v)) env acc) as (env1 & E1 & D1 & O1); try eassumption.
    + intros E. apply V1. rewrite E. exact HvL.
    + intros w I. destruct (HA _ _ I) as (n & [= <-] & Hn). now apply Hn.
    + intros k w I. destruct (HA _ _ I) as (n & -> & Hn). eauto.
    + exists env1. repeat split; [exact E1|exact D1|]. intros n Hn. apply O1. intros ->. contradiction.
Qed.
Lemma exec_vars : forall vars env acc rest, dget u env = None -> dget "variables" env = Some (PVDict acc) ->
  NoDup (map v_name vars) -> (forall k w, In (k, w) acc -> exists n, k = PVConst (CStr n) /\ ~ In n (map v_name vars)) ->
  (forall v, In v vars -> var_ok env v) ->
  exists env', exb (flat_map (var_assign c st s pc) vars ++ rest) env = exb rest env'
  /\ dget "variables" env' = Some (PVDict (acc ++ pay vars)) /\ forall n, ~ In n L -> dget n env' = dget n env.
Proof.
  induction vars as [|v vars IH]; intros env acc rest Hue Hd HN HA HV.
  - exists env. cbn. rewrite app_nil_r. auto.
  - cbn [map] in HN. apply NoDup_cons_iff in HN. destruct HN as [HN1 HN2]. cbn [flat_map]. rewrite <- app_assoc.
    edestruct (exec_var v env acc) as (env1 & E1 & D1 & O1); try eassumption; [|apply HV; now left|].
    { intros k w I. destruct (HA _ _ I) as (n & -> & Hn). exists n. split; [reflexivity|]. intros ->. apply Hn. now left. }
    edestruct (IH env1) as (env2 & E2 & D2 & O2).
    { rewrite O1; assumption. } { exact D1. } { assumption. }
    { intros k w I. apply in_app_or in I. destruct I as [I|I].
      - destruct (HA _ _ I) as (n & -> & Hn). exists n. split; [reflexivity|]. intros X; apply Hn; now right.
      - apply pay1_keys in I. exists (v_name v). split; [exact I|exact HN1]. }
    { intros w Hw. eapply var_ok_frame; [exact O1|apply HV; now right]. }
    exists env2. rewrite E1, E2, D2. unfold payload. cbn [flat_map]. rewrite <- app_assoc. repeat split. intros n Hn. rewrite O2, O1; auto.
Qed.
End Vars.
End Run.

(** ** Binding *)
Section Bind.
Variable glob : string -> option pv.
Variable subclass : string -> string -> bool.
Variable call : pv -> list pv -> list (string * pv) -> PySem.pres pv.
Lemma signature_split : forall a req opt, map pa_name (a_args a) = req ++ opt -> length (a_defaults a) = length opt ->
  signature a = map (fun x => (x, None)) req ++ combine opt (map Some (a_defaults a)).
Proof.
  intros a req opt H L. unfold signature. rewrite H, L, app_length. replace (length req + length opt - length opt) with (length req) by lia.
  rewrite firstn_app, skipn_app, Nat.sub_diag, firstn_all, skipn_all. cbn. now rewrite app_nil_r.
Qed.
Lemma map_fst_combine : forall {A B} (l : list A) (l' : list B), length l = length l' -> map fst (combine l l') = l.
Proof. intros A B l. induction l as [|x l IH]; intros [|y l'] H; cbn in *; try discriminate; [reflexivity|]. f_equal. auto. Qed.
Lemma signature_names : forall a req opt, map pa_name (a_args a) = req ++ opt -> length (a_defaults a) = length opt ->
  map fst (signature a) = map pa_name (a_args a).
Proof.
  intros a req opt H L. rewrite (signature_split a req opt H L), map_app, map_map, H. cbn. rewrite map_id. f_equal.
  apply map_fst_combine. now rewrite map_length.
Qed.
Lemma binds_value : forall a pos kws env p od, binds glob subclass call a pos kws env ->
  NoDup (map fst (signature a)) -> In (p, od) (signature a) ->
  exists v, dget p env = Some v /\ match dget p (passed a pos kws) with
                                   | Some w => v = w
                                   | None => exists d, od = Some d /\ eval glob subclass call [] d = POk v
                                   end.
Proof.
  intros a pos kws env p od B ND I. pose proof (b_env _ _ _ _ _ _ _ B) as F.
  assert (K : dkeys env = map fst (signature a)).
  { clear - F. unfold dkeys. induction F as [|x y l l' [H _] F IH]; [reflexivity|]. cbn. now rewrite H, IH. }
  destruct (Forall2_In_l _ _ _ _ F I) as ((k & v) & Hv & E & W). cbn in *. subst k. exists v. split.
  - apply dget_In_NoDup; [rewrite K|]; assumption.
  - destruct (dget p (passed a pos kws)); [assumption|exact W].
Qed.
Lemma binds_names : forall a pos kws env, binds glob subclass call a pos kws env -> map fst env = map fst (signature a).
Proof.
  intros a pos kws env B. pose proof (b_env _ _ _ _ _ _ _ B) as F. clear B. revert F. generalize (passed a pos kws). intros pa F.
  induction F as [|x y l l0 [H _] F IH]; [reflexivity|]. cbn. now rewrite H, IH.
Qed.
Lemma combine_In_l : forall {A B} (f : A -> B) l l1 l2 x, In x l -> In (x, f x) (combine (l ++ l1) (map f l ++ l2)).
Proof. intros A B f l. induction l as [|y l IH]; intros l1 l2 x []; cbn; [subst; now left|right; now apply IH]. Qed.
Lemma combine_In_r : forall {A B} (f : A -> B) l l1 l2 x, In x (combine l1 l2) -> In x (combine (l ++ l1) (map f l ++ l2)).
Proof. intros A B f l. induction l as [|y l IH]; intros l1 l2 x H; cbn; [assumption|right; now apply IH]. Qed.
End Bind.

(** ** The function as a whole *)
Lemma sentinel_eq : forall c, unset_name c = sentinel_name (c_unset_instance c).
Proof. intros c. unfold unset_name, sentinel_name. destruct (c_unset_instance c) as [[|x o]|]; reflexivity. Qed.
Section Whole.
Variable c : gconfig.
Variable st : list styler.
Variable s : schema.
Variable pc : fcfg.
Variable doc_of : operation -> option string.
Notation param := (generate_parameter_name st).
Notation node := (generate_node_name st).
Notation expand := (f_expand_input_types pc).
Notation class_of_op o name := (operation_class st (op_kind o) name).
Definition get_attr (attr : option string) (e : expr) : expr := match attr with Some a => EAttr e a | None => e end.
Definition the_call (d : fdef) (o : operation) (name : string) (attr : option string) : stmt :=
  let call := ECall (EName (last_comp (d_use d))) (pass_args pc d ++ [EName (class_of_op o name); EName "variables"]) (pass_kwargs pc d) in
  match d_kind d with
  | OpSubscription => SFor (d_async d) ["event"] call [SExpr (EYield (get_attr attr (EName "event")))]
  | _ => SReturn (Some (get_attr attr (if d_async d then EAwait call else call)))
  end.
Lemma collapsed_attr_ok : forall o e r e' r', let collapse := f_collapse_lonely pc && is_collapsable o in
  collapsed_attr st o collapse e r = (Ok e', r') -> e' = get_attr (collapsed_to node (f_collapse_lonely pc) (op_sels o)) e.
Proof.
  intros o e r e' r' collapse H. subst collapse. unfold collapsed_attr, is_collapsable, collapsed_to, first_field in *.
  destruct (f_collapse_lonely pc); cbn [andb] in H.
  2: { cbn in H. minv. now destruct (op_sels o) as [|[] []]. }
  destruct (op_sels o) as [|[] [|]]; cbn in H; minv; try reflexivity.
  all: discriminate.
Qed.
Lemma call_stmt_ok : forall o d r x r', call_stmt st pc d o (f_collapse_lonely pc && is_collapsable o) r = (Ok x, r') ->
  exists name, op_name o = Some name /\ x = the_call d o name (collapsed_to node (f_collapse_lonely pc) (op_sels o)).
Proof.
  intros o d r x r' H. unfold call_stmt, proxy_call, get_operation_class_name in H. minv. exists a2. split; [assumption|].
  unfold the_call, operation_class. destruct (d_kind d); minv; match goal with HX : collapsed_attr _ _ _ _ _ = _ |- _ => apply collapsed_attr_ok in HX; subst; now destruct (op_kind o) end.
Qed.
Lemma func_ok : forall o d r f r', generate_operation_func c st s pc doc_of o d r = (Ok f, r') ->
  exists name doc args rt r1 r2, op_name o = Some name /\ generate_parameters c st s pc d o r1 = (Ok args, r2)
  /\ f = SFunc (d_async d) ((if d_async d then f_prepend_async pc else f_prepend_sync pc) +s+ camel_to_snake name) args
           (docstring doc :: (NewDict "variables" :: flat_map (var_assign c st s pc) (op_vars o))
              ++ [the_call d o name (collapsed_to node (f_collapse_lonely pc) (op_sels o))]) (Some rt) [].
Proof.
  intros o d r f r' H. unfold generate_operation_func in H. minv.
  apply call_stmt_ok in H6. destruct H6 as (name & HN & ->). unfold func_name in H4. minv. rewrite HN in H. injection H as <-.
  apply assignments_ok in H2. subst a1. unfold generate_query_doc in H1. minv.
  do 6 eexists. split; [exact HN|]. split; [exact H5|]. reflexivity.
Qed.

Section Sends.
Variable glob : string -> option pv.
Variable subclass : string -> string -> bool.
Variable call : pv -> list pv -> list (string * pv) -> PySem.pres pv.
Notation evl := (eval glob subclass call).
Notation exb := (exec_block glob subclass call).
Lemma eval_get_attr : forall env e attr, evl env (get_attr attr e) = pbind (evl env e) (fun v => POk (result_of attr v)).
Proof.
  intros env e [a|]; cbn; [|destruct (evl env e); reflexivity].
  destruct (evl env e) as [v|]; cbn; [|reflexivity]. destruct v; try reflexivity. cbn. now destruct (dget a data).
Qed.
Lemma loop_yields : forall attr l env done, dget yielded env = done ->
  (match done with None | Some (PVList _) => True | _ => False end) ->
  exists env', for_loop glob subclass call ["event"] [SExpr (EYield (get_attr attr (EName "event")))] l env = POk (env', FNext)
  /\ match dget yielded env' with Some (PVList r) => r | _ => [] end
     = match done with Some (PVList r) => r | _ => [] end ++ map (result_of attr) l.
Proof.
  intros attr. induction l as [|x l IH]; intros env done E D.
  - exists env. cbn. rewrite E, app_nil_r. auto.
  - cbn [for_loop bind_targets pbind exec_block exec]. rewrite eval_get_attr. cbn [eval]. rewrite dget_dset, String.eqb_refl.
    cbn [pbind fst snd]. set (env1 := yield_value _ _).
    assert (Y : dget yielded env1 = Some (PVList (match done with Some (PVList r) => r | _ => [] end ++ [result_of attr x]))).
    { unfold env1, yield_value. rewrite !dget_dset, String.eqb_refl. change (String.eqb yielded "event") with false. cbn iota. rewrite E. reflexivity. }
    destruct (IH env1 _ Y I) as (env2 & E2 & Y2). exists env2. split; [exact E2|]. rewrite Y2, <- app_assoc. reflexivity.
Qed.
Lemma kwargs_eval : forall env ks, (forall k, In k ks -> exists v, dget k env = Some v) ->
  pmap (fun kw : option string * expr => pbind (evl env (snd kw)) (fun v => match fst kw with Some n => POk [(n, v)] | None => spread v end))
       (map (fun k => (Some k, EName k)) ks) = POk (map (fun k => [(k, argument env k)]) ks).
Proof.
  intros env ks. induction ks as [|k ks IH]; intros H; [reflexivity|]. cbn [map pmap]. rewrite IH by (intros; apply H; now right).
  destruct (H k (or_introl eq_refl)) as [v Hv]. cbn. rewrite Hv. cbn. unfold argument. rewrite Hv. reflexivity.
Qed.
Lemma pmap_app : forall {A B} (f : A -> PySem.pres B) l1 l2 r1 r2, pmap f l1 = POk r1 -> pmap f l2 = POk r2 -> pmap f (l1 ++ l2) = POk (r1 ++ r2).
Proof.
  intros A B f. induction l1 as [|x l1 IH]; intros l2 r1 r2 H1 H2; cbn in *; [injection H1 as <-; exact H2|].
  destruct (f x) as [y|]; cbn in *; [|discriminate]. destruct (pmap f l1) as [ys|] eqn:E; cbn in *; [|discriminate].
  injection H1 as <-. now rewrite (IH l2 ys r2 eq_refl H2).
Qed.
Lemma concat_single : forall {A B} (f : A -> B) l, concat (map (fun k => [f k]) l) = map f l.
Proof. intros A B f l. induction l as [|x l IH]; [reflexivity|]. cbn. now rewrite IH. Qed.

Notation scope o := (locals param expand (op_vars o)).
Theorem sends : forall o d r f r' name a n args body rt decs us proxy k pos kws env,
  generate_operation_func c st s pc doc_of o d r = (Ok f, r') -> f = SFunc a n args body rt decs ->
  op_name o = Some name -> no_optional_expansion expand (op_vars o) ->
  NoDup (map v_name (op_vars o)) ->
  (forall v, In v (op_vars o) -> NoDup (map fst (input_fields s (v_type v)))) ->
  let u := sentinel_name (c_unset_instance c) in
  no_clash (map pa_name (a_args args)) (scope o) [u; last_comp (d_use d); class_of_op o name] ->
  glob u = Some (PVSing us) -> glob (last_comp (d_use d)) = Some (PVFun proxy) -> proxy <> "isinstance" ->
  glob (class_of_op o name) = Some (PVClass k) ->
  binds glob subclass call args pos kws env ->
  calls_once glob subclass call (optype_eqb (d_kind d) OpSubscription) body env (PVFun proxy)
    (map (argument env) (map fa_key (extra_args pc d))
      ++ [PVClass k; PVDict (payload s param node expand (PVSing us) (passed args pos kws) (op_vars o))])
    (map (fun k => (k, argument env k)) (map fk_key (extra_kwargs pc d)))
    (collapsed_to node (f_collapse_lonely pc) (op_sels o)).
Proof.
  intros o d r f r' name a n args body rt decs us proxy k pos kws env HG -> HN HX HV HF u NC Gu Gp Np Gc HB.
  apply func_ok in HG. destruct HG as (name' & doc & args' & rt' & r1 & r2 & HN' & HP & [= -> -> <- -> -> ->]).
  rewrite HN in HN'. injection HN' as <-.
  apply parameters_spec in HP; [|assumption]. destruct HP as (P1 & P2 & P3).
  assert (SN := signature_names _ _ _ P1 P2). assert (SS := signature_split _ _ _ P1 P2).
  destruct NC as [NC1 NC2 NC3 NC4]. rewrite <- SN in NC1.
  assert (EN := binds_names _ _ _ _ _ _ _ HB).
  assert (Hnone : forall x, ~ In x (map pa_name (a_args args)) -> dget x env = None).
  { intros x Hx. apply dget_None. unfold dkeys. now rewrite EN, SN. }
  assert (Hsome : forall x, In x (map pa_name (a_args args)) -> exists v, dget x env = Some v).
  { intros x Hx. rewrite <- SN in Hx. apply in_map_iff in Hx. destruct Hx as ((y & od) & <- & Hy).
    destruct (binds_value _ _ _ _ _ _ _ _ _ HB NC1 Hy) as (v & Hv & _). eauto. }
  assert (Breq : forall x, In x (required_parameters s param node expand (map fa_key (extra_args pc d)) (op_vars o)) ->
                 bound us (passed args pos kws) env true x).
  { intros x Hx. assert (I : In (x, None) (signature args)).
    { rewrite SS. apply in_or_app. left. apply (in_map (fun x : string => (x, @None expr))) in Hx. exact Hx. }
    destruct (binds_value _ _ _ _ _ _ _ _ _ HB NC1 I) as (v & Hv & W). unfold bound.
    destruct (dget x (passed args pos kws)); [congruence|]. destruct W as (? & [=] & _). }
  assert (Du : forall e, evl [] (EName u) = POk e -> e = PVSing us).
  { intros e E. cbn in E. rewrite Gu in E. congruence. }
  assert (Bopt : forall x, In x (expanded_names s node expand (op_vars o) false ++ plain_names param expand (op_vars o) false) ->
                 bound us (passed args pos kws) env false x).
  { intros x Hx. assert (I : In (x, Some (EName u)) (signature args)).
    { rewrite SS. apply in_or_app. right. rewrite P3. unfold optional_parameters. rewrite !map_app, !map_map.
      unfold u. rewrite <- sentinel_eq. apply in_app_or in Hx. destruct Hx as [Hx|Hx].
      - now apply (combine_In_l (fun _ => Some (EName (unset_name c)))).
      - apply combine_In_r. now apply (combine_In_l (fun _ => Some (EName (unset_name c)))). }
    destruct (binds_value _ _ _ _ _ _ _ _ _ HB NC1 I) as (v & Hv & W). unfold bound.
    destruct (dget x (passed args pos kws)); [congruence|]. destruct W as (e & [= <-] & E). apply Du in E. subst. auto. }
  assert (Inp : forall x, In x (required_parameters s param node expand (map fa_key (extra_args pc d)) (op_vars o)) \/
                In x (optional_parameters s param node expand (map fk_key (extra_kwargs pc d)) (op_vars o)) -> In x (map pa_name (a_args args))).
  { intros x Hx. rewrite P1. apply in_or_app. exact Hx. }
  (* globals *)
  destruct (NC3 u (or_introl eq_refl)) as (Cu1 & Cu2 & _).
  destruct (NC3 (last_comp (d_use d))) as (Cp1 & Cp2 & _); [now right; left|].
  destruct (NC3 (class_of_op o name)) as (Cc1 & Cc2 & _); [now right; right; left|].
  (* the assignments *)
  set (env0 := dset "variables" (PVDict []) env).
  assert (F0 : forall x, ~ In x (scope o) -> dget x env0 = dget x env).
  { intros x Hx. unfold env0. rewrite dget_dset. destruct (String.eqb_spec x "variables") as [->|]; [|reflexivity].
    destruct Hx. now left. }
  edestruct (exec_vars glob subclass call u us Gu (passed args pos kws) c (eq_sym (sentinel_eq c)) st s pc (scope o) Cu2 (or_introl eq_refl)
               (op_vars o) env0 [] [the_call d o name (collapsed_to node (f_collapse_lonely pc) (op_sels o))]) as (env1 & E1 & D1 & O1).
  { rewrite F0 by assumption. now apply Hnone. }
  { unfold env0. rewrite dget_dset. reflexivity. }
  { exact HV. }
  { intros ? ? []. }
  { intros v Hv. unfold var_ok. destruct (mem (v_name v) expand) eqn:EM.
    - split; [right; unfold inner_names; apply (in_map (fun v => "_" +s+ param (v_name v))), filter_In; auto|].
      split; [now apply HF|]. intros kf f Hf.
      assert (Ip : forall b, nonnullb (if_type f) = b -> In (node kf) (expanded_names s node expand (op_vars o) b)).
      { intros b Eb. unfold expanded_names. apply in_flat_map. exists v. split; [assumption|]. rewrite EM.
        apply in_map_iff. exists (kf, f). split; [reflexivity|]. apply filter_In. split; [assumption|]. cbn. rewrite Eb. now destruct b. }
      destruct (nonnullb (if_type f)) eqn:EF.
      + assert (R : In (node kf) (required_parameters s param node expand (map fa_key (extra_args pc d)) (op_vars o))).
        { unfold required_parameters. apply in_or_app. right. apply in_or_app. left. auto. }
        split; [apply NC2, Inp; auto|]. apply Breq in R. unfold bound in *. rewrite F0 by (apply NC2, Inp; left; unfold required_parameters; apply in_or_app; right; apply in_or_app; left; auto). exact R.
      + assert (R : In (node kf) (optional_parameters s param node expand (map fk_key (extra_kwargs pc d)) (op_vars o))).
        { unfold optional_parameters. apply in_or_app. left. auto. }
        split; [apply NC2, Inp; auto|]. unfold bound in *. rewrite F0 by (apply NC2, Inp; auto). apply Bopt. apply in_or_app. left. auto.
    - assert (Ip : forall b, requiredb v = b -> In (param (v_name v)) (plain_names param expand (op_vars o) b)).
      { intros b Eb. unfold plain_names. apply (in_map (fun v => param (v_name v))), filter_In. split; [assumption|].
        rewrite EM, Eb. now destruct b. }
      destruct (requiredb v) eqn:EF.
      + assert (R : In (param (v_name v)) (required_parameters s param node expand (map fa_key (extra_args pc d)) (op_vars o))).
        { unfold required_parameters. apply in_or_app. right. apply in_or_app. right. auto. }
        split; [apply NC2, Inp; auto|]. unfold bound in *. rewrite F0 by (apply NC2, Inp; auto). now apply Breq.
      + assert (R : In (param (v_name v)) (optional_parameters s param node expand (map fk_key (extra_kwargs pc d)) (op_vars o))).
        { unfold optional_parameters. apply in_or_app. right. apply in_or_app. left. auto. }
        split; [apply NC2, Inp; auto|]. unfold bound in *. rewrite F0 by (apply NC2, Inp; auto). apply Bopt. apply in_or_app. right. auto. }
  cbn [app] in D1.
  assert (F1 : forall x, ~ In x (scope o) -> dget x env1 = dget x env) by (intros x Hx; rewrite O1, F0; auto).
  assert (F1p : forall x, In x (map pa_name (a_args args)) -> dget x env1 = dget x env) by (intros x Hx; apply F1, NC2, Hx).
  (* the call *)
  set (pcall := ECall (EName (last_comp (d_use d))) (pass_args pc d ++ [EName (class_of_op o name); EName "variables"]) (pass_kwargs pc d)).
  set (pargs := map (argument env) (map fa_key (extra_args pc d))
      ++ [PVClass k; PVDict (payload s param node expand (PVSing us) (passed args pos kws) (op_vars o))]).
  set (pkws := map (fun k => (k, argument env k)) (map fk_key (extra_kwargs pc d))).
  assert (EC : evl env1 pcall = call (PVFun proxy) pargs pkws).
  { assert (K1 : evl env1 (EName (last_comp (d_use d))) = POk (PVFun proxy)).
    { apply eval_global; [rewrite F1 by assumption; now apply Hnone|exact Gp]. }
    assert (K2 : pmap (evl env1) (pass_args pc d ++ [EName (class_of_op o name); EName "variables"]) = POk pargs).
    { apply pmap_app.
      - unfold pass_args. rewrite map_map. rewrite (pmap_ok _ (fun e => match e with EName x => argument env x | _ => PVConst CNone end)).
        + rewrite map_map. reflexivity.
        + intros e He. apply in_map_iff in He. destruct He as (x & <- & Hx).
          assert (Ix : In (fa_key x) (map pa_name (a_args args))).
          { apply Inp. left. unfold required_parameters. apply in_or_app. left. now apply in_map. }
          destruct (Hsome _ Ix) as [v Hv]. unfold argument. rewrite Hv. apply eval_local. now rewrite F1p.
      - cbn [pmap]. rewrite (eval_global glob subclass call env1 _ (PVClass k)); [|rewrite F1 by assumption; now apply Hnone|exact Gc].
        cbn [pbind]. rewrite (eval_local _ _ _ _ _ _ D1). reflexivity. }
    assert (K3 : pmap (fun kw : option string * expr => pbind (evl env1 (snd kw)) (fun v => match fst kw with Some n => POk [(n, v)] | None => spread v end))
                  (pass_kwargs pc d) = POk (map (fun k => [(k, argument env k)]) (map fk_key (extra_kwargs pc d)))).
    { assert (KI : forall x, In x (map fk_key (extra_kwargs pc d)) -> In x (map pa_name (a_args args))).
      { intros x Hx. apply Inp. right. unfold optional_parameters. apply in_or_app. right. apply in_or_app. now right. }
      unfold pass_kwargs. rewrite <- (map_map fk_key (fun k => (Some k, EName k))). rewrite kwargs_eval.
      - f_equal. apply map_ext_in. intros x Hx. unfold argument. now rewrite F1p by auto.
      - intros x Hx. rewrite F1p by auto. apply Hsome. auto. }
    unfold pcall. cbn [eval]. change (eval glob subclass call env1 (EName (last_comp (d_use d)))) with (evl env1 (EName (last_comp (d_use d)))).
    cbn [eval] in K1. rewrite K1. cbn [pbind]. rewrite K2. cbn [pbind]. rewrite K3. cbn [pbind]. rewrite apply_fun by assumption.
    unfold pkws. now rewrite (concat_single (fun k => (k, argument env k))). }
  set (last := the_call d o name (collapsed_to node (f_collapse_lonely pc) (op_sels o))) in *.
  assert (RUN : exb (docstring doc :: NewDict "variables" :: flat_map (var_assign c st s pc) (op_vars o) ++ [last]) env = exb [last] env1).
  { unfold docstring. cbn [exec_block exec eval pbind snd fst]. exact E1. }
  unfold calls_once, run_generator, run_body. rewrite RUN. unfold last, the_call. fold pcall. destruct (d_kind d); cbn [optype_eqb].
  3: { cbn [exec_block]. rewrite exec_SFor, EC. fold pargs pkws.
       destruct (call (PVFun proxy) pargs pkws) as [v|]; cbn [pbind]; [|reflexivity].
       assert (Y : dget yielded env1 = None).
       { rewrite F1; [apply Hnone; exact NC4|]. unfold locals, inner_names. intros [X|X]; [discriminate|].
         apply in_map_iff in X. destruct X as (w & X & _). discriminate. }
       destruct v; try reflexivity;
         destruct (loop_yields (collapsed_to node (f_collapse_lonely pc) (op_sels o)) l env1 None Y I) as (env2 & E2 & Y2);
         cbn [pbind]; rewrite E2; cbn [pbind fst snd]; cbn [app] in Y2; now rewrite Y2. }
  all: cbn [exec_block exec]; rewrite eval_get_attr;
    assert (EA : evl env1 (if d_async d then EAwait pcall else pcall) = call (PVFun proxy) pargs pkws)
      by (destruct (d_async d); [cbn [eval]|]; exact EC);
    rewrite EA; fold pargs pkws; destruct (call (PVFun proxy) pargs pkws); reflexivity.
Qed.
End Sends.
End Whole.
