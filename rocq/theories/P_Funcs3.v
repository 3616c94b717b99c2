(** Consequences of [P_Funcs] in the form the properties state them. *)
From Verif Require Import Base PyAst Gql Config Stylers Registry Utils Funcs PySem P_Base P_Monad Spec_Funcs P_Indep P_Funcs P_Funcs2.
From Coq Require Import Lia Permutation.

Section Signature.
Variable c : gconfig.
Variable st : list styler.
Variable s : schema.
Variable pc : fcfg.
Variable doc_of : operation -> option string.
Notation param := (generate_parameter_name st).
Notation node := (generate_node_name st).
Notation expand := (f_expand_input_types pc).
Notation extra d := (map fa_key (extra_args pc d)).
Notation extra_kw d := (map fk_key (extra_kwargs pc d)).

Lemma flags_of : forall a req opt, map pa_name (a_args a) = req ++ opt -> length (a_defaults a) = length opt ->
  map (fun p => (fst p, match snd p with Some _ => true | None => false end)) (signature a)
  = map (fun x => (x, false)) req ++ map (fun x => (x, true)) opt.
Proof.
  intros a req opt H1 H2. rewrite (signature_split _ _ _ H1 H2), map_app, map_map. f_equal.
  clear H1. revert H2. generalize (a_defaults a). induction opt as [|x opt IH]; intros [|e l]; cbn; intros E; try discriminate; [reflexivity|].
  f_equal. apply IH. now injection E.
Qed.
Theorem signature_any : forall o d r a n args body rt decs r',
  generate_operation_func c st s pc doc_of o d r = (Ok (SFunc a n args body rt decs), r') ->
  map (fun p => (fst p, match snd p with Some _ => true | None => false end)) (signature args)
  = map (fun x => (x, false)) (required_parameters s param node expand (extra d) (filter requiredb (op_vars o)))
    ++ map (fun x => (x, true)) (expanded_names s node expand (filter requiredb (op_vars o)) false
                                 ++ map (fun v => param (v_name v)) (filter (fun v => negb (requiredb v)) (op_vars o)) ++ extra_kw d)
  /\ length (signature args) = length (a_args args).
Proof.
  intros o d r a n args body rt decs r' H. apply func_ok in H. destruct H as (name & doc & args' & rt' & r1 & r2 & _ & HP & [= _ _ <- _ _]).
  apply parameters_ok in HP. destruct HP as [P1 P2].
  assert (E : forall vars, filter var_required vars = filter requiredb vars) by (intros; apply filter_ext; apply required_eq).
  assert (E' : filter (fun v => negb (var_required v)) (op_vars o) = filter (fun v => negb (requiredb v)) (op_vars o)).
  { apply filter_ext. intros v. now rewrite required_eq. }
  assert (L : length (a_defaults args) = length (opt_all st s pc d (op_vars o))) by (rewrite P2; apply defaults_length).
  split.
  - rewrite (flags_of _ _ _ P1 L). unfold req_all, opt_all, required_parameters. rewrite E, E'. do 2 f_equal.
    f_equal. f_equal. unfold plain_names. rewrite filter_filter. f_equal. apply filter_ext. intros v.
    destruct (requiredb v), (mem (v_name v) expand); reflexivity.
  - rewrite <- (map_length fst), (signature_names _ _ _ P1 L), map_length. reflexivity.
Qed.
Lemma perm_split : forall {A B} (f : A -> bool) (g : A -> B) l,
  Permutation (map g l) (map g (filter (fun x => Bool.eqb (f x) true) l) ++ map g (filter (fun x => Bool.eqb (f x) false) l)).
Proof.
  intros A B f g l. induction l as [|x l IH]; [constructor|]. cbn. destruct (f x); cbn.
  - now constructor.
  - now apply Permutation_cons_app.
Qed.
Theorem signature_perm : forall o d r a n args body rt decs r', no_optional_expansion expand (op_vars o) ->
  generate_operation_func c st s pc doc_of o d r = (Ok (SFunc a n args body rt decs), r') ->
  map (fun p => (fst p, match snd p with Some _ => true | None => false end)) (signature args)
  = map (fun x => (x, false)) (required_parameters s param node expand (extra d) (op_vars o))
    ++ map (fun x => (x, true)) (optional_parameters s param node expand (extra_kw d) (op_vars o))
  /\ Permutation (map pa_name (a_args args)) (parameter_sources s param node expand (extra d) (extra_kw d) (op_vars o)).
Proof.
  intros o d r a n args body rt decs r' HE H. apply func_ok in H. destruct H as (name & doc & args' & rt' & r1 & r2 & _ & HP & [= _ _ <- _ _]).
  apply parameters_spec in HP; [|assumption]. destruct HP as (P1 & P2 & _). split; [now apply flags_of|].
  rewrite P1. unfold required_parameters, optional_parameters, parameter_sources. rewrite <- !app_assoc. apply Permutation_app_head.
  set (X := expanded_names s node expand (op_vars o) true). set (Y := plain_names param expand (op_vars o) true).
  set (X' := expanded_names s node expand (op_vars o) false). set (Y' := plain_names param expand (op_vars o) false).
  assert (G : Permutation (X ++ Y ++ X' ++ Y')
     (flat_map (fun v => if mem (v_name v) expand then map (fun kf => node (fst kf)) (input_fields s (v_type v)) else [param (v_name v)]) (op_vars o))).
  { unfold X, Y, X', Y', expanded_names, plain_names. clear. induction (op_vars o) as [|v vars IH]; [constructor|].
    cbn [flat_map filter]. destruct (mem (v_name v) expand) eqn:M; cbn [negb andb].
    - rewrite (perm_split (fun kf => nonnullb (if_type (snd kf))) (fun kf => node (fst kf)) (input_fields s (v_type v))).
      rewrite <- IH. rewrite <- !app_assoc. apply Permutation_app_head.
      rewrite (Permutation_app_comm (map _ (filter _ (input_fields _ _))) (_ ++ _ ++ _ ++ _)). rewrite <- !app_assoc.
      do 2 apply Permutation_app_head. rewrite Permutation_app_comm, <- app_assoc. reflexivity.
    - rewrite <- IH. cbn [app]. destruct (requiredb v); cbn [Bool.eqb map app].
      + symmetry. apply Permutation_cons_app. reflexivity.
      + rewrite !app_assoc. symmetry. apply Permutation_cons_app. reflexivity. }
  rewrite <- G. rewrite (Permutation_app_comm (extra_kw d)). rewrite <- !app_assoc. reflexivity.
Qed.
End Signature.

(** ** What a payload contains *)
Section Content.
Variable s : schema.
Variable param field_param : string -> string.
Variable expand : list string.
Variable unset : pv.
Variable args : dict pv.
Notation pay := (payload s param field_param expand unset args).
Lemma entry_In : forall req key p k w, In (k, w) (entry unset args req key p) <-> k = PVConst (CStr key) /\ provided unset args req p w.
Proof.
  intros req key p k w. unfold entry, provided. destruct (dget p args) as [v|].
  - destruct req; cbn.
    + split; [intros [[= <- <-]|[]]; auto|intros (-> & [= <-] & _); auto].
    + destruct (same_object v unset) eqn:E; cbn.
      * split; [easy|intros (_ & [= <-] & [|]); congruence].
      * split; [intros [[= <- <-]|[]]; auto|intros (-> & [= <-] & _); auto].
  - split; [easy|intros (_ & [=] & _)].
Qed.
Theorem payload_plain : forall vars v w, NoDup (map v_name vars) -> In v vars -> ~ In (v_name v) expand ->
  (In (PVConst (CStr (v_name v)), w) (pay vars) <-> provided unset args (requiredb v) (param (v_name v)) w).
Proof.
  intros vars v w ND Hv Hx. unfold payload. rewrite in_flat_map. split.
  - intros (v' & Hv' & H). unfold var_entry in H. assert (v' = v).
    { assert (K : v_name v' = v_name v).
      { destruct (mem (v_name v') expand); [destruct H as [[= K _]|[]]; exact K|]. apply entry_In in H. now destruct H as [[= K] _]. }
      clear - ND Hv Hv' K. induction vars as [|x vars IH]; [easy|]. cbn in ND. apply NoDup_cons_iff in ND. destruct ND as [N ND].
      destruct Hv as [<-|Hv], Hv' as [<-|Hv']; auto; [destruct N|destruct N]; [rewrite <- K|rewrite K]; now apply in_map. }
    subst v'. destruct (mem_spec (v_name v) expand); [contradiction|]. now apply entry_In in H.
  - intros H. exists v. split; [exact Hv|]. unfold var_entry. destruct (mem_spec (v_name v) expand); [contradiction|]. now apply entry_In.
Qed.
Theorem payload_keys : forall vars k w, In (k, w) (pay vars) -> exists v, In v vars /\ k = PVConst (CStr (v_name v)).
Proof.
  intros vars k w H. unfold payload in H. apply in_flat_map in H. destruct H as (v & Hv & H). exists v. split; [exact Hv|].
  unfold var_entry in H. destruct (mem (v_name v) expand); [destruct H as [[= <- _]|[]]; reflexivity|]. apply entry_In in H. apply H.
Qed.
Lemma entries_NoDup : forall {A} (name : A -> string) (f : A -> list (pv * pv)) l,
  NoDup (map name l) -> (forall x, f x = [] \/ exists w, f x = [(PVConst (CStr (name x)), w)]) -> NoDup (map fst (flat_map f l)).
Proof.
  intros A name f l ND H. induction l as [|x l IH]; [constructor|]. cbn in *. apply NoDup_cons_iff in ND. destruct ND as [N ND].
  destruct (H x) as [->|[w ->]]; cbn; [auto|]. constructor; [|auto].
  intros I. apply in_map_iff in I. destruct I as ((k & v) & E & I). cbn in E. subst k. apply in_flat_map in I. destruct I as (y & Hy & I).
  destruct (H y) as [E|[w' E]]; rewrite E in I; [easy|]. destruct I as [[= E' _]|[]]. apply N. rewrite <- E'. now apply in_map.
Qed.
Lemma entry_shape : forall req key p, entry unset args req key p = [] \/ exists w, entry unset args req key p = [(PVConst (CStr key), w)].
Proof. intros. unfold entry. destruct (dget p args); [|now left]. destruct (_ || _); eauto. Qed.
Theorem payload_distinct : forall vars, NoDup (map v_name vars) -> NoDup (map fst (pay vars)).
Proof.
  intros vars ND. apply (entries_NoDup v_name); [exact ND|]. intros v. unfold var_entry.
  destruct (mem (v_name v) expand); [right; eauto|apply entry_shape].
Qed.
Theorem payload_expanded : forall vars v, In v vars -> In (v_name v) expand ->
  NoDup (map fst (input_fields s (v_type v))) ->
  exists object, In (PVConst (CStr (v_name v)), PVDict object) (pay vars) /\ NoDup (map fst object)
  /\ (forall k w, In (k, w) object -> exists key x, k = PVConst (CStr key) /\ In (key, x) (input_fields s (v_type v)))
  /\ forall key x w, In (key, x) (input_fields s (v_type v)) ->
     (In (PVConst (CStr key), w) object <-> provided unset args (nonnullb (if_type x)) (field_param key) w).
Proof.
  intros vars v Hv Hx ND. exists (object_of field_param unset args (input_fields s (v_type v))). split; [|split; [|split]].
  - unfold payload. apply in_flat_map. exists v. split; [exact Hv|]. unfold var_entry. destruct (mem_spec (v_name v) expand); [now left|contradiction].
  - apply (entries_NoDup fst); [exact ND|]. intros kf. apply entry_shape.
  - intros k w H. unfold object_of in H. apply in_flat_map in H. destruct H as ((key & x) & Hf & H). apply entry_In in H. cbn in H.
    exists key, x. split; [apply H|exact Hf].
  - intros key x w Hf. unfold object_of. rewrite in_flat_map. split.
    + intros ((key' & x') & Hf' & H). apply entry_In in H. cbn in H. destruct H as [[= <-] H].
      assert (x = x'); [|now subst]. clear - ND Hf Hf'. revert Hf Hf' ND. generalize (input_fields s (v_type v)).
      induction l as [|[k y] l IH]; [easy|]. cbn. intros H1 H2 ND. apply NoDup_cons_iff in ND. destruct ND as [N ND].
      destruct H1 as [E1|H1], H2 as [E2|H2]; [congruence| | |auto]; destruct N; [injection E1 as -> _; now apply (in_map fst) in H2|injection E2 as -> _; now apply (in_map fst) in H1].
    + intros H. exists (key, x). split; [exact Hf|]. now apply entry_In.
Qed.
Theorem provided_distinct : forall fields, NoDup (map fst fields) -> 
  NoDup (map fst (provided_fields field_param unset args fields))
  /\ (forall key w, In (key, w) (provided_fields field_param unset args fields) -> exists x, In (key, x) fields)
  /\ forall key x w, In (key, x) fields ->
     (In (key, w) (provided_fields field_param unset args fields) <-> provided unset args (nonnullb (if_type x)) (field_param key) w).
Proof.
  intros fields ND.
  assert (IFF : forall key w, In (key, w) (provided_fields field_param unset args fields)
                 <-> exists x, In (key, x) fields /\ provided unset args (nonnullb (if_type x)) (field_param key) w).
  { intros key w. unfold provided_fields, provided. rewrite in_flat_map. split.
    - intros ((k & x) & Hf & H). cbn in H. destruct (dget (field_param k) args) as [v|] eqn:E; [|easy].
      destruct (nonnullb (if_type x)) eqn:N; cbn in H.
      + destruct H as [[= -> ->]|[]]. exists x. rewrite E, N. auto.
      + destruct (same_object v unset) eqn:S; [easy|]. destruct H as [[= -> ->]|[]]. exists x. rewrite E, N. auto.
    - intros (x & Hf & Hd & H). exists (key, x). split; [exact Hf|]. cbn. rewrite Hd.
      destruct H as [->| ->]; [now left|]. rewrite orb_true_r. now left. }
  split; [|split].
  - clear IFF. induction fields as [|[k x] fields IH]; [constructor|]. cbn in ND. apply NoDup_cons_iff in ND. destruct ND as [N ND].
    cbn [provided_fields flat_map]. rewrite map_app. fold (provided_fields field_param unset args fields).
    cbn [fst snd]. destruct (dget (field_param k) args); [|now apply IH]. destruct (_ || _); [|now apply IH].
    cbn. constructor; [|now apply IH]. intros I. apply N. apply in_map_iff in I. destruct I as ((k' & w) & <- & I).
    unfold provided_fields in I. apply in_flat_map in I. destruct I as ((k2 & x2) & I & J). cbn in J.
    destruct (dget (field_param k2) args); [|easy]. destruct (_ || _); [|easy]. destruct J as [[= <- _]|[]]. cbn. now apply (in_map fst) in I.
  - intros key w H. apply IFF in H. destruct H as (x & H & _). eauto.
  - intros key x w Hf. rewrite IFF. split; [|eauto]. intros (x' & Hf' & H). assert (x = x'); [|now subst].
    clear - ND Hf Hf'. induction fields as [|[k y] l IH]; [easy|]. cbn in ND. apply NoDup_cons_iff in ND. destruct ND as [N ND].
    destruct Hf as [E1|H1], Hf' as [E2|H2]; [congruence| | |auto]; destruct N; [injection E1 as -> _; now apply (in_map fst) in H2|injection E2 as -> _; now apply (in_map fst) in H1].
Qed.
End Content.
Theorem signature_C26 : forall c st s pc doc_of o d r a n args body rt decs r',
  generate_operation_func c st s pc doc_of o d r = (Ok (SFunc a n args body rt decs), r') ->
  let param := generate_parameter_name st in
  let node := generate_node_name st in
  let expand := f_expand_input_types pc in
  map (fun p => (fst p, match snd p with Some _ => true | None => false end)) (signature args)
  = map (fun x => (x, false)) (required_parameters s param node expand (map fa_key (extra_args pc d)) (filter requiredb (op_vars o)))
    ++ map (fun x => (x, true)) (expanded_names s node expand (filter requiredb (op_vars o)) false
                                 ++ map (fun v => param (v_name v)) (filter (fun v => negb (requiredb v)) (op_vars o))
                                 ++ map fk_key (extra_kwargs pc d))
  /\ length (signature args) = length (a_args args).
Proof. intros. eapply signature_any. eassumption. Qed.
Theorem distinct_C26 : forall c st s pc doc_of o d r a n args body rt decs r',
  no_optional_expansion (f_expand_input_types pc) (op_vars o) ->
  generate_operation_func c st s pc doc_of o d r = (Ok (SFunc a n args body rt decs), r') ->
  let sources := parameter_sources s (generate_parameter_name st) (generate_node_name st) (f_expand_input_types pc)
                   (map fa_key (extra_args pc d)) (map fk_key (extra_kwargs pc d)) (op_vars o) in
  Permutation (map pa_name (a_args args)) sources /\ (NoDup (map pa_name (a_args args)) <-> NoDup sources).
Proof.
  intros c st s pc doc_of o d r a n args body rt decs r' HE H sources.
  destruct (signature_perm c st s pc doc_of o d r a n args body rt decs r' HE H) as [_ P]. split; [exact P|].
  split; [|apply Permutation_sym in P]; now apply Permutation_NoDup.
Qed.
Theorem payload_C27 : forall s param field_param expand unset args vars, NoDup (map v_name vars) ->
  let p := payload s param field_param expand unset args vars in
  NoDup (map fst p)
  /\ (forall k w, In (k, w) p -> exists v, In v vars /\ k = PVConst (CStr (v_name v)))
  /\ forall v w, In v vars -> ~ In (v_name v) expand ->
     (In (PVConst (CStr (v_name v)), w) p <-> provided unset args (requiredb v) (param (v_name v)) w).
Proof.
  intros s param field_param expand unset args vars ND p. split; [now apply payload_distinct|]. split; [now apply payload_keys|].
  intros v w Hv Hx. now apply payload_plain.
Qed.
Theorem parameters_C28 : forall c st s pc doc_of o d r a n args body rt decs r',
  no_optional_expansion (f_expand_input_types pc) (op_vars o) ->
  generate_operation_func c st s pc doc_of o d r = (Ok (SFunc a n args body rt decs), r') ->
  forall v key x, In v (op_vars o) -> In (v_name v) (f_expand_input_types pc) -> In (key, x) (input_fields s (v_type v)) ->
  exists default, In (generate_node_name st key, default) (signature args) /\ (default = None <-> exists t, if_type x = GNonNull t).
Proof.
  intros c st s pc doc_of o d r a n args body rt decs r' HE H v key x Hv Hx Hf.
  destruct (signature_perm c st s pc doc_of o d r a n args body rt decs r' HE H) as [P _].
  assert (I : In (generate_node_name st key, negb (nonnullb (if_type x)))
     (map (fun p => (fst p, match snd p with Some _ => true | None => false end)) (signature args))).
  { rewrite P. apply in_or_app.
    assert (E : In (generate_node_name st key) (expanded_names s (generate_node_name st) (f_expand_input_types pc) (op_vars o) (nonnullb (if_type x)))).
    { unfold expanded_names. apply in_flat_map. exists v. split; [exact Hv|]. destruct (P_Base.mem_spec (v_name v) (f_expand_input_types pc)); [|contradiction].
      apply in_map_iff. exists (key, x). split; [reflexivity|]. apply filter_In. split; [exact Hf|]. cbn. apply Bool.eqb_reflx. }
    destruct (nonnullb (if_type x)); [left|right]; apply in_map_iff; eexists; (split; [reflexivity|]).
    - unfold required_parameters. apply in_or_app. right. apply in_or_app. now left.
    - unfold optional_parameters. apply in_or_app. now left. }
  apply in_map_iff in I. destruct I as ((k & od) & [= -> E] & I). exists od. split; [exact I|].
  destruct od, (if_type x); cbn in E; split; try discriminate; eauto; intros [? [=]].
Qed.
Theorem variants_C29 : forall c st s pc doc_of ops r fs r', generate_functions c st s pc doc_of ops r = (Ok fs, r') ->
  exists F, fs = flat_map (fun o => map (F o) (definitions_for pc o)) ops
  /\ forall o d1 d2, In o ops -> In d1 (definitions_for pc o) -> In d2 (definitions_for pc o) ->
     d_async d1 = false -> d_async d2 = true -> d_kind d1 = d_kind d2 -> d_args d1 = d_args d2 -> d_kwargs d1 = d_kwargs d2 ->
     variants (last_comp (d_use d1)) (last_comp (d_use d2)) (F o d1) (F o d2).
Proof.
  intros c st s pc doc_of ops r fs r' H. apply plugin_functions in H. destruct H as (F & -> & HF). exists F. split; [reflexivity|].
  intros o d1 d2 Ho H1 H2 S1 S2 K A W.
  destruct (HF o d1 Ho H1) as (r1 & r2 & C1 & E1). destruct (HF o d2 Ho H2) as (r3 & r4 & C2 & E2).
  eapply variants_of; [|exact E1|exact E2|..]; try assumption. congruence.
Qed.
Theorem factory_C30 : forall c st s pc glob subclass call n fields r f r' a fn args body rt decs us k cls pos kws env,
  generate_input_func c st s pc n fields r = (Ok f, r') -> f = SFunc a fn args body rt decs ->
  dget n (r_inputs r) = Some cls -> NoDup (map fst fields) ->
  let u := sentinel_name (c_unset_instance c) in
  no_clash (map pa_name (a_args args)) ["data"] [u; cls] ->
  glob u = Some (PVSing us) -> glob cls = Some (PVClass k) ->
  binds glob subclass call args pos kws env ->
  exists sent, run_body glob subclass call body env = call (PVClass k) [] sent
  /\ NoDup (map fst sent) /\ (forall key w, In (key, w) sent -> exists x, In (key, x) fields)
  /\ (forall key x w, In (key, x) fields ->
        (In (key, w) sent <-> provided (PVSing us) (passed args pos kws) (nonnullb (if_type x)) (generate_node_name st key) w))
  /\ (forall key x, In (key, x) fields -> nonnullb (if_type x) = true -> exists w, In (key, w) sent).
Proof.
  intros c st s pc glob subclass call n fields r f r' a fn args body rt decs us k cls pos kws env HG Hf HC HN u NC Gu Gc HB.
  destruct (factory c st s pc glob subclass call n fields r f r' a fn args body rt decs us k cls pos kws env HG Hf HC HN NC Gu Gc HB) as [E Q].
  eexists. split; [exact E|]. destruct (provided_distinct (generate_node_name st) (PVSing us) (passed args pos kws) fields HN) as (P1 & P2 & P3).
  split; [exact P1|]. split; [exact P2|]. split; [exact P3|].
  intros key x I N. destruct (Q key x I N) as (v & _ & Hv). eauto.
Qed.
