(** Proofs about the class hierarchies of object types and interfaces. *)
From Coq Require Import Lia.
From Verif Require Import Base PyAst Gql Config Stylers Registry Utils Recurse Objects Strawberry Spec_Fields Spec_Mro P_Base P_Monad P_Recurse P_Fields P_Scaffold P_Mro.

Lemma frame_iface : forall st K r r', ~ In KIfa K -> evolve st K r r' -> r_iface_base r' = r_iface_base r.
Proof. frame. Qed.
Lemma mconcat_fold : forall {A} (f : A -> M (list stmt)) (P : list stmt -> reg -> Prop) l r ys r',
  mconcat f l r = (Ok ys, r') -> P [] r ->
  (forall x acc r y r1, In x l -> P acc r -> f x r = (Ok y, r1) -> P (acc ++ y) r1) -> P ys r'.
Proof.
  intros A f P l r ys r' H H0 HS. apply mconcat_ok in H as (yss & H & ->).
  assert (G : forall l0 acc r yss, incl l0 l -> P acc r -> mmap f l0 r = (Ok yss, r') -> P (acc ++ List.concat yss) r').
  { induction l0 as [|x l0 IH]; intros acc ra zss Hi Ha Hm; cbn in Hm.
    - apply ret_ok in Hm as [-> ->]. now rewrite app_nil_r.
    - apply bind_ok in Hm as (y & rb & Hy & Hm). apply bind_ok in Hm as (ys & rc & Hr & Hm). apply ret_ok in Hm as [-> ->].
      cbn. rewrite app_assoc. apply (IH _ rb); [intros z Hz; apply Hi; now right| |exact Hr]. eapply HS; [|exact Ha|exact Hy]. apply Hi. now left. }
  apply (G l [] r yss); [apply incl_refl|exact H0|exact H].
Qed.
Lemma interface_bases_spec : forall s bn all r ib r', (forall i cls, dget i (r_iface_base r) = Some cls -> cls = bn i) ->
  interface_bases s all r = (Ok ib, r') -> r' = r /\ ib = map (fun i => EName (bn i)) (direct s all) /\ Forall (fun i => dget i (r_iface_base r) = Some (bn i)) (direct s all).
Proof.
  intros s bn all r ib r' Hn H. unfold interface_bases in H. apply mconcat_ok in H as (yss & H & ->). unfold direct.
  assert (G : forall l r0 yss r', r0 = r -> mmap (fun i => if extended_by_other s i all then ret [] else let* b := inherit_interface i in ret [EName b]) l r0 = (Ok yss, r') ->
     let k := filter (fun i => negb (extended_by_other s i all)) l in
     r' = r /\ List.concat yss = map (fun i => EName (bn i)) k /\ Forall (fun i => dget i (r_iface_base r) = Some (bn i)) k).
  { clear H yss r'. induction l as [|i l IH]; intros r0 yss r' -> H; cbn in H.
    - apply ret_ok in H as [-> ->]. cbn. auto.
    - apply bind_ok in H as (y & rb & Hy & H). apply bind_ok in H as (ys & rc & Hr & H). apply ret_ok in H as [-> ->]. cbn [filter List.concat].
      destruct (extended_by_other s i all); cbn [negb].
      + apply ret_ok in Hy as [-> ->]. apply IH in Hr; [|reflexivity]. exact Hr.
      + apply bind_ok in Hy as (b & rd & Hb & Hy). apply ret_ok in Hy as [-> ->]. unfold inherit_interface in Hb. cbn in Hb. destruct (dget i (r_iface_base r)) as [cls|] eqn:D; cbn in Hb; [|discriminate].
        injection Hb as -> <-. pose proof (Hn _ _ D). subst b. apply IH in Hr as (-> & E & F); [|reflexivity]. split; [reflexivity|]. split; [cbn; now rewrite E|]. now constructor. }
  apply (G all r yss r' eq_refl H).
Qed.
Lemma config_simple : forall k c tn r l r', generate_pydantic_config k c tn r = (Ok l, r') -> Forall simple l.
Proof.
  intros k c tn r l r' H. unfold generate_pydantic_config in H. destruct (String.eqb _ _).
  - unfold generate_config_dict in H. cbn zeta in H. destruct (_ ++ _ ++ _); minv; repeat constructor.
  - minv. unfold generate_config_class_pydantic. destruct (_ ++ _ ++ _); [constructor|]. constructor; [|constructor]. cbn. split; [reflexivity|]. constructor; [exact I|].
    constructor; [exact I|]. apply Forall_forall. intros x Hx. apply in_map_iff in Hx as (kv & <- & _). exact I.
Qed.
Lemma field_statements_simple : forall c st k fd a r l r', field_statements c st k fd a r = (Ok l, r') -> Forall simple l.
Proof.
  intros c st k fd a r l r' H. unfold field_statements in H. cbn zeta in H. apply bind_ok in H as (a' & r1 & H1 & H). apply bind_ok in H as (u & r2 & H2 & H). apply ret_ok in H as [-> ->].
  constructor; [exact I|]. destruct (compose_field_documentation _ _ _ _); repeat constructor.
Qed.
Lemma mconcat_simple : forall {A} (f : A -> M (list stmt)) l r ys r', (forall x r y r1, f x r = (Ok y, r1) -> Forall simple y) -> mconcat f l r = (Ok ys, r') -> Forall simple ys.
Proof.
  intros A f l r ys r' Hf H. eapply (mconcat_fold f (fun acc _ => Forall simple acc)) in H; [exact H|constructor|]. intros x acc ra y rb _ Ha Hy. apply Forall_app. split; [exact Ha|eauto].
Qed.
Lemma additional_bases_spec : forall c key r add r', get_additional_bases_for_type c key r = (Ok add, r') ->
  add = names_of (match dget key (c_additional_bases c) with Some b => b | None => [] end).
Proof.
  intros c key r add r' H. unfold get_additional_bases_for_type in H. destruct (dget key _) as [b|].
  - unfold import_bases in H. apply bind_ok in H as (u & r1 & _ & H). now apply ret_ok in H as [-> _].
  - now apply ret_ok in H as [-> _].
Qed.
Lemma generate_interface_reg : forall st k b r n r', generate_interface st k b r = (Ok n, r') ->
  n = (if b then style_interface_class st k +s+ "Base" else style_interface_class st k) /\ dget k (r_iface_base r) = None /\ r_iface_base r' = dset k n (r_iface_base r).
Proof.
  intros st k b r n r' H. unfold generate_interface in H. apply bind_ok in H as (m & r1 & H1 & H). cbn in H1. injection H1 as <- <-.
  apply bind_ok in H as (u & r2 & H2 & H). cbn zeta in H. apply bind_ok in H as (u2 & r3 & H3 & H). apply ret_ok in H as [-> ->]. cbn in H3. injection H3 as _ <-.
  unfold massert in H2. unfold dmem in H2. destruct (dget k (r_iface_base r)) eqn:D; cbn in H2; [discriminate|]. injection H2 as _ <-. auto.
Qed.

Section Plugins.
Variable c : gconfig.
Variable st : list styler.
Variable s : schema.
Variable sc0 : scope.
Hypothesis HC : implements_closed s.
Hypothesis HK : NoDup (map fst (s_types s)).
Hypothesis HS : forall i d is fs, In (i, TInterface d is fs) (s_types s) -> ~ In i is.
Hypothesis HN : forall k d is fs ds, In (k, TObject d is fs ds) (s_types s) -> NoDup is.
Hypothesis HF : interface_forest s.
Hypothesis HA : forall i d is fs, In (i, TInterface d is fs) (s_types s) -> additional c i = [].
Definition named_ifb (bn : string -> string) (r : reg) : Prop := forall i cls, dget i (r_iface_base r) = Some cls -> cls = bn i.

Lemma in_sorted : forall kt, In kt (sorted_objects s) -> In kt (s_types s) /\ (is_interface_def (snd kt) = true \/ is_object_def (snd kt) = true).
Proof. intros kt H. unfold sorted_objects in H. apply in_app_iff in H as [H|H]; apply filter_In in H as [H1 H2]; auto. Qed.
(** one class, whichever plugin makes it *)
Lemma class_step : forall bn bases mb m key t tree r1 r2 cls ib body dec, orders sc0 bases = Some mb -> c3_merge (mb ++ [heads mb]) = Some m ->
  (forall k d is fs ds, In (k, TObject d is fs ds) (s_types s) -> combine_with sc0 (names_of (additional c k)) bases m) ->
  In (key, t) (sorted_objects s) -> inv s sc0 bn m tree (r_iface_base r1) -> named_ifb bn r1 ->
  (if is_interface_def t then cls = bn key /\ dget key (r_iface_base r1) = None /\ r_iface_base r2 = dset key cls (r_iface_base r1) else r_iface_base r2 = r_iface_base r1) ->
  interface_bases s (type_interfaces t) r2 = (Ok ib, r2) -> Forall simple body ->
  inv s sc0 bn m (tree ++ [SClass cls (names_of (additional c key) ++ ib ++ bases) body dec]) (r_iface_base r2) /\ named_ifb bn r2.
Proof.
  intros bn bases mb m key t tree r1 r2 cls ib body dec HB HM Hadd Hin V Nm Hg Hi Fb.
  assert (Nm2 : named_ifb bn r2).
  { destruct (is_interface_def t); [|unfold named_ifb; now rewrite Hg]. destruct Hg as (-> & _ & E). intros i cl Hd. rewrite E, dget_dset in Hd. destruct (String.eqb_spec i key); [congruence|auto]. }
  split; [|exact Nm2]. apply (interface_bases_spec s bn) in Hi as (_ & -> & F); [|exact Nm2]. apply in_sorted in Hin as [Hin Hk]. cbn [snd] in Hk. destruct t; try (destruct Hk; discriminate); cbn [is_interface_def] in Hg.
  - rewrite Hg in *. cbn [type_interfaces] in *. eapply (step_object s sc0 bn bases m mb HB HM HK HS tree (r_iface_base r1) key (TObject desc ifaces fields dirs)); try eassumption; eauto.
  - destruct Hg as (-> & D & E). rewrite E in *. cbn [type_interfaces] in *. rewrite (HA _ _ _ _ Hin). cbn [names_of map app].
    eapply (step_interface s sc0 bn bases m mb HB HM HC HK tree (r_iface_base r1)); try eassumption; eauto.
    apply Forall_forall. intros i I. rewrite Forall_forall in F. specialize (F i I). rewrite dget_dset in F. destruct (String.eqb_spec i key); [|exact F]. subst. exfalso.
    unfold direct in I. apply filter_In in I as [I _]. eapply HS; eassumption.
Qed.

Theorem objects_constructible : forall pc mb m r l r', r_iface_base r = [] -> orders sc0 (names_of (ob_bases pc)) = Some mb -> c3_merge (mb ++ [heads mb]) = Some m ->
  (forall k d is fs ds, In (k, TObject d is fs ds) (s_types s) -> combine_with sc0 (names_of (additional c k)) (names_of (ob_bases pc)) m) ->
  Objects.generate_types c st s pc r = (Ok l, r') -> NoDup (class_names l) -> new_in sc0 l -> constructible sc0 l.
Proof.
  intros pc mb m r l r' R0 HB HM Hadd H N W. unfold Objects.generate_types in H. apply bind_ok in H as (u & r1 & H1 & H).
  apply bind_ok in H as (x & r2 & H2 & H). apply bind_ok in H as (us & r3 & H3 & H). cbn zeta in H. apply bind_ok in H as (u2 & r4 & H4 & H). apply ret_ok in H as [-> ->].
  set (bn := fun i => style_interface_class st i +s+ "Base").
  assert (R1 : r_iface_base r1 = []). { rewrite <- R0. eapply (frame_iface st [KImp]); [cbn; intuition discriminate|]. eapply ev_ok; [|exact H1]. ev_tac. }
  assert (V : inv s sc0 bn m (os_tree x) (r_iface_base r2) /\ named_ifb bn r2).
  { eapply (mfold_ok _ (fun _ y ra => inv s sc0 bn m (os_tree y) (r_iface_base ra) /\ named_ifb bn ra)) in H2; [exact H2| |].
    - cbn. rewrite R1. split; [apply inv_nil|]. unfold named_ifb. rewrite R1. discriminate.
    - clear H2 H3 H4. intros pre [key t] post y ra y' rb El [Va Na] Hst. assert (Hin : In (key, t) (sorted_objects s)) by (rewrite El; apply in_app_iff; right; now left).
      unfold object_step in Hst. apply bind_ok in Hst as (add & rc & Hc & Hst). pose proof (additional_bases_spec _ _ _ _ _ Hc) as Ea. fold (additional c key) in Ea.
      assert (Rc : r_iface_base rc = r_iface_base ra) by (eapply (frame_iface st [KImp]); [cbn; intuition discriminate|]; eapply ev_ok; [|exact Hc]; ev_tac).
      assert (Vc : inv s sc0 bn m (os_tree y) (r_iface_base rc) /\ named_ifb bn rc) by (unfold named_ifb; rewrite Rc; auto).
      destruct (_ || _); [apply ret_ok in Hst as [-> ->]; exact Vc|].
      apply bind_ok in Hst as (cn & rd & Hd & Hst). apply bind_ok in Hst as (ib & re & He & Hst). apply bind_ok in Hst as (fs & rf & Hf & Hst).
      apply bind_ok in Hst as (cfg & rg & Hg & Hst). cbn zeta in Hst. apply ret_ok in Hst as [-> ->]. cbn [os_tree].
      assert (Rf : r_iface_base rf = r_iface_base re).
      { eapply (frame_iface st P_Recurse.Ksel); [cbn; intuition discriminate|]. eapply ev_ok; [|exact Hf]. ev_tac. apply P_Fields.ev_object_field. }
      assert (Rg : r_iface_base rg = r_iface_base rf) by (eapply (frame_iface st [KImp]); [cbn; intuition discriminate|]; eapply ev_ok; [|exact Hg]; ev_tac).
      assert (Ee : re = rd /\ (if is_interface_def t then cn = bn key /\ dget key (r_iface_base rc) = None /\ r_iface_base rd = dset key cn (r_iface_base rc) else r_iface_base rd = r_iface_base rc)).
      { split.
        - assert (Nd : forall i cls, dget i (r_iface_base rd) = Some cls -> cls = match dget i (r_iface_base rd) with Some k => k | None => "" end) by (intros i cls ->; reflexivity).
          apply (interface_bases_spec s _ _ _ _ _ Nd) in He. tauto.
        - destruct (is_interface_def t); [apply generate_interface_reg in Hd; exact Hd|]. eapply (frame_iface st [KObj]); [cbn; intuition discriminate|]. eapply ev_ok; [|exact Hd]. ev_tac. }
      destruct Ee as [-> Eg]. unfold named_ifb. rewrite Rg, Rf, Ea. eapply (class_step bn (names_of (ob_bases pc)) mb m key t (os_tree y) rc rd cn ib); try eassumption; try tauto.
      apply Forall_app. split; [destruct (truthy _); repeat constructor|]. apply Forall_app. split; [|eapply config_simple; exact Hg].
      eapply mconcat_simple; [|exact Hf]. intros kv r0 z r9 Hz. unfold object_field in Hz. apply bind_ok in Hz as (a & r8 & _ & Hz). eapply field_statements_simple; exact Hz. }
  destruct V as [V _]. unfold constructible. rewrite declare_all_app.
  assert (Eu : class_names (os_tree x ++ us ++ map (fun kv => SAssign (EName (fst kv)) (EName (snd kv))) (filter (fun kv => negb (dmem (fst kv) (os_implementing x))) (os_base x))) = class_names (os_tree x) /\ Forall no_class (us ++ map (fun kv => SAssign (EName (fst kv)) (EName (snd kv))) (filter (fun kv => negb (dmem (fst kv) (os_implementing x))) (os_base x)))).
  { assert (F : Forall no_class (us ++ map (fun kv => SAssign (EName (fst kv)) (EName (snd kv))) (filter (fun kv => negb (dmem (fst kv) (os_implementing x))) (os_base x)))).
    { apply Forall_app. split.
      - eapply (mmap_inv _ (fun _ => True) (fun _ y => no_class y)) in H3 as [_ F]; [|exact I|].
        + clear - F. induction F; constructor; auto.
        + intros kv ra y rb _ _ Hy. split; [exact I|]. apply bind_ok in Hy as (? & ? & _ & Hy). apply ret_ok in Hy as [-> _]. exact I.
      - apply Forall_forall. intros y Hy. apply in_map_iff in Hy as (kv & <- & _). exact I. }
    split; [|exact F]. rewrite class_names_app. assert (Z : forall k, Forall no_class k -> class_names k = []) by (intros k Fk; induction Fk as [|y k Hy Fk IH]; [reflexivity|]; destruct y; cbn in *; tauto).
    rewrite (Z _ F). apply app_nil_r. }
  destruct Eu as [Eu Fu]. rewrite Eu in N. destruct (V N) as (sc' & E & _).
  - intros n In1. apply W. rewrite Eu. exact In1.
  - rewrite E. now apply declare_plains.
Qed.

Theorem scaffold_constructible : forall ap pc r l r', r_iface_base r = [] ->
  (forall k d is fs ds, In (k, TObject d is fs ds) (s_types s) -> combine_with sc0 (names_of (additional c k)) [] []) ->
  Strawberry.generate_types c st s ap pc r = (Ok l, r') -> NoDup (class_names l) -> new_in sc0 l -> constructible sc0 l.
Proof.
  intros ap pc r l r' R0 Hadd H N W. unfold Strawberry.generate_types in H. apply bind_ok in H as (u & r1 & H1 & H).
  assert (R1 : r_iface_base r1 = []). { rewrite <- R0. eapply (frame_iface st [KImp]); [cbn; intuition discriminate|]. eapply ev_ok; [|exact H1]. ev_tac. }
  set (bn := style_interface_class st).
  assert (V : inv s sc0 bn [] l (r_iface_base r') /\ named_ifb bn r').
  { eapply (mconcat_fold _ (fun acc ra => inv s sc0 bn [] acc (r_iface_base ra) /\ named_ifb bn ra)) in H; [exact H| |].
    - rewrite R1. split; [apply inv_nil|]. unfold named_ifb. rewrite R1. discriminate.
    - clear H. intros [key t] acc ra y rb Hin [Va Na] Hst. cbn [type_class] in Hst. apply bind_ok in Hst as (add & rc & Hc & Hst).
      pose proof (additional_bases_spec _ _ _ _ _ Hc) as Ea. fold (additional c key) in Ea.
      assert (Rc : r_iface_base rc = r_iface_base ra) by (eapply (frame_iface st [KImp]); [cbn; intuition discriminate|]; eapply ev_ok; [|exact Hc]; ev_tac).
      assert (Vc : inv s sc0 bn [] acc (r_iface_base rc) /\ named_ifb bn rc) by (unfold named_ifb; rewrite Rc; auto).
      destruct (skipped pc key); [apply ret_ok in Hst as [-> ->]; rewrite app_nil_r; exact Vc|].
      apply bind_ok in Hst as (kws & rk & Hkw & Hst).
      assert (Rk : r_iface_base rk = r_iface_base rc) by (eapply (frame_iface st []); [cbn; tauto|]; eapply ev_ok; [apply ev_dirkws|exact Hkw]).
      apply bind_ok in Hst as (cn & rd & Hd & Hst). apply bind_ok in Hst as (ib & re & He & Hst). apply bind_ok in Hst as (fs & rf & Hf & Hst).
      apply bind_ok in Hst as (cfg & rg & Hg & Hst). apply ret_ok in Hst as [-> ->].
      assert (Rf : r_iface_base rf = r_iface_base re).
      { eapply (frame_iface st Kann); [cbn; intuition discriminate|]. eapply ev_ok; [|exact Hf]. apply ev_mconcat. intros kv _. apply (ev_type_field c st s ap). }
      assert (Rg : r_iface_base rg = r_iface_base rf) by (eapply (frame_iface st [KImp]); [cbn; intuition discriminate|]; eapply ev_ok; [|exact Hg]; ev_tac).
      assert (Ee : re = rd /\ (if is_interface_def t then cn = bn key /\ dget key (r_iface_base rk) = None /\ r_iface_base rd = dset key cn (r_iface_base rk) else r_iface_base rd = r_iface_base rk)).
      { split.
        - assert (Nd : forall i cls, dget i (r_iface_base rd) = Some cls -> cls = match dget i (r_iface_base rd) with Some k => k | None => "" end) by (intros i cls ->; reflexivity).
          apply (interface_bases_spec s _ _ _ _ _ Nd) in He. tauto.
        - destruct (is_interface_def t); [apply generate_interface_reg in Hd; exact Hd|]. eapply (frame_iface st [KObj]); [cbn; intuition discriminate|]. eapply ev_ok; [|exact Hd]. ev_tac. }
      destruct Ee as [-> Eg]. unfold named_ifb. rewrite Rg, Rf, Ea.
      assert (Vk : inv s sc0 bn [] acc (r_iface_base rk) /\ named_ifb bn rk) by (unfold named_ifb; rewrite Rk; exact Vc).
      rewrite <- (app_nil_r ib). eapply (class_step bn [] [] [] key t acc rk rd cn ib); try eassumption; try tauto; try reflexivity.
      apply Forall_app. split; [unfold class_docs; destruct (truthy _); repeat constructor|]. apply Forall_app. split; [|eapply config_simple; exact Hg].
      eapply mconcat_simple; [|exact Hf]. intros [k f] r0 z r9 Hz. cbn [type_field] in Hz. apply bind_ok in Hz as (? & ? & _ & Hz). apply bind_ok in Hz as (? & ? & _ & Hz).
      apply bind_ok in Hz as (? & ? & _ & Hz). cbn zeta in Hz. destruct (_ && _); [apply ret_ok in Hz as [-> _]; repeat constructor|].
      apply bind_ok in Hz as (? & ? & _ & Hz). apply ret_ok in Hz as [-> _]. repeat constructor. }
  destruct V as [V _]. destruct (V N W) as (sc' & E & _). unfold constructible. rewrite E. discriminate.
Qed.
End Plugins.

Theorem objects_C44 : forall c st s sc pc r l r', valid_interfaces s -> interface_forest s -> bases_fit c s sc (base_names (ob_bases pc)) -> r_iface_base r = [] ->
  Objects.generate_types c st s pc r = (Ok l, r') -> NoDup (class_names l) -> new_in sc l -> constructible sc l.
Proof.
  intros c st s sc pc r l r' (H1 & H2 & H3 & H4) HF (HA & m & HO & Hadd) R H N W. unfold bases_order in HO. destruct (orders sc (base_names (ob_bases pc))) as [mb|] eqn:HB; [|discriminate].
  eapply (objects_constructible c st s sc H1 H2 H3 H4 HF HA pc mb m); eassumption.
Qed.
Theorem scaffold_C44 : forall c st s sc ap pc r l r', valid_interfaces s -> interface_forest s -> bases_fit c s sc [] -> r_iface_base r = [] ->
  Strawberry.generate_types c st s ap pc r = (Ok l, r') -> NoDup (class_names l) -> new_in sc l -> constructible sc l.
Proof.
  intros c st s sc ap pc r l r' (H1 & H2 & H3 & H4) HF (HA & m & HO & Hadd) R H N W. injection HO as <-.
  eapply (scaffold_constructible c st s sc H1 H2 H3 H4 HF HA); eassumption.
Qed.
