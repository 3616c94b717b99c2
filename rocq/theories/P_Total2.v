(** The server plugin does not fail. *)
From Verif Require Import Base PyAst Gql Config Stylers Registry Utils Recurse Objects Strawberry Run Spec_Mro Spec_Mro2 Spec_Valid P_Base P_Gql P_Monad P_Config P_Mro P_Total.

Arguments register_import : simpl never.
Arguments add_forward : simpl never.
Arguments register_builtin : simpl never.
Arguments dkeys : simpl never.
(** ** The tables between two phases *)
Definition tables (ks ke ki ko kf : list string) (r : reg) : Prop :=
  (forall n, In n ks -> dmem n (r_scalars r) = true) /\ dkeys (r_enums r) = ke /\ dkeys (r_inputs r) = ki /\ dkeys (r_objects r) = ko
  /\ dkeys (r_iface_base r) = kf /\ fside r = ([], [], [], [], [], [], ([], [], [])) /\ incl (r_builtins r) built_in_keys.
Lemma tables_same : forall ks ke ki ko kf r r', tables ks ke ki ko kf r -> tsame r r' -> tables ks ke ki ko kf r'.
Proof. unfold tables, tsame. intros ks ke ki ko kf r r' (A & B & C & D & E & F) (a & b & c & d & e & f). rewrite a, b, c, d, e. intuition congruence. Qed.
Lemma tot_tables : forall {A} (m : M A) ks ke ki ko kf r, tot r m -> tables ks ke ki ko kf r -> exists a r', m r = (Ok a, r') /\ tables ks ke ki ko kf r'.
Proof. intros A m ks ke ki ko kf r T H. destruct (T r (tsame_refl r)) as (a & r' & E & S). exists a, r'. split; [exact E|]. eapply tables_same; eassumption. Qed.
Lemma bind_run : forall {A B} (m : M A) (k : A -> M B) r a r' b r'', m r = (Ok a, r') -> k a r' = (Ok b, r'') -> bind m k r = (Ok b, r'').
Proof. intros A B m k r a r' b r'' H1 H2. unfold bind. now rewrite H1. Qed.
Lemma bind_ex : forall {A B} (m : M A) (k : A -> M B) r (P Q : reg -> Prop), (exists a r', m r = (Ok a, r') /\ P r') ->
  (forall a r', P r' -> exists b r'', k a r' = (Ok b, r'') /\ Q r'') -> exists b r'', bind m k r = (Ok b, r'') /\ Q r''.
Proof. intros A B m k r P Q (a & r' & E & HP) H. destruct (H a r' HP) as (b & r'' & E' & HQ). exists b, r''. split; [eapply bind_run; eassumption|exact HQ]. Qed.
Lemma generate_in_run : forall get set style n r, dmem n (get r) = false -> generate_in get set style n r = (Ok (style n), set (dset n (style n) (get r)) r).
Proof. intros get set style n r H. unfold generate_in, bind, gets, massert, modify. rewrite H. reflexivity. Qed.
Lemma dkeys_snoc : forall {A} n (v : A) d, ~ In n (dkeys d) -> dkeys (dset n v d) = dkeys d ++ [n].
Proof. intros A n v d H. rewrite dkeys_dset. destruct (dmem n d) eqn:E; [|reflexivity]. now apply dmem_In in E. Qed.
Lemma dmem_no : forall {A} n (d : dict A), ~ In n (dkeys d) -> dmem n d = false.
Proof. intros A n d H. destruct (dmem n d) eqn:E; [|reflexivity]. now apply dmem_In in E. Qed.
Lemma NoDup_mid : forall {A B} (f : A -> B) pre x post, NoDup (map f (pre ++ x :: post)) -> ~ In (f x) (map f pre).
Proof. intros A B f pre x post H. rewrite map_app in H. cbn in H. apply NoDup_remove_2 in H. rewrite in_app_iff in H. tauto. Qed.

Section Sorted.
Variable s : schema. Variable skip : string -> bool. Variable st : list styler.
Hypothesis V : valid_schema s.
Hypothesis Order : interfaces_in_order s skip.
Lemma get_type_in : forall k t, In (k, t) (s_types s) -> get_type s k = Some t.
Proof. intros k t H. unfold get_type. apply dget_In_NoDup; [apply (vs_names s V)|exact H]. Qed.
Definition iface_keys (l : list (string * typedef)) : list string := map fst (filter (fun kt => is_interface_def (snd kt) && negb (skip (fst kt))) l).
Definition object_keys (l : list (string * typedef)) : list string := map fst (filter (fun kt => negb (is_interface_def (snd kt)) && negb (skip (fst kt))) l).
Lemma iface_keys_app : forall a b, iface_keys (a ++ b) = iface_keys a ++ iface_keys b.
Proof. intros. unfold iface_keys. now rewrite filter_app, map_app. Qed.
Lemma object_keys_app : forall a b, object_keys (a ++ b) = object_keys a ++ object_keys b.
Proof. intros. unfold object_keys. now rewrite filter_app, map_app. Qed.
Lemma keys_incl : forall (f : string * typedef -> bool) l x, In x (map fst (filter f l)) -> In x (map fst l).
Proof. intros f l x H. apply in_map_iff in H as (y & <- & Hy). apply filter_In in Hy as (Hy & _). now apply in_map. Qed.
Lemma sorted_in : forall k t, In (k, t) (sorted_objects s) -> In (k, t) (s_types s) /\ composite t = true.
Proof. intros k t H. unfold sorted_objects in H. apply in_app_iff in H as [H|H]; apply filter_In in H as (H & E); (split; [exact H|]); destruct t; try discriminate; reflexivity. Qed.
Lemma sorted_NoDup : NoDup (map fst (sorted_objects s)).
Proof.
  unfold sorted_objects. rewrite map_app. pose proof (vs_names s V) as N.
  assert (forall (f : string * typedef -> bool) l, NoDup (map fst l) -> NoDup (map fst (filter f l))) as NF.
  { intros f l. induction l as [|x l IH]; intros H; [constructor|]. cbn in *. inversion H; subst. destruct (f x); cbn; [constructor|]; auto. intros X. apply H2. now apply keys_incl in X. }
  assert (forall (a b : list string), NoDup a -> NoDup b -> (forall x, In x a -> ~ In x b) -> NoDup (a ++ b)) as ND.
  { induction a as [|x a IH]; intros b Ha Hb D; [exact Hb|]. inversion Ha; subst. cbn. constructor; [|apply IH; auto; intros y Hy; apply D; now right].
    rewrite in_app_iff. intros [X|X]; [auto|]. exact (D x (or_introl eq_refl) X). }
  apply ND; auto. intros x Hx Hy. apply in_map_iff in Hx as ([k t] & <- & Hx), Hy as ([k' t'] & E & Hy). cbn in E. subst k'.
  apply filter_In in Hx as (Hx & Ex), Hy as (Hy & Ey). apply get_type_in in Hx, Hy. rewrite Hx in Hy. injection Hy as <-. destruct t; discriminate.
Qed.
(** the interfaces of a type are registered before it *)
Lemma ifaces_before : forall pre k t post i, sorted_objects s = pre ++ (k, t) :: post -> skip k = false -> In i (type_interfaces t) -> In i (iface_keys pre).
Proof.
  intros pre k t post i E Sk Hi. assert (In (k, t) (sorted_objects s)) as Hk by (rewrite E; apply in_elt). destruct (sorted_in _ _ Hk) as (Hs & C).
  assert (In i (implements t)) as Hi' by (destruct t; exact Hi).
  destruct (Order _ _ _ Hs Sk Hi') as (Si & B). pose proof (vs_ifaces s V _ _ _ Hs Hi') as Ii. unfold is_iface in Ii. destruct (get_type s i) as [ti|] eqn:Gi; [|discriminate].
  assert (In (i, ti) (s_types s)) as Hti by (unfold get_type in Gi; now apply dget_Some_In in Gi).
  assert (is_interface_def ti = true) as Iti by (destruct ti; try discriminate; reflexivity).
  assert (In (i, ti) pre) as P; [|apply in_map_iff; exists (i, ti); split; [reflexivity|]; apply filter_In; cbn; rewrite Iti, Si; auto].
  unfold sorted_objects in E. pose proof sorted_NoDup as N. unfold sorted_objects in N. destruct (is_interface_def t) eqn:It.
  - assert (is_iface s k = true) as Ik by (unfold is_iface; rewrite (get_type_in _ _ Hs); destruct t; try discriminate; reflexivity).
    destruct (B Ik) as (p & q & r & ta & tb & Es).
    assert (ta = ti) as -> by (assert (In (i, ta) (s_types s)) as X by (rewrite Es; apply in_elt); apply get_type_in in X; congruence).
    assert (tb = t) as -> by (assert (In (k, tb) (s_types s)) as X by (rewrite Es; apply in_app_iff; right; right; apply in_elt); apply get_type_in in X; pose proof (get_type_in _ _ Hs); congruence).
    rewrite Es in E. rewrite !filter_app in E. cbn in E. rewrite filter_app in E. cbn in E. rewrite Iti, It in E. rewrite <- !app_assoc in E. cbn in E. rewrite <- app_assoc in E. cbn in E.
    remember (filter (fun kv : string * typedef => is_interface_def (snd kv)) p) as fp. remember (filter (fun kv : string * typedef => is_interface_def (snd kv)) q) as fq.
    match type of E with fp ++ _ :: fq ++ _ :: ?x = _ => set (rest := x) in E end.
    assert (fp ++ (i, ti) :: fq = pre) as <-; [|apply in_elt].
    assert (NoDup (map fst (fp ++ (i, ti) :: fq ++ (k, t) :: rest))) as N2. { rewrite E. rewrite <- E. rewrite Es in N. subst rest fp fq. rewrite !filter_app in N. cbn in N. rewrite filter_app in N. cbn in N. rewrite Iti, It in N. rewrite <- !app_assoc in N. cbn in N. rewrite <- app_assoc in N. exact N. }
    clear - E N2. replace (fp ++ (i, ti) :: fq ++ (k, t) :: rest) with ((fp ++ (i, ti) :: fq) ++ (k, t) :: rest) in * by now rewrite <- app_assoc.
    set (a := fp ++ (i, ti) :: fq) in *. clearbody a. clear fp fq. revert pre E N2. induction a as [|x a IH]; intros pre E N2.
    + destruct pre as [|y pre]; [reflexivity|]. cbn in E. injection E as <- ->. cbn in N2. inversion N2; subst. contradict H1. rewrite map_app. apply in_elt.
    + destruct pre as [|y pre]; cbn in E. { injection E as -> <-. cbn in N2. inversion N2; subst. contradict H1. rewrite map_app. apply in_elt. }
      injection E as <- E. f_equal. apply IH; [exact E|]. cbn in N2. now inversion N2.
  - assert (In (i, ti) (filter (fun kv => is_interface_def (snd kv)) (s_types s))) as Hf by (apply filter_In; auto).
    assert (~ In (k, t) (filter (fun kv => is_interface_def (snd kv)) (s_types s))) as Nf by (intros X; apply filter_In in X as (_ & X); cbn in X; congruence).
    revert E. set (a := filter _ (s_types s)) in *. set (b := filter _ (s_types s)). clearbody a b. intros E. clear - Hf Nf E. revert pre E. induction a as [|x a IH]; intros pre E; [destruct Hf|].
    destruct pre as [|y pre]; cbn in E; injection E as -> E; [exfalso; apply Nf; now left|]. destruct Hf as [->|Hf]; [now left|right]. apply IH; [exact Hf| |exact E]. intros X. apply Nf. now right.
Qed.
Lemma tot_bases_ifaces : forall r all, (forall i, In i all -> In i (dkeys (r_iface_base r))) -> tot r (interface_bases s all).
Proof.
  intros r all H. unfold interface_bases. apply tot_mconcat. intros i Hi. apply tot_if; [apply tot_ret|]. apply tot_bind; [|intros; apply tot_ret].
  unfold inherit_interface. apply tot_gets. intros r' (_ & _ & _ & _ & E & _). rewrite E. apply H, dmem_In in Hi. unfold dmem in Hi. destruct (dget i (r_iface_base r)); [|discriminate]. apply tot_ret.
Qed.
Lemma register_type : forall ks ke k t wb ki pre r, ~ In k (map fst pre) -> tables ks ke ki (object_keys pre) (iface_keys pre) r -> exists r',
  (if is_interface_def t then generate_interface st k wb else generate_objecttype st k) r
    = (Ok (if is_interface_def t && wb then style_objecttype_class st k +s+ "Base" else style_objecttype_class st k), r')
  /\ tables ks ke ki (object_keys pre ++ map fst (if negb (is_interface_def t) then [(k, t)] else [])) (iface_keys pre ++ map fst (if is_interface_def t then [(k, t)] else [])) r'.
Proof.
  intros ks ke k t wb ki pre r N (A1 & A2 & A3 & A4 & A5 & A7 & A6). destruct (is_interface_def t); cbn [negb map fst andb].
  - assert (~ In k (dkeys (r_iface_base r))) as NI. { rewrite A5. intros X. apply N. eapply keys_incl. exact X. }
    unfold generate_interface, bind, gets, massert, modify. rewrite (dmem_no _ _ NI). cbn. eexists. split; [reflexivity|]. rewrite app_nil_r. repeat split; cbn; auto. rewrite dkeys_snoc by exact NI. now rewrite A5.
  - assert (~ In k (dkeys (r_objects r))) as NI. { rewrite A4. intros X. apply N. eapply keys_incl. exact X. }
    unfold generate_objecttype. rewrite (generate_in_run _ _ _ _ _ (dmem_no _ _ NI)). eexists. split; [reflexivity|]. rewrite app_nil_r. repeat split; cbn; auto. rewrite dkeys_snoc by exact NI. now rewrite A4.
Qed.
End Sorted.

Section Scaffold.
Variable c : gconfig. Variable st : list styler. Variable s : schema. Variable dirs : list directivedef.
Variable applied : string -> list directive. Variable pc : sbcfg.
Hypothesis V : valid_schema s.
Hypothesis Flat : flat_schema s (sb_builtin_directives pc) applied.
Hypothesis Order : interfaces_in_order s (skipped pc).
Hypothesis Enums : c_force_plugin_order c = true -> sb_enums pc = true /\ enums_kept s (skipped pc) (skipped pc)
  /\ enums_apart s (style_enum_class st) (map (style_objecttype_class st) (names_with s composite) ++ map (style_inputtype_class st) (names_with s inputlike)).
Variable ks : list string.
Hypothesis Scalars : forall n, is_scalar s n = true -> In n ks.
Variable ke : list string.
Hypothesis KE : sb_enums pc = true -> forall n, is_enum s n = true -> skipped pc n = false -> In n ke.

Lemma leaf_ready : forall k t n cls ki ko kf r, tables ks ke ki ko kf r -> In (k, t) (s_types s) ->
  (composite t = true /\ skipped pc k = false /\ cls = style_objecttype_class st k) \/ (inputlike t = true /\ cls = style_inputtype_class st k) -> In n (mentions t) -> leaf_ok r c st s cls n.
Proof.
  intros k t n cls ki ko kf r (T1 & T2 & _) Hk HC Hn. split.
  - intros S. apply T1, Scalars, S.
  - intros E. destruct (c_force_plugin_order c) eqn:F; [|now left]. right. destruct (Enums eq_refl) as (SE & Kept & Apart). split.
    + apply dmem_In. rewrite T2. apply KE; [exact SE|exact E|]. eapply Kept; [exact Hk| |exact Hn|exact E].
      destruct HC as [(_ & H & _)|(H & _)]; [now left|right]. unfold is_input. rewrite (get_type_in s V _ _ Hk). destruct t; try discriminate; reflexivity.
    + intros X. apply (Apart n E). rewrite X. apply in_app_iff. destruct HC as [(H & _ & ->)|(H & ->)]; [left|right]; apply in_map, in_map_iff; exists (k, t); (split; [reflexivity|]);
      apply filter_In; auto.
Qed.

(** *** Types *)
Lemma tot_type_field : forall r k cls kv, valid_schema s -> leaf_ok r c st s cls (gty_name (fd_type (snd kv))) -> output_type s (gty_name (fd_type (snd kv))) = true ->
  (forall a ad, In (a, ad) (fd_args (snd kv)) -> leaf_ok r c st s cls (gty_name (arg_type ad)) /\ input_type s (gty_name (arg_type ad)) = true) ->
  flat_directives (sb_builtin_directives pc) (fd_dirs (snd kv)) -> tot r (type_field c st s pc k cls kv).
Proof.
  intros r k cls [f fd] V' L O A D. cbn in *. apply tot_bind.
  { apply tot_mmap. intros [a ad] Ha. assert (In (a, ad) (fd_args fd)) as Ha' by (unfold sorted_args in Ha; apply in_app_iff in Ha as [Ha|Ha]; now apply filter_In in Ha).
    destruct (A _ _ Ha'). apply tot_bind; [|intros; apply tot_ret]. now apply tot_argument. }
  intros ps. apply tot_bind; [now apply tot_field_annotation|]. intros ret'. apply tot_bind; [now apply tot_directives|]. intros dks. apply tot_if; [apply tot_ret|].
  apply tot_bind; [apply tot_optimport|]. intros; apply tot_ret.
Qed.
Lemma types_step : forall ki pre k t post r, sorted_objects s = pre ++ (k, t) :: post -> tables ks ke ki (object_keys (skipped pc) pre) (iface_keys (skipped pc) pre) r ->
  exists l r', type_class c st s applied pc (k, t) r = (Ok l, r') /\ tables ks ke ki (object_keys (skipped pc) (pre ++ [(k, t)])) (iface_keys (skipped pc) (pre ++ [(k, t)])) r'.
Proof.
  intros ki pre k t post r E T. assert (In (k, t) (sorted_objects s)) as Hk by (rewrite E; apply in_elt). destruct (sorted_in s _ _ Hk) as (Hs & C).
  pose proof (sorted_NoDup s V) as N. rewrite E in N. apply NoDup_mid in N. cbn in N.
  unfold type_class. eapply bind_ex; [apply tot_tables; [apply tot_additional|exact T]|]. intros add r1 T1. cbn beta in T1.
  rewrite object_keys_app, iface_keys_app. unfold object_keys at 2, iface_keys at 2. cbn [filter fst snd].
  destruct (skipped pc k) eqn:Sk. { rewrite !andb_false_r. cbn. rewrite !app_nil_r. exists [], r1. auto. }
  rewrite !andb_true_r. destruct (Flat _ _ Hs) as (FD & FF).
  eapply bind_ex; [apply tot_tables; [now apply tot_directives|exact T1]|]. intros kws r2 T2. cbn beta in T2.
  destruct (register_type (skipped pc) st ks ke k t false ki pre r2 N T2) as (r3 & E3 & T3). rewrite andb_false_r in E3.
  assert (exists b r'', (fun classname => let* ib := interface_bases s (type_interfaces t) in
    let* fields := mconcat (type_field c st s pc k classname) (type_fields t) in
    let* cfg := generate_pydantic_config (KT KObject) c (Some k) in
    ret [SClass classname (add ++ ib) (class_docs (type_desc t) ++ fields ++ cfg)
           [decorate (if is_interface_def t then "strawberry.interface" else "strawberry.type") kws]]) (style_objecttype_class st k) r3 = (Ok b, r'')
    /\ tables ks ke ki (object_keys (skipped pc) pre ++ map fst (if negb (is_interface_def t) then [(k, t)] else [])) (iface_keys (skipped pc) pre ++ map fst (if is_interface_def t then [(k, t)] else [])) r'') as (b & r4 & E4 & T4).
  { cbn beta. apply tot_tables; [|exact T3]. apply tot_bind.
    { apply tot_bases_ifaces. intros i Hi. destruct T3 as (_ & _ & _ & _ & -> & _). apply in_app_iff. left. eapply ifaces_before; eassumption. }
    intros ib. apply tot_bind; [|intros; apply tot_bind; [apply tot_config|intros; apply tot_ret]].
    apply tot_mconcat. intros [f fd] Hf. assert (In (f, fd) (fields_of t)) as Hf' by (destruct t; exact Hf).
    assert (forall n, In n (mentions t) -> leaf_ok r3 c st s (style_objecttype_class st k) n) as L.
    { intros n Hn. eapply leaf_ready; [exact T3|exact Hs|left; auto|exact Hn]. }
    assert (forall n, In n (gty_name (fd_type fd) :: map (fun a => gty_name (arg_type (snd a))) (fd_args fd)) -> In n (mentions t)) as M.
    { intros n Hn. apply in_app_iff. left. apply in_flat_map. exists (f, fd). auto. }
    apply tot_type_field; cbn [snd]; [exact V|apply L, M; now left|eapply vs_out; eassumption| |eapply FF; eassumption].
    intros a ad Ha. split; [apply L, M; right; apply in_map_iff; exists (a, ad); auto|eapply vs_args; eassumption]. }
  exists b, r4. split; [|exact T4]. eapply bind_run; [exact E3|exact E4].
Qed.
Lemma types_total : forall ki r, tables ks ke ki [] [] r -> exists l r', Strawberry.generate_types c st s applied pc r = (Ok l, r') /\ incl (r_builtins r') built_in_keys.
Proof.
  intros ki r T. unfold Strawberry.generate_types. eapply bind_ex; [apply tot_tables; [apply tot_import|exact T]|]. intros u r1 T1. cbn beta in T1.
  destruct (mconcat_total (type_class c st s applied pc) (fun pre r => tables ks ke ki (object_keys (skipped pc) pre) (iface_keys (skipped pc) pre) r) (sorted_objects s) r1 T1) as (l & r' & E & T').
  { intros pre [k t] post r2 E T2. eapply types_step; eassumption. }
  exists l, r'. split; [exact E|apply T'].
Qed.

(** *** Inputs *)
Definition input_keys (l : list (string * typedef)) : list string := map fst (filter (fun kt => inputlike (snd kt) && negb (sb_skip_underscore pc && startswith "_" (fst kt))) l).
Lemma inputs_total : forall r, tables ks ke [] [] [] r -> exists l r', Strawberry.generate_inputs c st s pc r = (Ok l, r') /\ exists ki, tables ks ke ki [] [] r'.
Proof.
  intros r T. unfold Strawberry.generate_inputs.
  match goal with |- context [mconcat ?f _ _] => destruct (mconcat_total f (fun pre r => tables ks ke (input_keys pre) [] [] r) (s_types s) r T) as (l & r' & E & T') end.
  2: { exists l, r'. split; [exact E|]. eexists. exact T'. }
  intros pre [k t] post r1 E T1. assert (In (k, t) (s_types s)) as Hs by (rewrite E; apply in_elt).
  pose proof (vs_names s V) as N. rewrite E in N. apply NoDup_mid in N. cbn in N.
  unfold input_keys. rewrite filter_app, map_app. fold (input_keys pre). cbn [filter fst snd].
  destruct t as [d|d vs|d is fs ds|d is fs|d ms|d fs ds]; cbn [inputlike andb map]; try (rewrite app_nil_r; exists [], r1; auto; fail).
  unfold Strawberry.input_class. destruct (sb_skip_underscore pc && startswith "_" k); cbn [negb map]. { rewrite app_nil_r; exists [], r1; auto. }
  destruct (Flat _ _ Hs) as (FD & _).
  eapply bind_ex; [apply tot_tables; [now apply tot_directives|exact T1]|]. intros kws r2 T2. cbn beta in T2.
  eapply bind_ex; [apply tot_tables; [apply tot_additional|exact T2]|]. intros add r3 T3. cbn beta in T3. cbn [fst].
  assert (~ In k (dkeys (r_inputs r3))) as NI. { destruct T3 as (_ & _ & -> & _). intros X. apply N. eapply keys_incl. exact X. }
  pose proof (generate_in_run r_inputs with_inputs (style_inputtype_class st) k r3 (dmem_no _ _ NI)) as EG.
  match type of EG with _ = (Ok _, ?x) => set (r4 := x) in EG end.
  assert (tables ks ke (input_keys pre ++ [k]) [] [] r4) as T4.
  { destruct T3 as (A1 & A2 & A3 & A4 & A5 & A7 & A6). subst r4. repeat split; cbn; auto. rewrite dkeys_snoc by exact NI. now rewrite A3. }
  match goal with |- exists b r'', bind _ ?kk _ = _ /\ _ => assert (exists b r'', kk (style_inputtype_class st k) r4 = (Ok b, r'') /\ tables ks ke (input_keys pre ++ [k]) [] [] r'') as (b & r5 & E5 & T5) end.
  2: { exists b, r5. split; [|exact T5]. eapply bind_run; [exact EG|exact E5]. }
  apply tot_tables; [|exact T4]. apply tot_bind; [|intros; apply tot_bind; [apply tot_config|intros; apply tot_ret]].
  apply tot_mconcat. intros [f fd] Hf. apply tot_bind; [|intros; apply tot_ret]. cbn [id_fields snd] in *. apply tot_argument; [|eapply vs_in; eassumption].
  eapply leaf_ready; [exact T4|exact Hs|right; auto|]. apply in_app_iff. right. apply in_map_iff. exists (f, fd). auto.
Qed.
End Scaffold.

(** *** Directives, scalars and enums *)
Section Plugin.
Variable c : gconfig. Variable st : list styler. Variable s : schema. Variable dirs : list directivedef.
Variable applied : string -> list directive. Variable pc : sbcfg.
Hypothesis V : valid_schema s.
Hypothesis Flat : flat_schema s (sb_builtin_directives pc) applied.
Hypothesis Order : interfaces_in_order s (skipped pc).
Hypothesis Enums : c_force_plugin_order c = true -> sb_enums pc = true /\ enums_kept s (skipped pc) (skipped pc)
  /\ enums_apart s (style_enum_class st) (map (style_objecttype_class st) (names_with s composite) ++ map (style_inputtype_class st) (names_with s inputlike)).
Variable k0 : list string.
Hypothesis Known : forall n, is_scalar s n = true -> In n (sb_builtin_scalars pc) -> In n k0.
Hypothesis On : sb_directives pc = true.
Hypothesis Args : forall d a ad, In d dirs -> ~ In (dd_name d) (sb_builtin_directives pc) -> In (a, ad) (dd_args d) ->
  is_scalar s (gty_name (arg_type ad)) = true /\ In (gty_name (arg_type ad)) k0.

Lemma tot_directive_annotation : forall r t o, is_scalar s (gty_name t) = true -> dmem (gty_name t) (r_scalars r) = true -> tot r (build_directive_type_annotation s t o).
Proof.
  intros r. induction t as [n|t IH|t IH]; intros o H K; cbn.
  - unfold is_scalar in H. cbn in H, K. destruct (get_type s n) as [[]|]; try discriminate. apply tot_bind; [apply tot_optimport|]. intros _. apply tot_bind; [now apply tot_scalar|]. intros; apply tot_ret.
  - apply tot_bind; [apply tot_import|]. intros _. apply tot_bind; [apply tot_optimport|]. intros _. apply tot_bind; [now apply IH|]. intros; apply tot_ret.
  - now apply IH.
Qed.
Lemma tot_directive_classes : forall r, (forall n, In n k0 -> dmem n (r_scalars r) = true) -> tot r (generate_directives c st s dirs pc).
Proof.
  intros r K. unfold generate_directives. destruct (filter _ dirs) as [|d0 l0] eqn:E; [apply tot_ret|]. apply tot_bind; [apply tot_import|]. intros _. apply tot_mconcat. intros d Hd.
  rewrite <- E in Hd. apply filter_In in Hd as (Hd & N). apply negb_true_iff, mem_false in N. unfold directive_class. apply tot_if; [apply tot_ret|].
  apply tot_bind; [|intros; apply tot_bind; [apply tot_config|intros; apply tot_ret]]. apply tot_mconcat. intros [a ad] Ha. destruct (Args _ _ _ Hd N Ha) as (A1 & A2).
  apply tot_bind; [|intros; apply tot_ret]. cbn [snd]. apply tot_directive_annotation; [exact A1|]. apply K, A2.
Qed.
Lemma scalars_total : forall ke ki ko kf r, tables k0 ke ki ko kf r -> exists l r', generate_scalars s applied pc r = (Ok l, r') /\ tables (k0 ++ map fst (scalar_types s pc)) ke ki ko kf r'.
Proof.
  intros ke ki ko kf r T. unfold generate_scalars. eapply (bind_ex _ _ _ (tables k0 ke ki ko kf)).
  { apply tot_tables; [|exact T]. destruct (scalar_types s pc); [apply tot_ret|apply tot_import]. }
  intros _ r1 T1. destruct (mconcat_total (scalar_assign applied pc) (fun pre r => tables (k0 ++ map fst pre) ke ki ko kf r) (scalar_types s pc) r1) as (l & r' & E & T').
  { cbn. rewrite app_nil_r. exact T1. }
  2: { exists l, r'. auto. }
  intros pre [k d] post r2 E T2. unfold scalar_assign.
  assert (flat_directives (sb_builtin_directives pc) (applied k)) as FD.
  { assert (In (k, d) (scalar_types s pc)) as Hk by (rewrite E; apply in_elt). apply in_flat_map in Hk as ([k' t] & Hk & X). cbn in X. destruct t; try destruct X. destruct (mem k' _); [destruct X|]. destruct X as [[= <- <-]|[]].
    apply (Flat _ _ Hk). }
  eapply bind_ex; [apply tot_tables; [now apply tot_directives|exact T2]|]. intros dks r3 T3. cbn beta in T3.
  eexists; eexists; split; [reflexivity|]. destruct T3 as (A1 & A2 & A3 & A4 & A5 & A7 & A6). repeat split; auto. intros n Hn. cbn. apply dmem_In. rewrite dkeys_dset.
  rewrite map_app, app_assoc in Hn. apply in_app_iff in Hn as [Hn|[<-|[]]].
  - apply A1, dmem_In in Hn. destruct (dmem k _); [exact Hn|]. apply in_app_iff. now left.
  - destruct (dmem k (r_scalars r3)) eqn:D; [now apply dmem_In|]. apply in_elt.
Qed.
Definition enum_keys (l : list (string * typedef)) : list string := map fst (filter (fun kt => match snd kt with TEnum _ _ => negb (skipped pc (fst kt)) | _ => false end) l).
Lemma enums_total : forall ks ki ko kf r, tables ks [] ki ko kf r -> exists l r', Strawberry.generate_enums st s applied pc r = (Ok l, r') /\ tables ks (enum_keys (s_types s)) ki ko kf r'.
Proof.
  intros ks ki ko kf r T. unfold Strawberry.generate_enums.
  apply (mconcat_total _ (fun pre r => tables ks (enum_keys pre) ki ko kf r) (s_types s) r T).
  intros pre [k t] post r1 E T1. assert (In (k, t) (s_types s)) as Hs by (rewrite E; apply in_elt).
  pose proof (vs_names s V) as N. rewrite E in N. apply NoDup_mid in N. cbn in N.
  unfold enum_keys. rewrite filter_app, map_app. fold (enum_keys pre). cbn [filter fst snd].
  destruct t as [d|d vs|d is fs ds|d is fs|d ms|d fs ds]; cbn [map]; try (rewrite app_nil_r; exists [], r1; auto; fail).
  unfold Strawberry.generate_enum_class. destruct (Flat _ _ Hs) as (FD & _).
  eapply bind_ex; [apply tot_tables; [now apply tot_directives|exact T1]|]. intros kws r2 T2. cbn beta in T2.
  destruct (skipped pc k); cbn [negb map fst]. { rewrite app_nil_r; exists [], r2; auto. }
  assert (~ In k (dkeys (r_enums r2))) as NI. { destruct T2 as (_ & -> & _). intros X. apply N. eapply keys_incl. exact X. }
  unfold generate_enum. eapply (bind_ex _ _ _ (tables ks (enum_keys pre ++ [k]) ki ko kf)).
  { rewrite (generate_in_run _ _ _ _ _ (dmem_no _ _ NI)). eexists; eexists; split; [reflexivity|].
    destruct T2 as (A1 & A2 & A3 & A4 & A5 & A7 & A6). repeat split; cbn; auto. rewrite dkeys_snoc by exact NI. now rewrite A2. }
  intros cn r3 T3. apply tot_tables; [|exact T3]. apply tot_bind; [apply tot_import|]. intros; apply tot_ret.
Qed.
Lemma plugin_total : forall r, tables k0 [] [] [] [] r -> exists l r', strawberry_plugin c st s dirs applied pc r = (Ok l, r') /\ incl (r_builtins r') built_in_keys.
Proof.
  intros r T. unfold strawberry_plugin. rewrite On.
  eapply bind_ex; [apply tot_tables; [apply tot_import|exact T]|]. intros u r1 T1. cbn beta in T1.
  eapply bind_ex; [apply tot_tables; [apply tot_directive_classes; apply T1|exact T1]|]. intros d r2 T2. cbn beta in T2.
  eapply bind_ex; [apply scalars_total; exact T2|]. intros sc r3 T3. cbn beta in T3. set (ks := k0 ++ map fst (scalar_types s pc)) in *.
  assert (forall n, is_scalar s n = true -> In n ks) as Sc.
  { intros n Hn. apply in_app_iff. unfold is_scalar in Hn. destruct (get_type s n) as [t|] eqn:G; [|discriminate]. destruct t; try discriminate.
    destruct (mem n (sb_builtin_scalars pc)) eqn:B; [left; apply Known; [unfold is_scalar; now rewrite G|now apply mem_In]|]. right.
    unfold get_type in G. apply dget_Some_In in G. apply in_map_iff. eexists (n, _). split; [reflexivity|]. apply in_flat_map. eexists. split; [exact G|]. cbn. rewrite B. left. reflexivity. }
  eapply (bind_ex _ _ _ (fun r => exists ke, tables ks ke [] [] [] r /\ (sb_enums pc = true -> ke = enum_keys (s_types s)))).
  { destruct (sb_enums pc); [|exists [], r3; split; [reflexivity|]; exists []; split; [exact T3|discriminate]].
    destruct (enums_total _ _ _ _ _ T3) as (l & r' & E & T'). exists l, r'. split; [exact E|]. eauto. }
  intros e r4 (ke & T4 & KE).
  assert (sb_enums pc = true -> forall n, is_enum s n = true -> skipped pc n = false -> In n ke) as KE'.
  { intros X n Hn Hs. rewrite (KE X). unfold is_enum in Hn. destruct (get_type s n) as [t|] eqn:G; [|discriminate]. unfold get_type in G. apply dget_Some_In in G.
    apply in_map_iff. exists (n, t). split; [reflexivity|]. apply filter_In. split; [exact G|]. cbn. destruct t; try discriminate. now rewrite Hs. }
  eapply (bind_ex _ _ _ (fun r => exists ki, tables ks ke ki [] [] r)).
  { destruct (sb_inputs pc); [|exists [], r4; split; [reflexivity|]; eauto]. eapply inputs_total; eassumption. }
  intros i r5 (ki & T5). eapply (bind_ex _ _ _ (fun r => incl (r_builtins r) built_in_keys)).
  { destruct (sb_types pc); [|exists [], r5; split; [reflexivity|]; apply T5]. eapply types_total; eassumption. }
  intros t r6 T6. exists (d ++ sc ++ e ++ i ++ t), r6. auto.
Qed.
End Plugin.
