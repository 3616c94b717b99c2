(** The object plugin and the whole run do not fail. *)
From Verif Require Import Base PyAst Gql Config Stylers Registry Utils Recurse Referencer Enums Inputs Objects Strawberry Run Spec_Mro Spec_Mro2 Spec_Valid P_Base P_Gql P_Monad P_Config P_Mro P_Total P_Total2 P_Total3.
Arguments register_import : simpl never.
Arguments add_forward : simpl never.
Arguments register_builtin : simpl never.
Arguments dkeys : simpl never.

(** ** Objects *)
Section Objects.
Variable c : gconfig. Variable st : list styler. Variable s : schema. Variable oc : obcfg.
Definition ob_skip : string -> bool := underscored (ob_skip_underscore oc) (ob_skip_double_underscore oc).
Hypothesis V : valid_schema s.
Hypothesis Order : interfaces_in_order s ob_skip.
Hypothesis Impl : c_always_resolve_interfaces c = false \/ implemented s ob_skip.
Variable ks ke : list string.
Definition object_class (k : string) (t : typedef) : string := if is_interface_def t then style_objecttype_class st k +s+ "Base" else style_objecttype_class st k.
Hypothesis Leaf : forall k t n ki ko kf r, tables ks ke ki ko kf r -> In (k, t) (s_types s) -> composite t = true -> ob_skip k = false -> In n (mentions t) -> leaf_ok r c st s (object_class k t) n.

Lemma dextend_keys : forall i x (m : dict (list string)) y, In y (dkeys (dextend i [x] m)) <-> y = i \/ In y (dkeys m).
Proof.
  intros i x m y. unfold dextend. destruct (dget i m) as [v|] eqn:G; rewrite dkeys_dset.
  - assert (dmem i m = true) as D by (unfold dmem; now rewrite G). rewrite D. apply dmem_In in D. split; [auto|]. intros [->|H]; auto.
  - assert (dmem i m = false) as D by (unfold dmem; now rewrite G). rewrite D, in_app_iff. cbn. intuition.
Qed.
Lemma fold_dextend_keys : forall cls is (m : dict (list string)) y, In y (dkeys (fold_left (fun m i => dextend i [cls] m) is m)) <-> In y is \/ In y (dkeys m).
Proof. intros cls. induction is as [|i is IH]; intros m y; cbn; [tauto|]. rewrite IH, dextend_keys. intuition. Qed.
Definition obj_inv (ki : list string) (pre : list (string * typedef)) (o : obstate) (r : reg) : Prop :=
  tables ks ke ki (object_keys ob_skip pre) (iface_keys ob_skip pre) r
  /\ (forall k t i, In (k, t) pre -> ob_skip k = false -> In i (type_interfaces t) -> In i (dkeys (os_implementing o)))
  /\ (forall i, In i (dkeys (os_base o)) -> In i (iface_keys ob_skip pre)).
Lemma object_step_total : forall ki pre k t post o r, sorted_objects s = pre ++ (k, t) :: post -> obj_inv ki pre o r ->
  exists o' r', object_step c st s oc o (k, t) r = (Ok o', r') /\ obj_inv ki (pre ++ [(k, t)]) o' r'.
Proof.
  intros ki pre k t post o r E (T & I1 & I2). assert (In (k, t) (sorted_objects s)) as Hk by (rewrite E; apply in_elt). destruct (sorted_in s _ _ Hk) as (Hs & C).
  pose proof (sorted_NoDup s V) as N. rewrite E in N. apply NoDup_mid in N. cbn in N.
  unfold object_step. eapply (bind_exv _ _ _ (fun _ r => tables ks ke ki (object_keys ob_skip pre) (iface_keys ob_skip pre) r)); [apply tot_tables; [apply tot_additional|exact T]|]. intros add r1 T1.
  change (ob_skip_underscore oc && startswith "_" k || ob_skip_double_underscore oc && startswith "__" k) with (ob_skip k).
  unfold obj_inv. rewrite object_keys_app, iface_keys_app.
  change (object_keys ob_skip [(k, t)]) with (map fst (if negb (is_interface_def t) && negb (ob_skip k) then [(k, t)] else [])).
  change (iface_keys ob_skip [(k, t)]) with (map fst (if is_interface_def t && negb (ob_skip k) then [(k, t)] else [])).
  destruct (ob_skip k) eqn:Sk.
  { rewrite !andb_false_r. cbn. rewrite !app_nil_r. exists o, r1. split; [reflexivity|]. split; [exact T1|]. split.
    - intros k' t' i H. apply in_app_iff in H as [H|[[= <- <-]|[]]]; [now apply (I1 k' t')|congruence].
    - intros i Hi. auto. }
  rewrite !andb_true_r. destruct (register_type ob_skip st ks ke k t true ki pre r1 N T1) as (r2 & E2 & T2). rewrite andb_true_r in E2. fold (object_class k t) in E2.
  match type of T2 with tables _ _ _ ?a ?b _ => set (ko1 := a) in *; set (kf1 := b) in * end.
  eapply (bind_exv _ _ _ (fun a r => a = object_class k t /\ r = r2)); [eauto|]. intros cls r3 (-> & ->).
  eapply (bind_exv _ _ _ (fun _ r => tables ks ke ki ko1 kf1 r)); [apply tot_tables; [|exact T2]|].
  { apply tot_bases_ifaces. intros i Hi. destruct T2 as (_ & _ & _ & _ & -> & _). apply in_app_iff. left. eapply ifaces_before; eassumption. }
  intros ib r3 T3. cbn beta in T3.
  eapply (bind_exv _ _ _ (fun _ r => tables ks ke ki ko1 kf1 r)); [apply tot_tables; [|exact T3]|].
  { apply tot_mconcat. intros [f fd] Hf. assert (In (f, fd) (fields_of t)) as Hf' by (destruct t; exact Hf).
    apply tot_object_field; cbn [snd]; [|exact V|eapply vs_out; eassumption]. eapply Leaf; try eassumption. apply in_app_iff. left. apply in_flat_map. exists (f, fd). split; [exact Hf'|now left]. }
  intros fields r4 T4. cbn beta in T4.
  eapply (bind_exv _ _ _ (fun _ r => tables ks ke ki ko1 kf1 r)); [apply tot_tables; [apply tot_config|exact T4]|].
  intros cf r5 T5. cbn beta in T5. eexists; eexists; split; [reflexivity|]. split; [exact T5|]. cbn [os_implementing os_base]. split.
  - intros k' t' i H S' Hi. apply fold_dextend_keys. apply in_app_iff in H as [H|[[= <- <-]|[]]]; [right; now apply (I1 k' t')|now left].
  - intros i Hi. apply in_app_iff. destruct (is_interface_def t) eqn:It; [|left; auto].
    rewrite dkeys_dset in Hi. destruct (dmem k (os_base o)); [left; auto|]. apply in_app_iff in Hi as [Hi|[<-|[]]]; [left; auto|right; now left].
Qed.
Lemma objects_plugin_total : forall ki r, tables ks ke ki [] [] r -> exists l r', Objects.generate_types c st s oc r = (Ok l, r') /\ incl (r_builtins r') built_in_keys.
Proof.
  intros ki r T. unfold Objects.generate_types. eapply (bind_exv _ _ _ (fun _ r => tables ks ke ki [] [] r) (fun _ r => incl (r_builtins r) built_in_keys)); [apply tot_tables; [apply tot_miter; intros; apply tot_import|exact T]|]. intros _ r1 T1.
  destruct (mfold_total (object_step c st s oc) (obj_inv ki) (sorted_objects s) (ObState [] [] []) r1) as (o & r2 & E2 & (T2 & I1 & I2)).
  { split; [exact T1|]. split; [intros k t i []|]. cbn. auto. }
  { intros pre [k t] post a r3 E H. eapply object_step_total; eassumption. }
  eapply (bind_exv _ _ _ (fun a r => a = o /\ r = r2)); [eauto|]. intros o' r3 (-> & ->).
  eapply (bind_exv _ _ _ (fun _ r => tables ks ke ki (object_keys ob_skip (sorted_objects s)) (iface_keys ob_skip (sorted_objects s)) r)); [apply tot_tables; [|exact T2]|].
  { apply tot_mmap. intros kv _. apply tot_bind; [apply tot_import|]. intros; apply tot_ret. }
  intros us r3 T3. cbn beta in T3. cbn zeta. 
  assert (c_always_resolve_interfaces c = false \/ filter (fun kv => negb (dmem (fst kv) (os_implementing o))) (os_base o) = []) as L.
  { destruct Impl as [F|Im]; [now left|right]. destruct (filter _ (os_base o)) as [|x l] eqn:F; [reflexivity|]. exfalso.
    assert (In x (filter (fun kv => negb (dmem (fst kv) (os_implementing o))) (os_base o))) as Hx by (rewrite F; now left). apply filter_In in Hx as (Hx & Nx).
    assert (In (fst x) (iface_keys ob_skip (sorted_objects s))) as Ix by (apply I2; unfold dkeys; now apply in_map).
    apply in_map_iff in Ix as ([i ti] & Ei & Hi). cbn in Ei. apply filter_In in Hi as (Hi & Fi). cbn in Fi. apply andb_true_iff in Fi as (Fi & Si). apply negb_true_iff in Si.
    destruct (sorted_in s _ _ Hi) as (Hi' & _). assert (is_iface s i = true) as Ii by (unfold is_iface; rewrite (get_type_in s V _ _ Hi'); destruct ti; try discriminate; reflexivity).
    destruct (Im i Ii Si) as (k & t & Hk & Sk & Hi2). assert (In (k, t) (sorted_objects s) /\ In i (type_interfaces t)) as (Hk' & Hi3).
    { split; [|destruct t; exact Hi2]. apply in_app_iff. destruct t; try destruct Hi2; [right|left]; apply filter_In; auto. }
    apply (I1 _ _ _ Hk' Sk) in Hi3. apply dmem_In in Hi3. rewrite <- Ei in Nx. rewrite Hi3 in Nx. discriminate. }
  eapply (bind_exv _ _ _ (fun _ r => incl (r_builtins r) built_in_keys)).
  { destruct (filter _ (os_base o)) as [|x l]; [exists tt, r3; split; [reflexivity|apply T3]|]. destruct L as [->|L]; [|discriminate]. exists tt, r3; split; [reflexivity|apply T3]. }
  intros _ r4 T4. eexists; eexists; split; [reflexivity|exact T4].
Qed.
End Objects.

(** ** Whole runs *)
Lemma builtins_total : forall iter r, (forall l x, In x (iter l) -> In x l) -> incl (r_builtins r) built_in_keys -> exists l, generate_builtins iter r = Ok l.
Proof.
  intros iter r I H. unfold generate_builtins.
  assert (forall l, incl l built_in_keys -> exists ll, rmap (fun k => match built_in k with Some l => Ok l | None => rraise KeyErrorC k end) l = Ok ll) as G.
  { induction l as [|x l IH]; intros Hl; [eexists; reflexivity|]. destruct IH as (ll & E); [intros y Hy; apply Hl; now right|]. cbn.
    assert (exists b, built_in x = Some b) as (b & ->). { assert (In x built_in_keys) as Hx by (apply Hl; now left). repeat destruct Hx as [<-|Hx]; try (eexists; reflexivity). destruct Hx. }
    rewrite E. cbn. eexists; reflexivity. }
  destruct (G (iter (r_builtins r))) as (ll & ->); [intros x Hx; apply H; now apply I|]. eexists; reflexivity.
Qed.
Lemma dmerge_keys : forall {A} (e d : dict A) x, In x (dkeys d) \/ In x (dkeys e) -> In x (dkeys (dmerge d e)).
Proof.
  intros A. unfold dmerge. induction e as [|[k v] e IH]; intros d x H; cbn; [destruct H as [H|[]]; exact H|]. apply IH. cbn [fst snd].
  assert (In x (dkeys d) \/ x = k -> In x (dkeys (dset k v d))) as S.
  { rewrite dkeys_dset. destruct (dmem k d) eqn:D; [apply dmem_In in D; intros [X| ->]; auto|]. rewrite in_app_iff. cbn. intuition. }
  destruct H as [H|[H|H]]; [left; auto|left; apply S; right; now symmetry|right; exact H].
Qed.
Lemma init_tables : forall c, tables (known_scalars c) [] [] [] [] (init_reg c).
Proof.
  intros c. split; [|repeat split; intros x []]. intros n H. apply dmem_In. change (r_scalars (init_reg c)) with (dmerge SCALAR_DEFAULTS (c_scalar_definitions c)). apply dmerge_keys. apply in_app_iff in H as [H|H]; [left|right]; exact H.
Qed.
Lemma scaffold_ast_total : forall c st s dirs applied pc iter skip_forwards, (forall l x, In x (iter l) -> In x l) ->
  let skip := underscored (sb_skip_underscore pc) (sb_skip_double_underscore pc) in
  valid_schema s -> flat_schema s (sb_builtin_directives pc) applied -> interfaces_in_order s skip ->
  (c_force_plugin_order c = true -> sb_enums pc = true /\ enums_kept s skip skip
    /\ enums_apart s (style_enum_class st) (map (style_objecttype_class st) (names_with s composite) ++ map (style_inputtype_class st) (names_with s inputlike))) ->
  (forall n, is_scalar s n = true -> In n (sb_builtin_scalars pc) -> In n (known_scalars c)) ->
  sb_directives pc = true ->
  (forall d a ad, In d dirs -> ~ In (dd_name d) (sb_builtin_directives pc) -> In (a, ad) (dd_args d) -> is_scalar s (gty_name (arg_type ad)) = true /\ In (gty_name (arg_type ad)) (known_scalars c)) ->
  exists l, generate_ast c iter [Plugin "StrawberryPlugin" (strawberry_plugin c st s dirs applied pc)] skip_forwards = Ok l.
Proof.
  intros c st s dirs applied pc iter sf I skip V F O E K On A. destruct (plugin_total c st s dirs applied pc V F O E _ K On A _ (init_tables c)) as (l & r & El & B).
  unfold generate_ast, run_plugins. cbn [pl_generate]. rewrite El. cbn. destruct (builtins_total iter r I B) as (b & ->). eexists; reflexivity.
Qed.
Lemma schema_ast_total : forall c st s ec ic oc docs iter skip_forwards, (forall l x, In x (iter l) -> In x l) ->
  let skip := underscored (ob_skip_underscore oc) (ob_skip_double_underscore oc) in
  truthy (c_documents c) = false -> valid_schema s -> plain_inputs s -> interfaces_in_order s skip ->
  (c_always_resolve_interfaces c = false \/ implemented s skip) ->
  scalars_known s (known_scalars c) ->
  (c_force_plugin_order c = true -> enums_kept s skip (underscored (ec_skip_underscore ec) (ec_skip_double_underscore ec))
    /\ enums_apart s (style_enum_class st) (object_classes s (style_objecttype_class st) ++ map (style_inputtype_class st) (flat_map input_names (s_types s)))) ->
  exists l, generate_ast c iter [Plugin "EnumsPlugin" (enums_plugin c st ec s docs); Plugin "InputsPlugin" (inputs_plugin c st ic s docs); Plugin "ObjectsPlugin" (Objects.generate_types c st s oc)] skip_forwards = Ok l.
Proof.
  intros c st s ec ic oc docs iter sf I skip D V P O Im Sc En. fold (ob_skip oc) in skip. subst skip.
  assert (forall b r, plugin_refs c b s docs r = (Ok None, r)) as R by (intros b r; unfold plugin_refs; rewrite D, andb_false_r; reflexivity).
  destruct (enums_plugin_total c st s ec V None docs (R _) _ _ _ _ _ (init_tables c)) as (l1 & r1 & E1 & T1).
  set (ke := enum_names ec None (enum_types s)) in *.
  assert (forall k t n cls ki ko kf r, tables (known_scalars c) ke ki ko kf r -> In (k, t) (s_types s) -> In n (mentions t) -> ob_skip oc k = false \/ is_input s k = true ->
    In cls (object_classes s (style_objecttype_class st) ++ map (style_inputtype_class st) (flat_map input_names (s_types s))) -> leaf_ok r c st s cls n) as L.
  { intros k t n cls ki ko kf r (A1 & A2 & _) Hk Hn Sk Hc. split.
    - intros X. apply A1. eapply Sc; eassumption.
    - intros X. destruct (c_force_plugin_order c); [|now left]. right. destruct (En eq_refl) as (EK & EA). split.
      + apply dmem_In. rewrite A2. apply enum_names_in; [exact X|]. eapply EK; eassumption.
      + intros Y. apply (EA n X). now rewrite Y. }
  destruct (inputs_plugin_total c st s ic V P None docs (R _) (known_scalars c) ke) with (r := r1) as (l2 & r2 & E2 & ki & T2 & _); [|exact T1|].
  { intros k t n x ki r T Hk Hn Hx _. eapply L; [exact T|exact Hk|exact Hn| |].
    - right. unfold is_input. rewrite (get_type_in s V _ _ Hk). destruct t; try destruct Hx; reflexivity.
    - apply in_app_iff. right. apply in_map, in_flat_map. eauto. }
  destruct (objects_plugin_total c st s oc V O Im (known_scalars c) ke) with (ki := ki) (r := r2) as (l3 & r3 & E3 & B); [|exact T2|].
  { intros k t n ki' ko kf r T Hk C Sk Hn. eapply L; [exact T|exact Hk|exact Hn|now left|]. apply in_app_iff. left. apply in_map_iff. exists (k, t). split; [|apply filter_In; auto].
    cbn [fst]. unfold is_iface, object_class. rewrite (get_type_in s V _ _ Hk). destruct t; reflexivity. }
  unfold generate_ast, run_plugins. cbn [pl_generate]. rewrite E1, E2, E3. cbn. destruct (builtins_total iter r3 I B) as (b & ->). eexists; reflexivity.
Qed.

(** ** A check for valid schemas *)
Definition valid_b (s : schema) : bool :=
  nodupb (map fst (s_types s))
  && forallb (fun kt => forallb (fun f => output_type s (gty_name (fd_type (snd f))) && forallb (fun a => input_type s (gty_name (arg_type (snd a)))) (fd_args (snd f))) (fields_of (snd kt))
       && forallb (fun f => input_type s (gty_name (if_type (snd f)))) (inputs_of (snd kt))
       && match snd kt with TUnion _ ms => forallb (is_object s) ms | _ => true end
       && forallb (is_iface s) (implements (snd kt))) (s_types s).
Lemma valid_b_ok : forall s, valid_b s = true -> valid_schema s.
Proof.
  intros s H. unfold valid_b in H. apply andb_true_iff in H as (N & H).
  assert (forall k t, In (k, t) (s_types s) -> _) as G by (intros k t X; rewrite forallb_forall in H; exact (H _ X)). cbn in G.
  split.
  - apply nodupb_NoDup; exact N.
  - intros k t f fd X Y. specialize (G _ _ X). rewrite !andb_true_iff, !forallb_forall in G. destruct G as (((G & _) & _) & _). specialize (G _ Y). cbn in G. now apply andb_true_iff in G.
  - intros k t f fd a ad X Y Z. specialize (G _ _ X). rewrite !andb_true_iff, !forallb_forall in G. destruct G as (((G & _) & _) & _). specialize (G _ Y). cbn in G. apply andb_true_iff in G as (_ & G). rewrite forallb_forall in G. exact (G _ Z).
  - intros k t f fd X Y. specialize (G _ _ X). rewrite !andb_true_iff, !forallb_forall in G. destruct G as (((_ & G) & _) & _). exact (G _ Y).
  - intros k d ms i X Y. specialize (G _ _ X). rewrite !andb_true_iff in G. destruct G as ((_ & G) & _). rewrite forallb_forall in G. exact (G _ Y).
  - intros k t i X Y. specialize (G _ _ X). rewrite !andb_true_iff in G. destruct G as (_ & G). rewrite forallb_forall in G. exact (G _ Y).
Qed.
