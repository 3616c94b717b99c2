(** The classes of enums, input types and object types. *)
From Verif Require Import Base PyAst Gql Config Stylers Registry Utils Referencer Enums Inputs Recurse Objects
  Spec_Naming Spec_Inputs Spec_Syntax Spec_Scope2 P_Base P_Stylers P_Monad P_Registry P_Inputs2 P_Syntax P_Syntax2.

Lemma ok_true : forall {A} (m : M A) Q, ok m Q -> ok m (fun _ => True).
Proof. intros A m Q H. eapply ok_weaken; [exact H|trivial]. Qed.
Lemma refs_kept : forall c b s d, ok (plugin_refs c b s d) (fun _ => True).
Proof.
  intros c b s d. unfold plugin_refs. destruct (b && _); [|now apply ok_ret].
  eapply ok_bind with (P := fun _ => True); [now apply ok_lift|]. intros x _. eapply ok_bind with (P := fun _ => True); [now apply ok_lift|].
  intros y _. now apply ok_ret.
Qed.

Section Schema.
Variable c : gconfig.
Variable st : list styler.
Variable s : schema.
Hypothesis C : config_named c.
Hypothesis S : forall x, In x st -> styler_named x.
Hypothesis N : schema_named s.

Lemma type_named : forall n t, get_type s n = Some t -> is_name n = true.
Proof. intros n t H. apply dget_Some_In in H. exact (sn_types _ N _ _ H). Qed.

(** ** enums *)
Lemma enums_valid : forall ec docs, ok (enums_plugin c st ec s docs) (Forall sv).
Proof.
  intros ec docs. unfold enums_plugin. imp. unfold generate_enums. eapply ok_bind; [apply refs_kept|]. intros rf _.
  apply ok_mconcat. intros [k [d vs]] H. cbn [fst snd].
  assert (HT : In (k, TEnum d vs) (s_types s)).
  { unfold enum_types in H. apply in_flat_map in H as ([k' t] & H1 & H2). cbn in H2. destruct t; try destruct H2 as [[= <- <- <-]|[]]; try destruct H2. exact H1. }
  destruct (enum_skipped _ _ _); [apply ok_ret; constructor|].
  eapply ok_bind; [apply gen_enum; [exact S|exact (sn_types _ N _ _ HT)]|]. intros cls Hc. apply ok_ret. constructor; [|constructor].
  apply sv_class; [exact Hc|repeat constructor; now apply ev_name|discriminate| |constructor].
  constructor; [apply sv_doc|]. apply Forall_forall. intros x Hx. apply in_flat_map in Hx as ([m v] & Hm & Hx). cbn in Hx.
  destruct Hx as [<-|Hx]; [apply sv_assign; [exact (sn_values _ N _ _ _ _ _ HT Hm)|apply ev_str]|].
  destruct (truthy _); [destruct Hx as [<-|[]]; apply sv_doc|destruct Hx].
Qed.

(** ** input types *)
Section Inputs.
Variable pc : inputs_config.
Hypothesis B : forall b, In b (ic_bases pc) -> py_path b = true.

Lemma input_annotation_ok : forall t parent opt, pyname parent = true -> ok (generate_input_annotation c st s t parent opt) ev.
Proof.
  induction t as [n|t IH|t IH]; intros parent opt P; cbn [generate_input_annotation].
  - assert (R : ok match get_type s n with
        | Some (TScalar _) => reference_scalar n
        | Some (TInput _ _ _) => reference_inputtype st n parent true
        | Some (TEnum _ _) => reference_enum st n parent (negb (c_force_plugin_order c))
        | _ => raise NotImplementedErrorC "Unknown input type"
        end ev).
    { destruct (get_type s n) as [[]|]; try apply ok_raise; [apply scalar_ok|apply enum_ref; [exact S|auto]|apply input_ref; auto]. }
    destruct (get_type s n) as [[]|]; try apply ok_raise; (destruct opt; [imp; eapply ok_bind; [exact R|intros e He; apply ok_ret; now apply ev_optional]|exact R]).
  - eapply ok_bind; [apply import_if; reflexivity|]. intros _ _.
    assert (L : forall e, ev e -> ev ((if tuple_for_inputs c then tuple_of else list_of) e)).
    { intros e He. destruct (tuple_for_inputs c); [now apply ev_tupled|now apply ev_list]. }
    destruct opt; [imp|]; (eapply ok_bind; [now apply IH|intros e He; apply ok_ret]); [apply ev_optional|]; now apply L.
  - now apply IH.
Qed.
Lemma field_annotation_ok : forall t parent o, pyname parent = true -> ok (generate_input_field_annotation c st s t parent o) ev.
Proof.
  intros t parent o P. unfold generate_input_field_annotation. bnd; [now apply input_annotation_ok|].
  destruct (o && is_nonnull t); [imp; apply ok_ret; now apply ev_optional|now apply ok_ret].
Qed.
Lemma field_value_ok : forall a b o d, ok (generate_input_field_value a b o d) (fun v => forall e, v = Some e -> ev e).
Proof.
  intros a b o d. unfold generate_input_field_value. destruct (_ && _).
  - apply ok_ret. destruct o; [intros e [= <-]; apply ev_const|discriminate].
  - imp. apply ok_ret. intros e [= <-]. apply ev_kwcall; [now apply ev_name| |].
    + destruct (String.eqb a b), o, (truthy d); cbn; repeat constructor; cbn; intuition discriminate.
    + kws.
Qed.
Lemma input_field_ok : forall name key v, pyname name = true -> is_name key = true -> ok (generate_input_field c st s name key v) (Forall sv).
Proof.
  intros name key v P K. unfold generate_input_field. bnd; [now apply field_annotation_ok|].
  bnd; [apply metadata_ok; [exact C|assumption|destruct (default_string _); cbn; [intros e [= <-]; apply ev_str|discriminate]]|].
  bnd; [apply field_value_ok|]. apply ok_ret.
  assert (V : sv (SAnn (generate_node_name st key) x0 x1)) by (apply sv_ann; [now apply node_named|assumption|assumption]).
  destruct (_ && _); repeat constructor; exact V.
Qed.
Lemma discriminator_ok : forall d, pyname (di_name d) = true -> ok (discriminator_field d) sv.
Proof.
  intros d H. unfold discriminator_field. imp. imp. apply ok_ret, sv_ann; [exact H|apply ev_literal|]. intros e [= <-].
  apply ev_kwcall; [now apply ev_name|repeat constructor; cbn; tauto|]. kws.
Qed.
Lemma input_class_ok : forall name key desc fields bases ds, pyname name = true -> (forall k f, In (k, f) fields -> is_name k = true) ->
  Forall ev bases -> (forall d, In d ds -> pyname (di_name d) = true) -> ok (input_class c st pc s name key desc fields bases ds) sv.
Proof.
  intros name key desc fields bases ds P F HB D. unfold input_class.
  bnd; [apply ok_mmap; intros d Hd; now apply discriminator_ok, D|].
  bnd; [apply ok_mconcat with (Q := sv); intros [k f] Hk; destruct (mem _ _); [apply ok_ret; constructor|apply input_field_ok; [exact P|exact (F _ _ Hk)]]|].
  bnd; [apply config_ok, C|]. apply ok_ret. apply sv_class; [exact P| |discriminate| |constructor].
  - apply Forall_app. split; [exact HB|]. now apply ev_paths.
  - constructor; [apply sv_doc|]. repeat (apply Forall_app; split); try assumption.
    destruct ds; [constructor|]. destruct (String.eqb _ _); [|constructor]. constructor; [|constructor].
    unfold sv, post_init. cbn. rewrite !andb_true_r. apply forallb_forall. intros e He. apply in_map_iff in He as (x2 & <- & _). reflexivity.
Qed.
Lemma input_type_ok : forall name key desc fields ds, pyname name = true -> (forall k f, In (k, f) fields -> is_name k = true) ->
  (forall d, In d ds -> pyname (di_name d) = true) -> ok (generate_input_type c st pc s name key desc fields ds) sv.
Proof.
  intros. unfold generate_input_type. bnd; [apply additional_bases_ok, C|]. now apply input_class_ok.
Qed.
Lemma alias_ok : forall a l, pyname a = true -> Forall (fun n => pyname n = true) l -> ok (generate_union_alias a l) sv.
Proof.
  intros a l A L. unfold generate_union_alias. destruct l as [|x [|y l]].
  - imp. apply ok_ret, sv_assign; [exact A|now apply ev_union, ev_names].
  - apply ok_ret, sv_assign; [exact A|]. inversion L; subst. now apply ev_name.
  - imp. apply ok_ret, sv_assign; [exact A|now apply ev_union, ev_names].
Qed.
Lemma wrapper_ok : forall key fields, is_name key = true -> (forall k f, In (k, f) fields -> is_name k = true) ->
  ok (generate_oneof_wrapper_input c st pc s key fields) (Forall sv).
Proof.
  intros key fields K F. unfold generate_oneof_wrapper_input. bnd; [apply additional_bases_ok, C|].
  eapply ok_bind with (P := Forall (fun p => pyname (fst p) = true /\ sv (snd p))).
  { apply ok_mmap. intros [vk v] Hv. unfold oneof_wrapper_class.
    eapply ok_bind with (P := fun x => pyname x = true).
    { apply ok_try; [|intros; apply ok_raise]. apply gen_input; [exact S|]. apply is_name_app; [exact K|].
      apply is_name_split, capfirst_name, (F _ _ Hv). }
    intros cls Hc. bnd; [now apply input_annotation_ok|]. bnd; [apply metadata_ok; [exact C|assumption|discriminate]|].
    bnd; [apply field_value_ok|]. bnd; [apply config_ok, C|]. apply ok_ret. split; [exact Hc|]. cbn [snd].
    apply sv_class; [exact Hc| |discriminate| |constructor].
    - apply Forall_app. split; [assumption|]. now apply ev_paths.
    - constructor; [apply sv_doc|]. constructor; [|assumption]. apply sv_ann; [apply node_named; [exact S|exact (F _ _ Hv)]|assumption|assumption]. }
  intros l HL. bnd; [apply gen_input; [exact S|exact K]|]. bnd; [apply alias_ok; [assumption|apply Forall_map; eapply Forall_impl; [|exact HL]; now intros p []]|].
  apply ok_ret. apply Forall_app. split; [apply Forall_map; eapply Forall_impl; [|exact HL]; now intros p []|]. now repeat constructor.
Qed.
Lemma serializer_ok : forall n key (cl : list (string * string)), pyname n = true -> Forall (fun p => pyname (fst p) = true) cl ->
  sv (SFunc false n (PyArgs [PyArg "value" None; PyArg "handler" None] []) (serializer_body key cl) None []).
Proof.
  intros n key cl Hn HL. unfold sv. cbn. rewrite Hn. cbn. rewrite !andb_true_r. apply forallb_forall. intros x Hx.
  apply in_map_iff in Hx as (p & <- & Hp). rewrite Forall_forall in HL. cbn. change (name_text "isinstance") with true. change (name_text "value") with true.
  change (name_text "handler") with true. now rewrite text_of_name by now apply HL.
Qed.
Lemma direct_union_ok : forall key ms, is_name key = true -> ok (generate_oneof_direct_union st key ms) (Forall sv).
Proof.
  intros key ms K. unfold generate_oneof_direct_union. bnd; [now apply gen_input|].
  assert (NS : pyname ("_serialize_" +s+ camel_to_snake x) = true).
  { change ("_serialize_" +s+ camel_to_snake x) with ("_" +s+ ("serialize_" +s+ camel_to_snake x)). apply pyname_under, is_name_app; [reflexivity|].
    apply is_name_split, snake_is_name, pyname_name, Hx. }
  eapply ok_bind with (P := Forall (fun p => pyname (fst p) = true)).
  { apply ok_mmap. intros p _. bnd; [apply P_Syntax.input_class_ok|]. now apply ok_ret. }
  intros cl HL. eapply ok_bind; [now apply import_when|]. intros _ _. imp. imp. apply ok_ret.
  constructor; [now apply serializer_ok|]. constructor; [|constructor]. apply sv_assign; [exact Hx|]. apply ev_annotated. constructor.
  - assert (U : Forall (fun n => pyname n = true) (dedup (map fst cl))).
    { apply Forall_forall. intros n Hn. rewrite dedup_In in Hn. apply in_map_iff in Hn as (p & <- & Hp). rewrite Forall_forall in HL. now apply HL. }
    destruct (1 <? length cl)%nat.
    + destruct (dedup _) as [|u [|v l]]; try (now apply ev_union, ev_names). inversion U; subst. apply ev_sub; now apply ev_name.
    + destruct (dedup _) as [|u l]; [apply ev_const|]. inversion U; subst. now apply ev_name.
  - constructor; [|constructor]. apply ev_call; [now apply ev_name|]. constructor; [now apply ev_name|constructor].
Qed.
Lemma validate_kept : forall fs, ok (validate_oneof_input_type fs) (fun _ => True).
Proof.
  intros fs. apply ok_miter. intros kv _. destruct (is_nonnull _); [apply ok_raise|]. destruct (if_default _); [apply ok_raise|now apply ok_ret].
Qed.
Definition unions_ok (p : prepass) : Prop := forall u l n, In (u, l) (pp_unions p) -> In n l -> pyname n = true.
Lemma add_members_ok : forall name ms u, pyname name = true ->
  (forall k l n, In (k, l) u -> In n l -> pyname n = true) ->
  forall k l n, In (k, l) (fold_left (add_member name) ms u) -> In n l -> pyname n = true.
Proof.
  intros name ms. induction ms as [|m ms IH]; intros u P H; [exact H|]. cbn [fold_left]. apply IH; [exact P|].
  intros k l n Hk Hn. unfold add_member in Hk. apply dset_In in Hk as [Hk|[-> ->]]; [eauto|].
  assert (G : forall l0, dget (mb_union m) u = Some l0 -> In n l0 -> pyname n = true).
  { intros l0 G. apply dget_Some_In in G. eauto. }
  destruct (dget (mb_union m) u) as [l0|].
  - specialize (G _ eq_refl). destruct (mem name _); [auto|]. apply in_app_iff in Hn as [Hn|[<-|[]]]; auto.
  - cbn in Hn. destruct Hn as [<-|[]]. exact P.
Qed.
Lemma input_types_In : forall k t, In (k, t) (input_types s) -> In (k, TInput (id_desc t) (id_fields t) (id_dirs t)) (s_types s).
Proof.
  intros k t H. unfold input_types in H. apply in_flat_map in H as ([k' t'] & H1 & H2). cbn in H2.
  destruct t'; try destruct H2 as [[= <- <-]|[]]; try destruct H2. exact H1.
Qed.
Lemma input_names : forall k t, In (k, t) (input_types s) -> is_name k = true /\ forall x f, In (x, f) (id_fields t) -> is_name x = true.
Proof.
  intros k t H. apply input_types_In in H. split; [exact (sn_types _ N _ _ H)|]. intros x f Hx. apply (sn_fields _ N _ _ x H). cbn.
  apply in_map_iff. now exists (x, f).
Qed.
Definition pstate (x : prepass * list stmt) : Prop := unions_ok (fst x) /\ Forall sv (snd x).
Lemma prepass_ok : forall rf acc kv, In kv (input_types s) -> pstate acc -> ok (prepass_type c st pc s rf acc kv) pstate.
Proof.
  intros rf [p tree] [key t] H [U T]. cbn in U, T. destruct (input_names _ _ H) as [NK NF]. apply input_types_In in H. unfold prepass_type.
  eapply ok_bind; [apply ok_lift with (Q := fun x => forall u dn k, In (Membership u dn k) (fst x) -> belongs (id_dirs t) u dn k)|].
  { intros [ms discr] E u dn k Hm. apply read_spec in E as (R & _). now apply R in Hm. }
  intros [ms discr] B0. cbn in B0. destruct ms as [|m ms]; [apply ok_ret; split; [exact U|exact T]|].
  eapply ok_bind; [apply ok_lift with (Q := fun ds => forall dn k, In (dn, k) ds -> exists u, In (Membership u dn k) (m :: ms))|].
  { intros ds E dn k Hd. apply collect_spec in E as (_ & E). now apply E. }
  intros ds HD. bnd; [now apply gen_input|]. bnd.
  { apply input_type_ok; [assumption|exact NF|]. intros d Hd. apply in_map_iff in Hd as ([dn k] & <- & Hd). cbn.
    destruct (HD _ _ Hd) as (u & M1). apply B0 in M1. exact (sn_discriminators _ N _ _ _ _ _ _ _ H M1). }
  apply ok_ret. split; cbn [fst snd pp_unions].
  - intros u l n Hl Hn. revert u l n Hl Hn. cbn [pp_unions]. now apply add_members_ok.
  - apply Forall_app. split; [exact T|]. now repeat constructor.
Qed.
Definition mstate (x : list stmt * list (string * list (string * string))) : Prop :=
  Forall sv (fst x) /\ Forall (fun km => is_name (fst km) = true) (snd x).
Lemma main_ok : forall rf p acc kv, In kv (input_types s) -> unions_ok p -> mstate acc -> ok (main_type c st pc s rf p acc kv) mstate.
Proof.
  intros rf p [tree deferred] [key t] H U [T D]. cbn in T, D. destruct (input_names _ _ H) as [NK NF]. unfold main_type. cbv zeta.
  assert (W : ok (let* l := generate_oneof_wrapper_input c st pc s key (id_fields t) in ret (tree ++ l, deferred)) mstate).
  { bnd; [now apply wrapper_ok|]. apply ok_ret. split; cbn; [apply Forall_app; now split|exact D]. }
  destruct (mem key _); [apply ok_ret; now split|]. destruct (match rf with Some _ => _ | None => _ end); [apply ok_ret; now split|].
  destruct (_ && _); [apply ok_ret; now split|]. destruct (is_oneof_input_type _).
  - eapply ok_bind; [apply validate_kept|]. intros _ _. destruct (if String.eqb _ _ then _ else _) as [ms|]; [|exact W].
    destruct (existsb _ _); [exact W|]. apply ok_ret. split; cbn; [exact T|]. apply Forall_app. split; [exact D|]. now repeat constructor.
  - destruct (dget key (pp_unions p)) as [members|] eqn:G.
    + imp. imp. imp. bnd; [now apply gen_input|]. apply ok_ret. split; cbn; [|exact D]. apply Forall_app. split; [exact T|].
      constructor; [|constructor]. apply sv_assign; [assumption|]. apply ev_annotated. constructor; [|constructor; [|constructor]].
      * apply ev_union, ev_names, Forall_forall. intros n Hn. apply dget_Some_In in G. exact (U _ _ _ G Hn).
      * apply ev_kwcall; [now apply ev_name|repeat constructor; cbn; tauto|]. kws.
    + bnd; [apply additional_bases_ok, C|]. bnd; [now apply gen_input|]. bnd; [apply input_class_ok; [assumption|exact NF|assumption|intros d []]|].
      apply ok_ret. split; cbn; [|exact D]. apply Forall_app. split; [exact T|]. now repeat constructor.
Qed.
Lemma inputs_valid : forall docs, ok (inputs_plugin c st pc s docs) (Forall sv).
Proof.
  intros docs. unfold inputs_plugin.
  assert (I : ok (miter register_import (ic_bases pc)) (fun _ => True)) by (apply ok_miter; intros b Hb; now apply import_kept, B).
  eapply ok_bind; [exact I|]. intros _ _. unfold generate_inputs. eapply ok_bind; [apply refs_kept|]. intros rf _.
  eapply ok_bind; [exact I|]. intros _ _.
  eapply ok_bind with (P := pstate); [apply ok_mfold; [intros acc kv Hk; now apply prepass_ok|split; [intros u l n []|constructor]]|].
  intros [p tree] [U T]. cbn in U, T.
  eapply ok_bind with (P := mstate); [apply ok_mfold; [intros acc kv Hk; now apply main_ok|split; [exact T|constructor]]|].
  intros [tree' deferred] [T' D]. cbn in T', D. cbn [fst snd].
  bnd; [apply ok_mconcat with (Q := sv); intros km Hk; apply direct_union_ok; rewrite Forall_forall in D; now apply D|].
  apply ok_ret. apply Forall_app. now split.
Qed.
End Inputs.

(** ** object types *)
Section Objects.
Variable pc : obcfg.
Hypothesis B : forall b, In b (ob_bases pc) -> py_path b = true.
(** an interface gets an alias of its own name, unchanged *)
Hypothesis I : forall n d is fs, In (n, TInterface d is fs) (s_types s) -> pyname n = true.
(** interfaces that are implemented exist; types have fields *)
Hypothesis J : forall n t i, In (n, t) (s_types s) -> In i (type_interfaces t) -> pyname i = true.
Hypothesis F : forall n t, In (n, t) (s_types s) -> is_interface_def t = true \/ is_object_def t = true -> type_fields t <> [].

Lemma leaf_ok : forall n parent, pyname parent = true -> ok (leaf_reference c st s n parent) ev.
Proof.
  intros n parent P. unfold leaf_reference. destruct (get_type s n) as [[]|] eqn:G; try apply ok_raise.
  - apply scalar_ok.
  - apply enum_ref; [exact S|auto].
  - apply object_ref; [exact S|exact (type_named _ _ G)|auto].
  - unfold reference_interface. eapply ok_bind; [now apply forward_kept|]. intros _ _. apply ok_ret, ev_str.
Qed.
Lemma object_annotation_ok : forall t parent o, pyname parent = true -> ok (generate_object_field_annotation c st s t parent o) ev.
Proof.
  induction t as [n|t IH|t IH]; intros parent o P; cbn [generate_object_field_annotation].
  - unfold named_object_annotation. eapply ok_bind; [now apply import_when|]. intros _ _.
    eapply ok_bind with (P := ev).
    { destruct (get_type s n) as [[]|]; try now apply leaf_ok. imp. bnd; [apply ok_mmap; intros m _; now apply leaf_ok|]. apply ok_ret. now apply ev_union. }
    intros e He. apply ok_ret. destruct o; [now apply ev_optional|exact He].
  - eapply ok_bind; [apply import_kept; now destruct (tuple_for_objects c)|]. intros _ _.
    eapply ok_bind; [apply import_kept; now destruct o|]. intros _ _. bnd; [now apply IH|]. apply ok_ret.
    destruct (tuple_for_objects c), o; repeat first [apply ev_optional|apply ev_tupled|apply ev_list]; assumption.
  - now apply IH.
Qed.
Definition ostate (o : obstate) : Prop :=
  Forall sv (os_tree o) /\ (forall k l n, In (k, l) (os_implementing o) -> pyname k = true /\ (In n l -> pyname n = true))
  /\ forall k n, In (k, n) (os_base o) -> pyname k = true /\ pyname n = true.
Lemma implementing_ok : forall cls l m, pyname cls = true -> (forall i, In i l -> pyname i = true) ->
  (forall k l n, In (k, l) m -> pyname k = true /\ (In n l -> pyname n = true)) ->
  forall k l' n, In (k, l') (fold_left (fun m i => dextend i [cls] m) l m) -> pyname k = true /\ (In n l' -> pyname n = true).
Proof.
  intros cls l. induction l as [|i l IH]; intros m P L H; [exact H|]. cbn [fold_left]. apply IH; [exact P|intros; apply L; now right|].
  intros k l' n Hk. split.
  - unfold dextend in Hk. destruct (dget i m); apply dset_In in Hk as [Hk|[-> _]].
    1, 3: exact (proj1 (H _ _ "" Hk)). all: apply L; now left.
  - intros Hn. destruct (dextend_In _ _ _ _ _ _ Hk Hn) as [(l0 & H1 & H2)|[_ [<-|[]]]]; [exact (proj2 (H _ _ _ H1) H2)|exact P].
Qed.
Lemma ok_concat_some : forall {A B} (f : A -> M (list B)) l (Q : B -> Prop), (forall x, In x l -> ok (f x) (fun y => Forall Q y /\ y <> [])) ->
  ok (mconcat f l) (fun y => Forall Q y /\ (l <> [] -> y <> [])).
Proof.
  intros A0 B0 f l Q H. unfold mconcat. destruct l as [|x l]; [apply ok_ret; split; [constructor|intros E; now destruct E]|]. cbn [mmap].
  eapply ok_bind with (P := fun ll => Forall (fun y => Forall Q y /\ y <> []) ll /\ ll <> []).
  - eapply ok_bind; [apply H; now left|]. intros y Hy. eapply ok_bind; [apply ok_mmap; intros; apply H; now right|]. intros ys HY.
    apply ok_ret. split; [now constructor|discriminate].
  - intros ll [L E]. apply ok_ret. destruct L as [|y ll [Y Z] L]; [now destruct E|]. cbn. split.
    + apply Forall_app. split; [exact Y|]. clear E. induction L as [|z ll [HZ _] _ IH]; [constructor|]. cbn. apply Forall_app. now split.
    + intros _ E0. apply app_eq_nil in E0 as [-> _]. now apply Z.
Qed.
Lemma object_step_ok : forall o kt, In kt (sorted_objects s) -> ostate o -> ok (object_step c st s pc o kt) ostate.
Proof.
  intros o [key t] H (T & U & V). unfold object_step. assert (HS : In (key, t) (s_types s) /\ (is_interface_def t = true \/ is_object_def t = true)).
  { unfold sorted_objects in H. apply in_app_iff in H as [H|H]; apply filter_In in H as [H1 H2]; auto. }
  destruct HS as [HI HK]. assert (NK := sn_types _ N _ _ HI). bnd; [apply additional_bases_ok, C|].
  destruct (_ || _); [apply ok_ret; exact (conj T (conj U V))|].
  eapply ok_bind with (P := fun n => pyname n = true); [destruct (is_interface_def t); [now apply gen_interface|now apply gen_object]|].
  intros cls Hc. eapply ok_bind with (P := Forall ev).
  { apply ok_mconcat. intros i Hi. destruct (extended_by_other _ _ _); [apply ok_ret; constructor|].
    bnd; [apply inherited_interface|]. apply ok_ret. constructor; [now apply ev_name|constructor]. }
  intros ib Hib.
  assert (FN : forall k f, In (k, f) (type_fields t) -> is_name k = true).
  { intros k f Hf. apply (sn_fields _ N _ _ k HI). destruct t; cbn in Hf |- *; try destruct Hf; apply in_map_iff; now exists (k, f). }
  eapply ok_bind; [apply ok_concat_some with (Q := sv)|].
  { intros [k f] Hf. unfold object_field. bnd; [now apply object_annotation_ok|]. apply field_statements_ok; [exact C|exact S|exact (FN _ _ Hf)|assumption]. }
  intros fl [FV FE]. bnd; [apply config_ok, C|]. apply ok_ret. split; [|split]; cbn [os_tree os_implementing os_base].
  - apply Forall_app. split; [exact T|]. constructor; [|constructor]. apply sv_class; [exact Hc| | | |constructor].
    + repeat (apply Forall_app; split); try assumption. now apply ev_paths.
    + intros E. apply app_eq_nil in E as [_ E]. apply app_eq_nil in E as [E _]. revert E. apply FE, (F _ _ HI HK).
    + repeat (apply Forall_app; split); try assumption. destruct (truthy _); [constructor; [apply sv_doc|constructor]|constructor].
  - apply implementing_ok; [exact Hc|intros i Hi; exact (J _ _ _ HI Hi)|exact U].
  - destruct t; cbn [is_interface_def]; try exact V. intros k n Hk. apply dset_In in Hk as [Hk|[-> ->]]; [exact (V _ _ Hk)|]. split; [exact (I _ _ _ _ HI)|exact Hc].
Qed.
Lemma objects_valid : ok (generate_types c st s pc) (Forall sv).
Proof.
  unfold generate_types. eapply ok_bind with (P := fun _ => True); [apply ok_miter; intros b Hb; now apply import_kept, B|]. intros _ _.
  eapply ok_bind with (P := ostate); [apply ok_mfold; [intros o kt; apply object_step_ok|repeat split; [constructor|destruct H|destruct H|destruct H|destruct H]]|].
  intros o (T & U & V). bnd.
  { apply ok_mmap with (Q := sv). intros [k l] Hk. cbn [fst snd]. imp. apply ok_ret, sv_assign; [exact (proj1 (U _ _ "" Hk))|].
    apply ev_union, ev_names, Forall_forall. intros n. exact (proj2 (U _ _ _ Hk)). }
  eapply ok_bind with (P := fun _ => True).
  { destruct (filter _ _); [now apply ok_ret|]. destruct (c_always_resolve_interfaces c); [apply ok_raise|now apply ok_ret]. }
  intros _ _. apply ok_ret. repeat (apply Forall_app; split); [exact T|assumption|]. apply Forall_forall. intros z Hz.
  apply in_map_iff in Hz as ([k n] & <- & Hk). apply filter_In in Hk as [Hk _]. destruct (V _ _ Hk). now apply sv_assign; [|apply ev_name].
Qed.
End Objects.
End Schema.
