(** References, configurations and fields. *)
From Verif Require Import Base PyAst Gql Config Stylers Registry Utils Recurse Spec_Naming Spec_Syntax Spec_Scope2 P_Base P_Stylers P_Monad P_Registry P_Syntax.
From Coq Require Import Lia.

Lemma nodup_app : forall {A} (a b : list A), NoDup (a ++ b) <-> NoDup a /\ NoDup b /\ (forall x, In x a -> ~ In x b).
Proof.
  intros A a b. induction a as [|x a IH]; cbn.
  - split; [intros H; repeat split; [constructor|exact H|tauto]|tauto].
  - rewrite !NoDup_cons_iff, IH, in_app_iff. split.
    + intros (N & Na & Nb & D). repeat split; try tauto. intros y [<-|Y] Z; [tauto|exact (D y Y Z)].
    + intros ((N & Na) & Nb & D). split; [intros [H|H]; [tauto|exact (D x (or_introl eq_refl) H)]|].
      repeat split; try tauto. intros y Y. apply D. now right.
Qed.
Definition sv (x : stmt) : Prop := stmt_valid Outside false x = true.
Lemma svs : forall l, Forall sv l <-> forallb (stmt_valid Outside false) l = true.
Proof. intros l. rewrite forallb_forall, Forall_forall. reflexivity. Qed.
Lemma evs : forall l p, Forall ev l -> forallb (expr_valid p) l = true.
Proof. intros l p H. apply forallb_forall. rewrite Forall_forall in H. intros x Hx. now apply H. Qed.
Lemma sv_class : forall n bases body decs, pyname n = true -> Forall ev bases -> body <> [] -> Forall sv body -> Forall ev decs ->
  sv (SClass n bases body decs).
Proof.
  intros n bases body decs N B E S D. unfold sv. cbn. rewrite N, !evs by assumption. rewrite (proj1 (svs _) S). now destruct body.
Qed.
Lemma sv_doc : forall d, sv (docstring d).
Proof. reflexivity. Qed.
Lemma sv_ann : forall t a v, pyname t = true -> ev a -> (forall e, v = Some e -> ev e) -> sv (SAnn t a v).
Proof. intros t a v T A V. unfold sv. cbn. rewrite T, (A Outside). destruct v as [v|]; [|reflexivity]. exact (V v eq_refl Outside). Qed.
Lemma sv_assign : forall t e, pyname t = true -> ev e -> sv (SAssign (EName t) e).
Proof. intros t e T E. unfold sv. cbn. now rewrite T, (E Outside). Qed.
Lemma ev_sub : forall a b, ev a -> ev b -> ev (ESub a b).
Proof. intros a b A B p. cbn. now rewrite (A p), (B p). Qed.
Lemma ev_tuple : forall l, Forall ev l -> ev (ETuple l).
Proof. intros l H p. cbn. now apply evs. Qed.
Lemma ev_optional : forall e, ev e -> ev (optional_of e).
Proof. intros e H. apply ev_sub; [now apply ev_name|exact H]. Qed.
Lemma ev_list : forall e, ev e -> ev (list_of e).
Proof. intros e H. apply ev_sub; [now apply ev_name|exact H]. Qed.
Lemma ev_tupled : forall e, ev e -> ev (tuple_of e).
Proof. intros e H. apply ev_sub; [now apply ev_name|]. apply ev_tuple. repeat constructor. exact H. Qed.
Lemma ev_union : forall l, Forall ev l -> ev (union_of l).
Proof. intros l H. apply ev_sub; [now apply ev_name|]. now apply ev_tuple. Qed.
Lemma ev_annotated : forall l, Forall ev l -> ev (annotated_of l).
Proof. intros l H. apply ev_sub; [now apply ev_name|]. now apply ev_tuple. Qed.
Lemma ev_literal : forall l, ev (literal_of l).
Proof. intros l p. reflexivity. Qed.
Lemma ev_const : forall l, ev (EConst l).
Proof. intros l p. reflexivity. Qed.
Lemma ev_call : forall f args, ev f -> Forall ev args -> ev (ECall f args []).
Proof. intros f args F A p. cbn. now rewrite (F p), evs. Qed.
Lemma ev_kwcall : forall f kws, ev f -> NoDup (map fst kws) -> (forall k e, In (k, e) kws -> pyname k = true /\ ev e) ->
  ev (ECall f [] (map (fun kv => (Some (fst kv), snd kv)) kws)).
Proof.
  intros f kws F N K p. cbn. rewrite (F p). cbn. apply andb_true_iff. split.
  - apply forallb_forall. intros x Hx. apply in_map_iff in Hx as ([k e] & <- & Hk). cbn. destruct (K k e Hk) as [A B]. now rewrite A, (B p).
  - apply nodupb_NoDup. replace (flat_map _ _) with (map fst kws); [exact N|]. clear. induction kws as [|[k e] kws IH]; cbn; [reflexivity|]. now f_equal.
Qed.
Lemma ev_names : forall l, Forall (fun n => pyname n = true) l -> Forall ev (map EName l).
Proof. intros l H. apply Forall_map. eapply Forall_impl; [|exact H]. intros n. apply ev_name. Qed.
Lemma ev_paths : forall l, (forall b, In b l -> py_path b = true) -> Forall ev (names_of l).
Proof. intros l H. apply Forall_forall. intros x Hx. apply in_map_iff in Hx as (b & <- & Hb). now apply ev_name, path_last, H. Qed.
Lemma sv_docs : forall o, sv (doc_stmt o).
Proof. reflexivity. Qed.

Ltac bnd := eapply ok_bind; [|let x := fresh "x" in let H := fresh "Hx" in intros x H].
Ltac imp := eapply ok_bind; [apply import_kept; reflexivity|intros _ _].
(** [if b then register_import p else ret tt] *)
Lemma import_if : forall (b : bool) p q, py_path p = true -> py_path q = true ->
  ok (if b then register_import p else register_import q) (fun _ => True).
Proof. intros [] p q P Q; now apply import_kept. Qed.
Lemma import_when : forall (b : bool) p, py_path p = true -> ok (if b then register_import p else ret tt) (fun _ => True).
Proof. intros [] p P; [now apply import_kept|now apply ok_ret]. Qed.

Lemma import_bases_ok : forall l, (forall b, In b l -> py_path b = true) -> ok (import_bases l) (Forall ev).
Proof.
  intros l H. unfold import_bases. eapply ok_bind; [apply ok_miter; intros x Hx; now apply import_kept, H|]. intros _ _. apply ok_ret.
  now apply ev_paths.
Qed.
Lemma optional_if_ok : forall b m, ok m ev -> ok (optional_if b m) ev.
Proof.
  intros b m H. unfold optional_if. eapply ok_bind; [now apply import_when|intros _ _]. bnd; [exact H|]. apply ok_ret. destruct b; [now apply ev_optional|assumption].
Qed.
Lemma opt_wrap_ok : forall b e, ev e -> ok (opt_wrap b e) ev.
Proof. intros [] e H; unfold opt_wrap; [imp; apply ok_ret; now apply ev_optional|now apply ok_ret]. Qed.

Section Refs.
Variable c : gconfig.
Variable st : list styler.
Hypothesis C : config_named c.
Hypothesis S : forall x, In x st -> styler_named x.

Lemma styled_in : forall hook n, In hook hooks -> is_name n = true -> pyname (style_with hook st n) = true.
Proof. intros hook n H N. now apply styled. Qed.

Lemma input_ref : forall n parent b, (b = true -> pyname parent = true) -> ok (reference_inputtype st n parent b) ev.
Proof.
  intros n parent b H. unfold reference_inputtype. eapply ok_bind with (P := fun m => forall k t, In (k, t) m -> pyname t = true).
  { apply ok_gets. intros r R. apply (rn_inputs _ R). }
  intros m Hm. assert (F : ok (if b then add_forward parent ;; ret (estr (style_inputtype_class st n)) else raise NoInputTypeFoundC n) ev).
  { destruct b; [|apply ok_raise]. eapply ok_bind; [apply forward_kept, H; reflexivity|]. intros _ _. apply ok_ret, ev_str. }
  destruct (dget n m) as [x|] eqn:E; [|exact F]. destruct (String.eqb parent _); [exact F|]. apply ok_ret, ev_name. apply dget_Some_In in E. eauto.
Qed.
Lemma enum_ref : forall n parent b, (b = true \/ In n helper_names -> pyname parent = true) -> ok (reference_enum st n parent b) ev.
Proof.
  intros n parent b H. unfold reference_enum. destruct (mem n built_in_keys) eqn:K.
  - apply mem_In in K. bnd; [apply builtin_kept|]. bnd; [apply forward_kept, H; now right|]. apply ok_ret, ev_str.
  - eapply ok_bind with (P := fun m => forall k t, In (k, t) m -> is_name k = true).
    { apply ok_gets. intros r R. apply (rn_enums _ R). }
    intros m Hm. destruct (dmem n m) eqn:D; cbn [negb orb].
    + destruct (String.eqb parent _).
      * destruct b; [|apply ok_raise]. bnd; [apply forward_kept, H; now left|]. apply ok_ret, ev_str.
      * apply ok_ret, ev_name, styled_in; [cbn; tauto|]. unfold dmem in D. destruct (dget n m) eqn:E; [|discriminate]. apply dget_Some_In in E. eauto.
    + destruct b; [|apply ok_raise]. bnd; [apply forward_kept, H; now left|]. apply ok_ret, ev_str.
Qed.
Lemma generic_ref : forall hook get n parent b, In hook hooks -> is_name n = true -> (b = true -> pyname parent = true) ->
  ok (reference_generic (style_with hook st) get n parent b) ev.
Proof.
  intros hook get n parent b HH N H. unfold reference_generic. bnd; [apply ok_gets with (Q := fun _ => True); trivial|].
  destruct (negb _ || _).
  - destruct b; [|apply ok_raise]. bnd; [apply forward_kept, H; reflexivity|]. apply ok_ret, ev_str.
  - apply ok_ret, ev_name. now apply styled_in.
Qed.
Lemma fragment_ref : forall n parent b, is_name n = true -> (b = true -> pyname parent = true) -> ok (reference_fragment st n parent b) ev.
Proof. intros. unfold reference_fragment, style_fragment_class. apply generic_ref; [cbn; tauto|assumption|assumption]. Qed.
Lemma object_ref : forall n parent b, is_name n = true -> (b = true -> pyname parent = true) -> ok (reference_object st n parent b) ev.
Proof. intros. unfold reference_object, style_objecttype_class. apply generic_ref; [cbn; tauto|assumption|assumption]. Qed.

Lemma gen_input : forall n, is_name n = true -> ok (generate_inputtype st n) (fun x => pyname x = true).
Proof.
  intros n N. apply generated; [apply styled_in; [cbn; tauto|exact N]|]. intros r v [] V. constructor; cbn; auto.
  intros k t H. apply dset_In in H as [H|[-> ->]]; eauto.
Qed.
Lemma gen_enum : forall n, is_name n = true -> ok (generate_enum st n) (fun x => pyname x = true).
Proof.
  intros n N. apply generated; [apply styled_in; [cbn; tauto|exact N]|]. intros r v [] V. constructor; cbn; auto.
  intros k t H. apply dset_In in H as [H|[-> ->]]; eauto.
Qed.
Lemma gen_fragment : forall n, is_name n = true -> ok (generate_fragment_class st n) (fun x => pyname x = true).
Proof.
  intros n N. apply generated; [apply styled_in; [cbn; tauto|exact N]|]. intros r v [] V. constructor; cbn; auto.
  intros k t H. apply dset_In in H as [H|[-> ->]]; eauto.
Qed.
Lemma gen_object : forall n, is_name n = true -> ok (generate_objecttype st n) (fun x => pyname x = true).
Proof.
  intros n N. apply generated; [apply styled_in; [cbn; tauto|exact N]|]. intros r v [] V. constructor; cbn; auto.
Qed.
Lemma gen_query : forall n, is_name n = true -> ok (generate_query st n) (fun x => pyname x = true).
Proof.
  intros n N. apply generated; [apply styled_in; [cbn; tauto|exact N]|]. intros r v [] V. constructor; cbn; auto.
Qed.
Lemma gen_mutation : forall n, is_name n = true -> ok (generate_mutation st n) (fun x => pyname x = true).
Proof.
  intros n N. apply generated; [apply styled_in; [cbn; tauto|exact N]|]. intros r v [] V. constructor; cbn; auto.
Qed.
Lemma gen_subscription : forall n, is_name n = true -> ok (generate_subscription st n) (fun x => pyname x = true).
Proof.
  intros n N. apply generated; [apply styled_in; [cbn; tauto|exact N]|]. intros r v [] V. constructor; cbn; auto.
Qed.
Lemma gen_interface : forall n, is_name n = true -> ok (generate_interface st n true) (fun x => pyname x = true).
Proof.
  intros n N. assert (P : pyname (style_interface_class st n +s+ "Base") = true).
  { apply pyname_app; [apply pyname_name, styled_in; [cbn; tauto|exact N]|reflexivity|reflexivity]. }
  unfold generate_interface. bnd; [apply ok_gets with (Q := fun _ => True); trivial|]. bnd; [apply ok_massert|].
  eapply ok_bind with (P := fun _ => True).
  - apply ok_modify. intros r []. constructor; cbn; auto. intros k t H. apply dset_In in H as [H|[-> ->]]; eauto.
  - intros _ _. now apply ok_ret.
Qed.

Lemma additional_bases_ok : forall n, ok (get_additional_bases_for_type c n) (Forall ev).
Proof.
  intros n. unfold get_additional_bases_for_type. destruct (dget n _) as [l|] eqn:E; [|apply ok_ret; constructor].
  apply dget_Some_In in E. apply import_bases_ok. intros b. exact (cn_additional_bases _ C _ _ b E).
Qed.
Lemma interface_bases_ok : ok (get_interface_bases c) (Forall ev).
Proof.
  unfold get_interface_bases. destruct (c_interface_bases c) as [[|b l]|] eqn:E; apply import_bases_ok; intros x Hx;
    try exact (cn_object_bases _ C _ Hx). exact (cn_interface_bases _ C _ _ E Hx).
Qed.
Lemma object_bases_ok : Forall ev (names_of (c_object_bases c)).
Proof. apply ev_paths. exact (cn_object_bases _ C). Qed.

Ltac kws := let k := fresh in let e := fresh in intros k e;
  repeat match goal with |- context [if ?b then _ else _] => destruct b end; cbn;
  let H := fresh in intros H; repeat (destruct H as [[= <- <-]|H]; [split; [reflexivity|first [apply ev_str|apply ev_const|assumption]]|]);
  destruct H.
Lemma typename_ok : forall n, ok (generate_typename_field c n) sv.
Proof.
  intros n. unfold generate_typename_field. imp. imp. imp. apply ok_ret, sv_ann; [reflexivity|apply ev_literal|].
  intros e [= <-]. apply ev_kwcall; [now apply ev_name| |].
  - unfold exclude_kw. destruct (c_exclude_typenames c); cbn; repeat constructor; cbn; intuition discriminate.
  - unfold exclude_kw. kws.
Qed.
Lemma generic_typename_ok : ok (generate_generic_typename_field c) sv.
Proof.
  unfold generate_generic_typename_field. imp. imp. imp. apply ok_ret, sv_ann; [reflexivity|now apply ev_name|].
  intros e [= <-]. apply ev_kwcall; [now apply ev_name| |].
  - unfold exclude_kw. destruct (c_exclude_typenames c); cbn; repeat constructor; cbn; intuition discriminate.
  - unfold exclude_kw. kws.
Qed.

Lemma additional_of : forall tn, additional_kws c tn = [] \/ exists k, In (k, additional_kws c tn) (c_additional_config c).
Proof.
  intros tn. unfold additional_kws. destruct (truthy tn); [|now left]. destruct (dget _ _) as [d|] eqn:E; [|now left].
  right. eexists. apply dget_Some_In in E. exact E.
Qed.
Lemma additional_names : forall tn k v, In (k, v) (additional_kws c tn) -> pyname k = true.
Proof.
  intros tn k v H. destruct (additional_of tn) as [E|[x E]]; [rewrite E in H; destruct H|]. exact (proj2 (cn_config _ C _ _ E) _ H).
Qed.
Lemma option_names : forall b k tn n v, (b = "populate_by_name" \/ b = "allow_population_by_field_name") ->
  In (n, v) (freeze_kws k c tn ++ options_kws b k c tn) -> pyname n = true.
Proof.
  intros b k tn n v B H. apply in_app_iff in H as [H|H].
  - unfold freeze_kws in H. repeat (match type of H with context [if ?x then _ else _] => destruct x end; try (destruct H; fail)).
    destruct H as [[= <- <-]|[]]. reflexivity.
  - unfold options_kws, opt_kw in H. repeat (match type of H with context [if ?x then _ else _] => destruct x end; try (destruct H; fail)).
    repeat match type of H with context [match ?x with Some _ => _ | None => _ end] => destruct x end; cbn in H;
      repeat (destruct H as [[= <- <-]|H]; [first [reflexivity|destruct B as [-> | ->]; reflexivity]|]); destruct H.
Qed.
(** the options of the generator come in a fixed order *)
Fixpoint subseq (l : list string) (k : list string) : bool :=
  match l, k with
  | [], _ => true
  | _, [] => false
  | x :: l', y :: k' => if String.eqb x y then subseq l' k' else subseq l k'
  end.
Lemma subseq_In : forall k l, subseq l k = true -> incl l k.
Proof.
  induction k as [|y k IH]; intros [|x l] H; try (now intros z []). cbn in H.
  destruct (String.eqb_spec x y) as [->|N]; intros z [<-|Hz].
  - now left.
  - right. exact (IH l H z Hz).
  - right. apply (IH (x :: l) H). now left.
  - right. apply (IH (x :: l) H). now right.
Qed.
Lemma subseq_NoDup : forall k l, subseq l k = true -> NoDup k -> NoDup l.
Proof.
  induction k as [|y k IH]; intros [|x l] H N; try constructor; try discriminate; cbn in H; inversion N as [|? ? N1 N2]; subst;
    destruct (String.eqb_spec x y) as [->|E].
  - intros I. exact (N1 (subseq_In _ _ H _ I)).
  - exact (proj1 (proj1 (NoDup_cons_iff x l) (IH _ H N2))).
  - exact (IH _ H N2).
  - exact (proj2 (proj1 (NoDup_cons_iff x l) (IH _ H N2))).
Qed.
Lemma options_order : forall k tn, subseq (map fst (freeze_kws k c tn ++ options_kws "populate_by_name" k c tn)) option_keywords = true.
Proof.
  intros k tn. unfold freeze_kws, options_kws, opt_kw.
  repeat match goal with |- context [if ?x then _ else _] => destruct x end;
    repeat match goal with |- context [match ?x with Some _ => _ | None => _ end] => destruct x end; reflexivity.
Qed.
Lemma config_ok : forall k tn, ok (generate_pydantic_config k c tn) (Forall sv).
Proof.
  intros k tn. unfold generate_pydantic_config. destruct (String.eqb _ _).
  - unfold generate_config_dict. set (kws := freeze_kws k c tn ++ options_kws "populate_by_name" k c tn ++ additional_kws c tn).
    assert (V : Forall sv [SAssign (EName "model_config") (ECall (EName "ConfigDict") [] (map (fun kv => (Some (fst kv), EConst (snd kv))) kws))]).
    { constructor; [|constructor]. apply sv_assign; [reflexivity|].
      replace (map _ kws) with (map (fun kv : string * expr => (Some (fst kv), snd kv)) (map (fun kv => (fst kv, EConst (snd kv))) kws)) by (now rewrite map_map).
      apply ev_kwcall; [now apply ev_name| |].
      - rewrite map_map. cbn. unfold kws. rewrite app_assoc, map_app. set (o := freeze_kws k c tn ++ _).
        assert (O := options_order k tn). fold o in O.
        assert (NO : NoDup option_keywords) by (apply nodupb_NoDup; reflexivity).
        destruct (additional_of tn) as [E|[x E]]; [rewrite E, app_nil_r; exact (subseq_NoDup _ _ O NO)|].
        destruct (cn_config _ C _ _ E) as [D _]. apply nodup_app in D as (D1 & _ & D3).
        apply nodup_app. split; [exact (subseq_NoDup _ _ O NO)|]. split; [exact D1|]. intros y Y1 Y2. exact (D3 y Y2 (subseq_In _ _ O _ Y1)).
      - intros n e H. apply in_map_iff in H as ([n' v] & [= <- <-] & H). split; [|apply ev_const]. unfold kws in H. rewrite app_assoc in H.
        apply in_app_iff in H as [H|H]; [eapply option_names; [now left|exact H]|eapply additional_names; exact H]. }
    destruct kws; [apply ok_ret; constructor|]. imp. apply ok_ret, V.
  - apply ok_ret. unfold generate_config_class_pydantic. set (kws := freeze_kws k c tn ++ _ ++ _). 
    assert (V : Forall sv (map (fun kv => SAssign (EName (fst kv)) (EConst (snd kv))) kws)).
    { apply Forall_map, Forall_forall. intros [n v] H. apply sv_assign; [|apply ev_const]. cbn. unfold kws in H. rewrite app_assoc in H.
      apply in_app_iff in H as [H|H]; [eapply option_names; [now right|exact H]|eapply additional_names; exact H]. }
    destruct kws; [constructor|]. constructor; [|constructor]. apply sv_class; [reflexivity|constructor|discriminate| |constructor].
    constructor; [apply sv_doc|exact V].
Qed.

Lemma graphql_default_ok : ok (reference_graphql_default c) ev.
Proof. apply override_ok; [reflexivity|]. intros p E. apply (cn_overrides _ C). rewrite E. cbn; tauto. Qed.
Lemma deprecated_ok : ok (reference_deprecated c) ev.
Proof. apply override_ok; [reflexivity|]. intros p E. apply (cn_overrides _ C). rewrite E. cbn; tauto. Qed.
Lemma unset_ok : ok (reference_unset c) ev.
Proof. apply override_ok; [reflexivity|]. intros p E. apply (cn_overrides _ C). rewrite E. cbn; tauto. Qed.
Lemma unset_type_ok : ok (reference_unset_type c) ev.
Proof. apply override_ok; [reflexivity|]. intros p E. apply (cn_overrides _ C). rewrite E. cbn; tauto. Qed.
Lemma metadata_ok : forall a d r, ev a -> (forall e, d = Some e -> ev e) -> ok (annotate_field_metadata c a d r) ev.
Proof.
  intros a d r A D. unfold annotate_field_metadata.
  eapply ok_bind with (P := Forall ev).
  { destruct d as [d|]; [|apply ok_ret; constructor]. bnd; [apply graphql_default_ok|]. apply ok_ret. constructor; [|constructor].
    apply ev_call; [assumption|]. constructor; [now apply D|constructor]. }
  intros m1 H1. eapply ok_bind with (P := Forall ev).
  { destruct r as [r|]; [|apply ok_ret; constructor]. bnd; [apply deprecated_ok|]. apply ok_ret. constructor; [|constructor].
    apply ev_call; [assumption|]. constructor; [apply ev_str|constructor]. }
  intros m2 H2. assert (H : Forall ev (m1 ++ m2)) by (now apply Forall_app). destruct (m1 ++ m2) as [|x l]; [now apply ok_ret|].
  imp. apply ok_ret, ev_annotated. now constructor.
Qed.
Lemma node_named : forall n, is_name n = true -> pyname (generate_node_name st n) = true.
Proof. intros. apply styled_in; [cbn; tauto|assumption]. Qed.
Lemma param_named : forall n, is_name n = true -> pyname (generate_parameter_name st n) = true.
Proof. intros. apply styled_in; [cbn; tauto|assumption]. Qed.
(** one field of a class; there is always a statement *)
Lemma field_statements_ok : forall t fd a, is_name t = true -> ev a -> ok (field_statements c st t fd a) (fun l => Forall sv l /\ l <> []).
Proof.
  intros t fd a T A. unfold field_statements. bnd; [apply metadata_ok; [exact A|discriminate]|].
  set (kws := if is_nonnull (fd_type fd) then [] else [("default", enone)]).
  set (kws' := if String.eqb t _ then kws else _).
  assert (V : sv (SAnn (generate_node_name st t) x (match kws' with [] => None | _ => Some (field_call kws') end))).
  { apply sv_ann; [now apply node_named|assumption|].
    assert (K : ev (field_call kws')).
    { apply ev_kwcall; [now apply ev_name| |].
      - unfold kws', kws. destruct (is_nonnull _), (String.eqb _ _); cbn; repeat constructor; cbn; intuition discriminate.
      - unfold kws', kws. kws. }
    intros e He. destruct kws'; [discriminate|]. injection He as <-. exact K. }
  eapply ok_bind with (P := fun _ => True); [destruct kws'; [now apply ok_ret|now apply import_kept]|]. intros _ _. apply ok_ret.
  split; [|discriminate]. constructor; [exact V|]. destruct (compose_field_documentation _ _ _ _); [|constructor]. constructor; [apply sv_doc|constructor].
Qed.
End Refs.
Ltac kws := let k := fresh in let e := fresh in intros k e;
  repeat match goal with |- context [if ?b then _ else _] => destruct b end; cbn;
  let H := fresh in intros H; repeat (destruct H as [[= <- <-]|H]; [split; [reflexivity|first [apply ev_str|apply ev_const|assumption]]|]);
  destruct H.
