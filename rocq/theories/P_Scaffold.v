(** Proofs about the server scaffold. *)
From Coq Require Import Permutation Sorted Lia.
From Verif Require Import Base PyAst Gql Config Stylers Registry Utils Recurse Objects Strawberry PySem Spec_Annot Spec_Scaffold P_Base P_Monad P_Annot.

Section P.
Variable c : gconfig.
Variable st : list styler.
Variable s : schema.
Variable ds : list directivedef.
Variable ap : string -> list directive.
Variable pc : sbcfg.

Definition Kann : list kind := [KImp; KFwd; KBui].
Lemma ev_argument : forall t p o, ev st Kann (argument_annotation c st s t p o).
Proof. induction t as [n|t IH|t IH]; intros p o; cbn [argument_annotation]; ev_tac; apply IH. Qed.
Lemma ev_leaf_reference : forall n p, ev st Kann (leaf_reference c st s n p).
Proof. intros n p; unfold leaf_reference; ev_tac. Qed.
Lemma ev_named_object : forall n p o, ev st Kann (named_object_annotation c st s n p o).
Proof. intros n p o; unfold named_object_annotation; ev_tac; apply ev_leaf_reference. Qed.
Lemma ev_field_ann : forall t p o, ev st Kann (field_annotation c st s t p o).
Proof. induction t as [n|t IH|t IH]; intros p o; cbn [field_annotation]; ev_tac; try apply IH. apply ev_named_object. Qed.
Lemma ev_dir_ann : forall t o, ev st Kann (build_directive_type_annotation s t o).
Proof. induction t as [n|t IH|t IH]; intros o; cbn [build_directive_type_annotation]; ev_tac; apply IH. Qed.
Lemma ev_dirkws : forall l, ev st [] (generate_directive_keywords pc l).
Proof. intros l; unfold generate_directive_keywords; ev_tac. Qed.

Definition wrapped (t : gty) (o : bool) : gty := if o then t else required t.
Lemma required_name : forall t, gty_name (required t) = gty_name t.
Proof. now intros []. Qed.
Definition leafy (e : expr) : Prop := reads e = RNonNull (RNamed e).
Lemma reads_optional : forall e, reads (optional_of e) = match reads e with RNonNull t => t | t => t end.
Proof. reflexivity. Qed.
Lemma reads_list : forall e, reads (list_of e) = RNonNull (RList (reads e)).
Proof. reflexivity. Qed.
Lemma refers_leafy : forall sc n e, refers st s sc n e -> leafy e.
Proof. intros sc n e []; reflexivity. Qed.
Lemma scalar_ref : forall n d r e r', get_type s n = Some (TScalar d) -> reference_scalar n r = (Ok e, r') ->
  refers st s (r_scalars r) n e.
Proof.
  intros n d r e r' G H. unfold reference_scalar in H. minv. destruct (dget n (r_scalars r)) as [t|] eqn:E; [|discriminate].
  minv. eapply rf_scalar; eassumption.
Qed.
Lemma enum_ref : forall n d vs p f r e r', get_type s n = Some (TEnum d vs) -> reference_enum st n p f r = (Ok e, r') ->
  refers st s (r_scalars r) n e.
Proof.
  intros n d vs p f r e r' G H. unfold reference_enum in H. destruct (mem n built_in_keys) eqn:E.
  - minv. apply rf_quoted. unfold class_name. now rewrite G, E.
  - minv. destruct (negb (dmem n (r_enums r)) || String.eqb p (style_enum_class st n)).
    + destruct f; [|discriminate]. minv. apply rf_quoted. unfold class_name. now rewrite G, E.
    + minv. apply rf_name. unfold class_name. now rewrite G, E.
Qed.
Lemma input_ref : forall n d fs ds' p f r e r', names_styled st r -> get_type s n = Some (TInput d fs ds') ->
  reference_inputtype st n p f r = (Ok e, r') -> refers st s (r_scalars r) n e.
Proof.
  intros n d fs ds' p f r e r' (Hs & _) G H. unfold reference_inputtype in H. minv.
  assert (C : class_name st s n = Some (style_inputtype_class st n)) by (unfold class_name; now rewrite G).
  destruct (dget n (r_inputs r)) as [cls|] eqn:E; [destruct (String.eqb p (style_inputtype_class st n))|].
  - destruct f; [|discriminate]. minv. now apply rf_quoted.
  - minv. apply Hs in E as ->. now apply rf_name.
  - destruct f; [|discriminate]. minv. now apply rf_quoted.
Qed.
Lemma object_ref : forall n d i f ds' p b r e r', get_type s n = Some (TObject d i f ds') ->
  reference_object st n p b r = (Ok e, r') -> refers st s (r_scalars r) n e.
Proof.
  intros n d i f ds' p b r e r' G H. unfold reference_object, reference_generic in H. minv.
  assert (C : class_name st s n = Some (style_objecttype_class st n)) by (unfold class_name; now rewrite G).
  destruct (negb (dmem n (r_objects r)) || String.eqb p (style_objecttype_class st n)).
  - destruct b; [|discriminate]. minv. now apply rf_quoted.
  - minv. now apply rf_name.
Qed.
Lemma leaf_ref : forall n p r e r', names_styled st r -> leaf_reference c st s n p r = (Ok e, r') -> refers st s (r_scalars r) n e.
Proof.
  intros n p r e r' Hs H. unfold leaf_reference in H. destruct (get_type s n) as [[| | | | |]|] eqn:G; try discriminate.
  - eapply scalar_ref; eassumption.
  - eapply enum_ref; eassumption.
  - eapply object_ref; eassumption.
  - unfold reference_interface in H. minv. apply rf_quoted. unfold class_name. now rewrite G.
Qed.
Ltac scalars_frame H := apply (frame_scalars st) in H; [|cbn; intuition discriminate].
Lemma opt_import : forall (o : bool) r u r', (if o then register_import "typing.Optional" else ret tt) r = (Ok u, r') ->
  names_styled st r -> names_styled st r' /\ r_scalars r' = r_scalars r.
Proof.
  intros o r u r' H Hs. assert (E : evolve st [KImp] r r') by (eapply ev_ok; [|exact H]; destruct o; ev_tac).
  split; [eapply names_styled_evolve; eassumption|]. scalars_frame E. exact E.
Qed.
Lemma import_inv : forall n r u r', register_import n r = (Ok u, r') -> names_styled st r -> names_styled st r' /\ r_scalars r' = r_scalars r.
Proof.
  intros n r u r' H Hs. assert (E : evolve st [KImp] r r') by (eapply ev_ok; [|exact H]; ev_tac).
  split; [eapply names_styled_evolve; eassumption|]. scalars_frame E. exact E.
Qed.
Definition good (sc : dict string) (r : reg) : Prop := names_styled st r /\ r_scalars r = sc.
Lemma good_evolve : forall sc K r r', ~ In KSca K -> evolve st K r r' -> good sc r -> good sc r'.
Proof. intros sc K r r' Hk E [H1 H2]. split; [eapply names_styled_evolve; eassumption|]. rewrite <- H2. eapply frame_scalars; eassumption. Qed.
Ltac good_tac := eapply (good_evolve _ Kann); [|eapply ev_ok; [|eassumption]; ev_tac|eassumption]; cbn; intuition discriminate.

Lemma argument_named : forall sc n p (o : bool) r e r', good sc r -> argument_annotation c st s (GNamed n) p o r = (Ok e, r') ->
  exists e0, e = (if o then optional_of e0 else e0) /\ refers st s sc n e0.
Proof.
  intros sc n p o r e r' G H. cbn [argument_annotation] in H. apply bind_ok in H as ([] & r1 & H1 & H).
  assert (G1 : good sc r1) by (destruct o; good_tac). apply bind_ok in H as (e0 & r2 & H2 & H). apply ret_ok in H as [-> _].
  exists e0. split; [reflexivity|]. destruct G1 as [G1 <-].
  destruct (get_type s n) as [[| | | | |]|] eqn:T; try discriminate; [eapply scalar_ref|eapply enum_ref|eapply input_ref]; eassumption.
Qed.
(** there is one leaf: its reference *)
Lemma argument_leaf : forall sc t p o r e r', good sc r -> argument_annotation c st s t p o r = (Ok e, r') ->
  exists e0, refers st s sc (gty_name t) e0 /\ (gty_wf t = true -> reads e = rty_of (wrapped t o) e0).
Proof.
  intros sc t p. induction t as [n|t IH|t IH]; intros o r e r' G H.
  - apply (argument_named sc) in H as (e0 & -> & R); [|exact G]. exists e0. split; [exact R|intros _].
    apply refers_leafy in R. destruct o; cbn [wrapped required rty_of]; [rewrite reads_optional|]; now rewrite R.
  - cbn [argument_annotation] in H. apply bind_ok in H as ([] & r1 & H1 & H). assert (G1 : good sc r1) by good_tac.
    apply bind_ok in H as ([] & r2 & H2 & H). assert (G2 : good sc r2) by (destruct o; good_tac).
    apply bind_ok in H as (e1 & r3 & H3 & H). apply ret_ok in H as [-> _]. eapply IH in H3 as (e0 & R & E); [|exact G2].
    exists e0. split; [exact R|]. intros W. specialize (E W). destruct o; cbn [wrapped required rty_of] in *; [rewrite reads_optional|]; rewrite reads_list, E; reflexivity.
  - cbn [argument_annotation] in H. eapply IH in H as (e0 & R & E); [|exact G]. exists e0. split; [exact R|]. intros W.
    assert (W' : gty_wf t = true) by (destruct t; [assumption|assumption|discriminate]). rewrite (E W').
    destruct t; [| |discriminate]; destruct o; reflexivity.
Qed.
Lemma refers_refers_u : forall sc n e, (forall d ms, get_type s n <> Some (TUnion d ms)) -> refers st s sc n e -> refers_u st s sc n e.
Proof. intros sc n e H R. unfold refers_u. destruct (get_type s n) as [[| | | | |]|]; try exact R. now destruct (H desc members). Qed.
Lemma refers_not_union : forall sc n e, refers st s sc n e -> forall d ms, get_type s n <> Some (TUnion d ms).
Proof. intros sc n e R d ms E. destruct R; unfold class_name in *; rewrite E in *; discriminate. Qed.
Lemma argument_says : forall sc t p o r e r', good sc r -> gty_wf t = true -> argument_annotation c st s t p o r = (Ok e, r') ->
  says st s sc (wrapped t o) e.
Proof.
  intros sc t p o r e r' G W H. eapply argument_leaf in H as (e0 & R & E); [|exact G]. exists e0. split; [now apply E|].
  replace (gty_name (wrapped t o)) with (gty_name t) by (destruct o; [reflexivity|symmetry; apply required_name]).
  apply refers_refers_u; [eapply refers_not_union; exact R|exact R].
Qed.

Lemma named_leaf : forall sc n p (o : bool) r e r', good sc r -> named_object_annotation c st s n p o r = (Ok e, r') ->
  exists e0, e = (if o then optional_of e0 else e0) /\ refers_u st s sc n e0.
Proof.
  intros sc n p o r e r' G H. unfold named_object_annotation in H. apply bind_ok in H as ([] & r1 & H1 & H).
  assert (G1 : good sc r1) by (destruct o; good_tac). apply bind_ok in H as (e0 & r2 & H2 & H). apply ret_ok in H as [-> _].
  exists e0. split; [reflexivity|]. unfold refers_u. destruct (get_type s n) as [[| | | | |]|] eqn:T;
    try (destruct G1 as [G1 <-]; eapply leaf_ref; eassumption).
  apply bind_ok in H2 as ([] & r3 & H3 & H2). assert (G3 : good sc r3) by good_tac.
  apply bind_ok in H2 as (es & r4 & H4 & H2). apply ret_ok in H2 as [-> _]. exists es. split; [reflexivity|].
  eapply (mmap_inv _ (good sc)) in H4 as [_ F]; [exact F|exact G3|]. intros x ra y rb _ Ga Hx. split.
  - eapply good_evolve; [|eapply ev_ok; [apply ev_leaf_reference|exact Hx]|exact Ga]. cbn; intuition discriminate.
  - destruct Ga as [Ga <-]. eapply leaf_ref; eassumption.
Qed.
Lemma refers_u_leafy : forall sc n e, refers_u st s sc n e -> leafy e.
Proof. intros sc n e H. unfold refers_u in H. destruct (get_type s n) as [[| | | | |]|]; try (eapply refers_leafy; exact H). destruct H as (es & -> & _). reflexivity. Qed.
Lemma field_leaf : forall sc t p o r e r', good sc r -> field_annotation c st s t p o r = (Ok e, r') ->
  exists e0, refers_u st s sc (gty_name t) e0 /\ (gty_wf t = true -> reads e = rty_of (wrapped t o) e0).
Proof.
  intros sc t p. induction t as [n|t IH|t IH]; intros o r e r' G H.
  - apply (named_leaf sc) in H as (e0 & -> & R); [|exact G]. exists e0. split; [exact R|intros _].
    apply refers_u_leafy in R. destruct o; cbn [wrapped required rty_of]; [rewrite reads_optional|]; now rewrite R.
  - cbn [field_annotation] in H. apply bind_ok in H as ([] & r1 & H1 & H). assert (G1 : good sc r1) by good_tac.
    apply bind_ok in H as ([] & r2 & H2 & H). assert (G2 : good sc r2) by (destruct o; good_tac).
    apply bind_ok in H as (e1 & r3 & H3 & H). apply ret_ok in H as [-> _]. eapply IH in H3 as (e0 & R & E); [|exact G2].
    exists e0. split; [exact R|]. intros W. specialize (E W). destruct o; cbn [wrapped required rty_of] in *; [rewrite reads_optional|]; rewrite reads_list, E; reflexivity.
  - cbn [field_annotation] in H. eapply IH in H as (e0 & R & E); [|exact G]. exists e0. split; [exact R|]. intros W.
    assert (W' : gty_wf t = true) by (destruct t; [assumption|assumption|discriminate]). rewrite (E W').
    destruct t; [| |discriminate]; destruct o; reflexivity.
Qed.
Lemma field_says : forall sc t p r e r', good sc r -> gty_wf t = true -> field_annotation c st s t p true r = (Ok e, r') ->
  says st s sc t e.
Proof. intros sc t p r e r' G W H. eapply field_leaf in H as (e0 & R & E); [|exact G]. exists e0. split; [now apply E|exact R]. Qed.
Lemma directive_leaf : forall sc t o r e r', good sc r -> build_directive_type_annotation s t o r = (Ok e, r') ->
  exists e0, refers st s sc (gty_name t) e0 /\ (gty_wf t = true -> reads e = rty_of (wrapped t o) e0).
Proof.
  intros sc t. induction t as [n|t IH|t IH]; intros o r e r' G H.
  - cbn [build_directive_type_annotation] in H. destruct (get_type s n) as [[| | | | |]|] eqn:T; try discriminate.
    + apply bind_ok in H as ([] & r1 & H1 & H). assert (G1 : good sc r1) by (destruct o; good_tac).
      apply bind_ok in H as (e0 & r2 & H2 & H). apply ret_ok in H as [-> _]. exists e0. destruct G1 as [G1 <-].
      assert (R : refers st s (r_scalars r1) n e0) by (eapply scalar_ref; eassumption). split; [exact R|intros _].
      apply refers_leafy in R. destruct o; cbn [wrapped required rty_of]; [rewrite reads_optional|]; now rewrite R.
    + apply bind_ok in H as ([] & r1 & H1 & H). discriminate.
  - cbn [build_directive_type_annotation] in H. apply bind_ok in H as ([] & r1 & H1 & H). assert (G1 : good sc r1) by good_tac.
    apply bind_ok in H as ([] & r2 & H2 & H). assert (G2 : good sc r2) by (destruct o; good_tac).
    apply bind_ok in H as (e1 & r3 & H3 & H). apply ret_ok in H as [-> _]. eapply IH in H3 as (e0 & R & E); [|exact G2].
    exists e0. split; [exact R|]. intros W. specialize (E W). destruct o; cbn [wrapped required rty_of] in *; [rewrite reads_optional|]; rewrite reads_list, E; reflexivity.
  - cbn [build_directive_type_annotation] in H. eapply IH in H as (e0 & R & E); [|exact G]. exists e0. split; [exact R|]. intros W.
    assert (W' : gty_wf t = true) by (destruct t; [assumption|assumption|discriminate]). rewrite (E W').
    destruct t; [| |discriminate]; destruct o; reflexivity.
Qed.

(** ** Members *)
Lemma mconcat_single : forall {A B} (f : A -> M (list B)) (I : reg -> Prop) (Q : A -> B -> Prop) l r ys r',
  mconcat f l r = (Ok ys, r') -> I r ->
  (forall x r1 y r2, In x l -> I r1 -> f x r1 = (Ok y, r2) -> I r2 /\ exists z, y = [z] /\ Q x z) ->
  I r' /\ Forall2 Q l ys.
Proof.
  intros A B f I Q l r ys r' H HI HS. apply mconcat_ok in H as (yss & H & ->).
  eapply (mmap_inv f I (fun x y => exists z, y = [z] /\ Q x z)) in H as [H1 H2]; [|exact HI|exact HS].
  split; [exact H1|]. clear - H2. induction H2 as [|x y l yss (z & -> & Hz) H IH]; cbn; constructor; assumption.
Qed.
Lemma good_of : forall sc K {A} (m : M A) r a r', ~ In KSca K -> ev st K m -> m r = (Ok a, r') -> good sc r -> good sc r'.
Proof. intros sc K A m r a r' Hk E H G. eapply good_evolve; [exact Hk|eapply ev_ok; eassumption|exact G]. Qed.
Lemma sorted_args_perm : forall args, Permutation args (sorted_args args).
Proof.
  intros args. unfold sorted_args. induction args as [|a l IH]; [apply perm_nil|]. cbn. destruct (is_undefined (snd a)); cbn.
  - now apply perm_skip.
  - etransitivity; [apply perm_skip, IH|]. apply Permutation_middle.
Qed.
Lemma resolver_params : forall sc cls r args ps r', good sc r -> Forall (fun a => gty_wf (arg_type (snd a)) = true) args ->
  mmap (resolver_arg c st s cls) args r = (Ok ps, r') ->
  good sc r' /\ Forall2 (fun kv p => param st (fun t => says st s sc (wrapped t (is_undefined (snd kv)))) kv p) args ps.
Proof.
  intros sc cls r args ps r' G W H. eapply (mmap_inv _ (good sc)); [exact H|exact G|].
  intros x r1 y r2 Hx G1 Hy. unfold resolver_arg in Hy. apply bind_ok in Hy as (a & r3 & H3 & Hy). apply ret_ok in Hy as [-> ->].
  split; [eapply good_of; [|apply ev_argument|exact H3|exact G1]; cbn; intuition discriminate|]. split; [reflexivity|].
  exists a. split; [reflexivity|]. eapply argument_says; [exact G1| |exact H3]. rewrite Forall_forall in W. now apply W.
Qed.
Lemma Forall2_filter_app : forall {A B} (f : A -> bool) (Q : A -> B -> Prop) (l : list A) (l2 : list A) ps,
  Forall2 Q (l ++ l2) ps -> exists p1 p2, ps = p1 ++ p2 /\ Forall2 Q l p1 /\ Forall2 Q l2 p2.
Proof.
  intros A B f Q l. induction l as [|x l IH]; intros l2 ps H; [exists [], ps; auto|]. inversion H; subst. apply IH in H4 as (p1 & p2 & -> & F1 & F2).
  exists (y :: p1), p2. auto.
Qed.
Lemma Forall2_imp_in : forall {A B} (Q R : A -> B -> Prop) l ps, (forall x y, In x l -> Q x y -> R x y) -> Forall2 Q l ps -> Forall2 R l ps.
Proof. intros A B Q R l ps H F. induction F; constructor; [apply H; [now left|assumption]|]. apply IHF. intros; apply H; [now right|assumption]. Qed.
Lemma defaults_split : forall l1 l2, Forall (fun a => is_undefined (snd a) = true) l1 -> resolver_defaults (l1 ++ l2) = resolver_defaults l2.
Proof.
  intros l1 l2 H. unfold resolver_defaults. rewrite flat_map_app. rewrite <- app_nil_l. f_equal. induction H as [|[k [ty d dd]] l E F IH]; [reflexivity|].
  unfold is_undefined in E. cbn in *. destruct d; [discriminate|exact IH].
Qed.
Lemma default_denotes : forall v, denotes (convert_default_value_to_ast v) v.
Proof. intros v W glob subclass call env. now apply defaults_C32. Qed.
Lemma defaults_all : forall l, Forall (fun a => is_undefined (snd a) = false) l ->
  Forall2 (fun (x : string * argdef) d => exists v, arg_default (snd x) = Some v /\ denotes d v) l (resolver_defaults l).
Proof.
  intros l H. unfold resolver_defaults. induction H as [|[k [ty d dd]] l E F IH]; [constructor|]. unfold is_undefined in E. cbn in *.
  destruct d as [v|]; [|discriminate]. cbn. constructor; [exists v; auto using default_denotes|exact IH].
Qed.
Lemma resolver_signature : forall sc f ps, Forall2 (fun kv p => param st (fun t => says st s sc (wrapped t (is_undefined (snd kv)))) kv p) (sorted_args (fd_args f)) ps ->
  signature st s sc required (fd_args f) (PyArgs (PyArg "self" None :: ps) (resolver_defaults (sorted_args (fd_args f)))).
Proof.
  intros sc f ps H. pose proof (sorted_args_perm (fd_args f)) as P. unfold sorted_args in *.
  set (l1 := filter (fun a => is_undefined (snd a)) (fd_args f)) in *. set (l2 := filter (fun a => negb (is_undefined (snd a))) (fd_args f)) in *.
  assert (U1 : Forall (fun a : string * argdef => is_undefined (snd a) = true) l1) by (apply Forall_forall; intros x Hx; now apply filter_In in Hx).
  assert (U2 : Forall (fun a : string * argdef => is_undefined (snd a) = false) l2)
    by (apply Forall_forall; intros x Hx; apply filter_In in Hx as [_ Hx]; now apply negb_true_iff).
  apply (Forall2_filter_app (fun _ => true)) in H as (p1 & p2 & -> & F1 & F2). exists l1, l2, p1, p2. split; [exact P|]. split; [|split; [reflexivity|]].
  - eapply Forall_impl; [|exact U1]. intros [k [ty d dd]] E. unfold is_undefined in E. cbn in *. now destruct d.
  - cbn [a_defaults]. rewrite defaults_split by exact U1. split; [|split; [|now apply defaults_all]].
    + eapply Forall2_imp_in; [|exact F1]. intros x y Hx Q. rewrite Forall_forall in U1. cbn beta in Q. rewrite (U1 x Hx) in Q. exact Q.
    + eapply Forall2_imp_in; [|exact F2]. intros x y Hx Q. rewrite Forall_forall in U2. cbn beta in Q. rewrite (U2 x Hx) in Q. exact Q.
Qed.
Lemma root_names_eq : forall key, mem key root_names = root_type_name key.
Proof. intros key. unfold root_type_name, root_names, mem. cbn [existsb]. destruct (String.eqb key "Mutation"), (String.eqb key "Subscription"), (String.eqb key "Query"); reflexivity. Qed.
Lemma sorted_nil : forall args, sorted_args args = [] <-> args = [].
Proof.
  intros args. split; intros H; [|now rewrite H]. pose proof (sorted_args_perm args) as P. rewrite H in P. now apply Permutation_sym, Permutation_nil in P.
Qed.
Lemma type_field_member : forall sc key cls kv r ms r', good sc r -> field_wf (snd kv) -> type_field c st s pc key cls kv r = (Ok ms, r') ->
  good sc r' /\ exists m, ms = [m] /\ member st s sc key kv m.
Proof.
  intros sc key cls [name f] r ms r' G [W1 W2] H. cbn [type_field snd] in *. apply bind_ok in H as (ps & r1 & H1 & H).
  eapply resolver_params in H1 as [G1 F]; [|exact G|eapply Permutation_Forall; [apply sorted_args_perm|exact W2]].
  apply bind_ok in H as (e & r2 & H2 & H). assert (G2 : good sc r2) by (eapply good_of; [|apply ev_field_ann|exact H2|exact G1]; cbn; intuition discriminate).
  eapply field_says in H2; [|exact G1|exact W1].
  apply bind_ok in H as (dks & r3 & H3 & H). assert (G3 : good sc r3) by (eapply good_of; [|apply ev_dirkws|exact H3|exact G2]; cbn; intuition discriminate).
  cbn zeta in H.
  assert (E : (match ps with [] => true | _ => false end) = true <-> fd_args f = []).
  { rewrite <- sorted_nil. destruct F; split; try reflexivity; discriminate. }
  destruct ((match ps with [] => true | _ => false end) && negb (mem key root_names)) eqn:C.
  - apply ret_ok in H as [-> ->]. split; [exact G3|]. eexists. split; [reflexivity|]. apply andb_true_iff in C as [C1 C2].
    apply E in C1. apply negb_true_iff in C2. rewrite root_names_eq in C2. cbn. auto.
  - apply bind_ok in H as ([] & r4 & H4 & H). apply ret_ok in H as [-> ->]. split.
    + destruct (String.eqb key "Subscription"); good_tac.
    + eexists. split; [reflexivity|]. unfold resolver. cbn [member]. split; [reflexivity|]. split.
      * apply andb_false_iff in C as [C|C]; [left; intros K; apply E in K; congruence|right]. rewrite <- root_names_eq. now apply negb_false_iff.
      * split; [now apply resolver_signature|]. split; [reflexivity|]. exists e. split; [exact H2|reflexivity].
Qed.
Lemma input_field_member : forall sc cls kv r ms r', good sc r -> gty_wf (if_type (snd kv)) = true -> input_field c st s cls kv r = (Ok ms, r') ->
  good sc r' /\ exists m, ms = [m] /\ input_member st s sc kv m.
Proof.
  intros sc cls [name f] r ms r' G W H. unfold input_field in H. cbn [fst snd] in *. apply bind_ok in H as (e & r1 & H1 & H). apply ret_ok in H as [-> ->].
  split; [eapply good_of; [|apply ev_argument|exact H1|exact G]; cbn; intuition discriminate|]. eexists. split; [reflexivity|].
  split; [reflexivity|]. eapply argument_says in H1; [exact H1|exact G|exact W].
Qed.
Lemma directive_arg_member : forall sc kv r ms r', good sc r -> gty_wf (arg_type (snd kv)) = true -> directive_arg st s kv r = (Ok ms, r') ->
  good sc r' /\ exists m, ms = [m] /\ directive_member st s sc kv m.
Proof.
  intros sc [name f] r ms r' G W H. unfold directive_arg in H. cbn [fst snd] in *. apply bind_ok in H as (e & r1 & H1 & H). apply ret_ok in H as [-> ->].
  split; [eapply good_of; [|apply ev_dir_ann|exact H1|exact G]; cbn; intuition discriminate|]. eexists. split; [reflexivity|].
  split; [reflexivity|]. split.
  - eapply directive_leaf in H1 as (e0 & R & E); [|exact G]. exists e0. split; [now apply E|].
    apply refers_refers_u; [eapply refers_not_union; exact R|exact R].
  - intros Hd. cbn [snd] in *. destruct (arg_default f) as [v|]; cbn [keeps]; [|reflexivity]. cbn [snd] in *. exists (convert_default_value_to_ast v). split; [apply default_denotes|].
    destruct v; try reflexivity. now destruct Hd.
Qed.

(** ** Classes *)
Definition Kdir : list kind := Kann.
Definition Kenu : list kind := [KEnu; KImp].
Definition Kinp : list kind := KInp :: Kann.
Definition Ktyp : list kind := KObj :: KIfa :: Kann.
Lemma ev_type_field : forall key cls kv, ev st Kann (type_field c st s pc key cls kv).
Proof.
  intros key cls [n f]. cbn [type_field]. ev_tac.
  - unfold resolver_arg. ev_tac. apply ev_argument.
  - apply ev_field_ann.
  - eapply ev_incl; [|apply ev_dirkws]. incl_tac.
Qed.
Lemma ev_input_field : forall cls kv, ev st Kann (input_field c st s cls kv).
Proof. intros cls kv. unfold input_field. ev_tac. apply ev_argument. Qed.
Lemma ev_directive_arg : forall kv, ev st Kann (directive_arg st s kv).
Proof. intros kv. unfold directive_arg. ev_tac. apply ev_dir_ann. Qed.
Lemma ev_dirkws_incl : forall K l, ev st K (generate_directive_keywords pc l).
Proof. intros K l. eapply ev_incl; [|apply ev_dirkws]. incl_tac. Qed.
Lemma ev_interface_bases : forall l, ev st [] (interface_bases s l).
Proof. intros l. unfold interface_bases. ev_tac. Qed.
Lemma ev_type_class : forall kt, ev st Ktyp (type_class c st s ap pc kt).
Proof.
  intros [key t]. cbn [type_class]. ev_tac.
  - apply ev_dirkws_incl.
  - eapply ev_incl; [|apply ev_interface_bases]. incl_tac.
  - eapply ev_incl; [|apply ev_type_field]. incl_tac.
Qed.
Lemma ev_input_class : forall key t, ev st Kinp (input_class c st s pc key t).
Proof.
  intros key t. unfold input_class. ev_tac.
  - apply ev_dirkws_incl.
  - eapply ev_incl; [|apply ev_input_field]. incl_tac.
Qed.
Lemma ev_directive_class : forall d, ev st Kdir (directive_class c st s pc d).
Proof. intros d. unfold directive_class. ev_tac. apply ev_directive_arg. Qed.
Lemma ev_directives : ev st Kdir (generate_directives c st s ds pc).
Proof. unfold generate_directives. destruct (filter _ ds); ev_tac; apply ev_directive_class. Qed.
Lemma ev_enums : ev st Kenu (generate_enums st s ap pc).
Proof. unfold generate_enums. ev_tac. unfold generate_enum_class. ev_tac. apply ev_dirkws_incl. Qed.
Lemma ev_inputs : ev st Kinp (generate_inputs c st s pc).
Proof. unfold generate_inputs. ev_tac. apply ev_input_class. Qed.
Lemma ev_types : ev st Ktyp (generate_types c st s ap pc).
Proof. unfold generate_types. ev_tac. apply ev_type_class. Qed.
Lemma ev_scalars : ev st [KSca; KImp] (generate_scalars s ap pc).
Proof. unfold generate_scalars. destruct (scalar_types s pc); ev_tac; unfold scalar_assign; ev_tac; apply ev_dirkws_incl. Qed.

Lemma cfg_no_field : forall k ty r l r', generate_pydantic_config k c ty r = (Ok l, r') -> Forall no_field l.
Proof.
  intros k ty r l r' H. unfold generate_pydantic_config in H. destruct (String.eqb (c_pydantic_version c) "v2").
  - unfold generate_config_dict in H. destruct (_ ++ _); minv; repeat constructor.
  - apply ret_ok in H as [-> _]. unfold generate_config_class_pydantic. destruct (_ ++ _); repeat constructor.
Qed.
Lemma docs_no_field : forall d, Forall no_field (class_docs d).
Proof. intros d. unfold class_docs. destruct (truthy d); repeat constructor. Qed.
Lemma type_class_members : forall sc key t r l r', good sc r -> Forall (fun kv => field_wf (snd kv)) (type_fields t) -> skipped pc key = false ->
  type_class c st s ap pc (key, t) r = (Ok l, r') ->
  exists bases docs ms cfg dec,
    l = [SClass (if is_interface_def t then style_interface_class st key else style_objecttype_class st key) bases (docs ++ ms ++ cfg) dec]
    /\ map head_name dec = [if is_interface_def t then "strawberry.interface" else "strawberry.type"]
    /\ Forall no_field (docs ++ cfg) /\ Forall2 (member st s sc key) (type_fields t) ms.
Proof.
  intros sc key t r l r' G W Sk H. cbn [type_class] in H. apply bind_ok in H as (add & r1 & H1 & H).
  assert (G1 : good sc r1) by (eapply (good_of sc [KImp]); [| |exact H1|exact G]; [cbn; intuition discriminate|ev_tac]). rewrite Sk in H.
  apply bind_ok in H as (kws & r2 & H2 & H). assert (G2 : good sc r2) by (eapply (good_of sc []); [cbn; auto|apply ev_dirkws|exact H2|exact G1]).
  apply bind_ok in H as (cls & r3 & H3 & H).
  assert (G3 : good sc r3) by (eapply (good_of sc [KIfa; KObj]); [| |exact H3|exact G2]; [cbn; intuition discriminate|ev_tac]).
  assert (Hc : cls = if is_interface_def t then style_interface_class st key else style_objecttype_class st key).
  { destruct (is_interface_def t).
    - unfold generate_interface in H3. minv. reflexivity.
    - unfold generate_objecttype in H3. now apply generate_in_spec in H3 as (_ & -> & _). }
  apply bind_ok in H as (ib & r4 & H4 & H). assert (G4 : good sc r4) by (eapply (good_of sc []); [cbn; auto|apply ev_interface_bases|exact H4|exact G3]).
  apply bind_ok in H as (ms & r5 & H5 & H). apply bind_ok in H as (cfg & r6 & H6 & H). apply ret_ok in H as [-> _].
  eapply (mconcat_single _ (good sc) (member st s sc key)) in H5 as [_ F]; [|exact G4|].
  - rewrite <- Hc. do 5 eexists. split; [reflexivity|]. split; [cbn; f_equal; unfold decorate; now destruct kws|]. split; [|exact F]. apply Forall_app. split; [apply docs_no_field|eapply cfg_no_field; exact H6].
  - intros x ra y rb Hx Ga Hy. eapply type_field_member; [exact Ga| |exact Hy]. rewrite Forall_forall in W. now apply W.
Qed.
Lemma input_class_members : forall sc key t r l r', good sc r -> Forall (fun kv => gty_wf (if_type (snd kv)) = true) (id_fields t) ->
  sb_skip_underscore pc && startswith "_" key = false -> input_class c st s pc key t r = (Ok l, r') ->
  exists bases docs ms cfg dec, l = [SClass (style_inputtype_class st key) bases (docs ++ ms ++ cfg) dec]
    /\ Forall no_field (docs ++ cfg) /\ Forall2 (input_member st s sc) (id_fields t) ms.
Proof.
  intros sc key t r l r' G W Sk H. unfold input_class in H. rewrite Sk in H.
  apply bind_ok in H as (kws & r2 & H2 & H). assert (G2 : good sc r2) by (eapply (good_of sc []); [cbn; auto|apply ev_dirkws|exact H2|exact G]).
  cbn zeta in H. apply bind_ok in H as (add & r1 & H1 & H).
  assert (G1 : good sc r1) by (eapply (good_of sc [KImp]); [| |exact H1|exact G2]; [cbn; intuition discriminate|ev_tac]).
  apply bind_ok in H as (cls & r3 & H3 & H).
  assert (G3 : good sc r3) by (eapply (good_of sc [KInp]); [| |exact H3|exact G1]; [cbn; intuition discriminate|ev_tac]).
  apply generate_in_spec in H3 as (_ & -> & _).
  apply bind_ok in H as (ms & r5 & H5 & H). apply bind_ok in H as (cfg & r6 & H6 & H). apply ret_ok in H as [-> _].
  eapply (mconcat_single _ (good sc) (input_member st s sc)) in H5 as [_ F]; [|exact G3|].
  - do 5 eexists. split; [reflexivity|]. split; [|exact F]. apply Forall_app. split; [apply docs_no_field|eapply cfg_no_field; exact H6].
  - intros x ra y rb Hx Ga Hy. eapply input_field_member; [exact Ga| |exact Hy]. rewrite Forall_forall in W. now apply W.
Qed.
Lemma directive_class_members : forall sc d r l r', good sc r -> Forall (fun kv => gty_wf (arg_type (snd kv)) = true) (dd_args d) ->
  skipped pc (dd_name d) = false -> directive_class c st s pc d r = (Ok l, r') ->
  exists ms cfg dec, l = [SClass (dd_name d) [] ((match ms with [] => [SPass] | _ => ms end) ++ cfg) [dec]]
    /\ Forall no_field cfg /\ Forall2 (directive_member st s sc) (dd_args d) ms.
Proof.
  intros sc d r l r' G W Sk H. unfold directive_class in H. rewrite Sk in H.
  apply bind_ok in H as (ms & r5 & H5 & H). apply bind_ok in H as (cfg & r6 & H6 & H). apply ret_ok in H as [-> _].
  eapply (mconcat_single _ (good sc) (directive_member st s sc)) in H5 as [_ F]; [|exact G|].
  - do 3 eexists. split; [reflexivity|]. split; [eapply cfg_no_field; exact H6|exact F].
  - intros x ra y rb Hx Ga Hy. eapply directive_arg_member; [exact Ga| |exact Hy]. rewrite Forall_forall in W. now apply W.
Qed.

(** what an element of a loop contributes *)
Lemma mconcat_in : forall {A B} (f : A -> M (list B)) (I : reg -> Prop) l r ys r', mconcat f l r = (Ok ys, r') -> I r ->
  (forall x r1 y r2, In x l -> I r1 -> f x r1 = (Ok y, r2) -> I r2) ->
  forall x, In x l -> exists r1 y r2, I r1 /\ f x r1 = (Ok y, r2) /\ incl y ys.
Proof.
  intros A B f I l r ys r' H. apply mconcat_ok in H as (yss & H & ->). revert r yss r' H. induction l as [|a l IH]; intros r yss r' H HI HS x Hx; [contradiction|].
  cbn in H. apply bind_ok in H as (y & r1 & H1 & H). apply bind_ok in H as (ys & r2 & H2 & H). apply ret_ok in H as [-> ->]. destruct Hx as [->|Hx].
  - exists r, y, r1. repeat split; auto. cbn. now apply incl_appl.
  - destruct (IH r1 ys r2 H2) with (x := x) as (ra & ya & rb & I1 & F1 & J1).
    + apply (HS a r y r1); [now left|exact HI|exact H1].
    + intros z rc w rd Hz Ic Hw. apply (HS z rc w rd); [now right|exact Ic|exact Hw].
    + exact Hx.
    + exists ra, ya, rb. repeat split; auto. cbn. now apply incl_appr.
Qed.
(** the phases *)
Lemma plugin_phases : forall r l r', strawberry_plugin c st s ds ap pc r = (Ok l, r') -> names_styled st r ->
  exists d sc e i t r0 r1 r2 r3 r4, l = d ++ sc ++ e ++ i ++ t
   /\ good (r_scalars r) r0 /\ (if sb_directives pc then generate_directives c st s ds pc else ret []) r0 = (Ok d, r1)
   /\ (if sb_directives pc then generate_scalars s ap pc else ret []) r1 = (Ok sc, r2)
   /\ good (r_scalars r') r2 /\ (if sb_enums pc then generate_enums st s ap pc else ret []) r2 = (Ok e, r3)
   /\ good (r_scalars r') r3 /\ (if sb_inputs pc then generate_inputs c st s pc else ret []) r3 = (Ok i, r4)
   /\ good (r_scalars r') r4 /\ (if sb_types pc then generate_types c st s ap pc else ret []) r4 = (Ok t, r').
Proof.
  intros r l r' H N. unfold strawberry_plugin in H. apply bind_ok in H as ([] & r0 & H0 & H).
  assert (G0 : good (r_scalars r) r0) by (eapply (good_of _ [KImp]); [| |exact H0|split; [exact N|reflexivity]]; [cbn; intuition discriminate|ev_tac]).
  apply bind_ok in H as (d & r1 & H1 & H). apply bind_ok in H as (sc & r2 & H2 & H). apply bind_ok in H as (e & r3 & H3 & H).
  apply bind_ok in H as (i & r4 & H4 & H). apply bind_ok in H as (t & r5 & H5 & H). apply ret_ok in H as [-> ->].
  assert (E5 : evolve st Ktyp r4 r5) by (eapply ev_ok; [|exact H5]; ev_tac; apply ev_types).
  assert (E4 : evolve st Kinp r3 r4) by (eapply ev_ok; [|exact H4]; ev_tac; apply ev_inputs).
  assert (E3 : evolve st Kenu r2 r3) by (eapply ev_ok; [|exact H3]; ev_tac; apply ev_enums).
  assert (E2 : evolve st [KSca; KImp] r1 r2) by (eapply ev_ok; [|exact H2]; ev_tac; apply ev_scalars).
  assert (E1 : evolve st Kdir r0 r1) by (eapply ev_ok; [|exact H1]; ev_tac; apply ev_directives).
  assert (N1 : names_styled st r1) by (eapply names_styled_evolve; [exact E1|apply G0]).
  assert (N2 : names_styled st r2) by (eapply names_styled_evolve; [exact E2|exact N1]).
  assert (N3 : names_styled st r3) by (eapply names_styled_evolve; [exact E3|exact N2]).
  assert (N4 : names_styled st r4) by (eapply names_styled_evolve; [exact E4|exact N3]).
  apply (frame_scalars st) in E3; [|cbn; intuition discriminate]. apply (frame_scalars st) in E4; [|cbn; intuition discriminate].
  apply (frame_scalars st) in E5; [|cbn; intuition discriminate].
  exists d, sc, e, i, t, r0, r1, r2, r3, r4.
  assert (G2 : good (r_scalars r5) r2) by (split; [exact N2|congruence]). assert (G3 : good (r_scalars r5) r3) by (split; [exact N3|congruence]).
  assert (G4 : good (r_scalars r5) r4) by (split; [exact N4|congruence]). auto 20.
Qed.

Theorem types_C55 : forall r l r', names_styled st r -> strawberry_plugin c st s ds ap pc r = (Ok l, r') -> sb_types pc = true ->
  forall key t, In (key, t) (s_types s) -> is_interface_def t || is_object_def t = true -> skipped pc key = false ->
  Forall (fun kv => field_wf (snd kv)) (type_fields t) ->
  exists bases docs ms cfg dec,
    In (SClass (if is_interface_def t then style_interface_class st key else style_objecttype_class st key) bases (docs ++ ms ++ cfg) dec) l
    /\ map head_name dec = [if is_interface_def t then "strawberry.interface" else "strawberry.type"]
    /\ Forall no_field (docs ++ cfg) /\ Forall2 (member st s (r_scalars r') key) (type_fields t) ms.
Proof.
  intros r l r' N H On key t Hin Hk Sk W. apply plugin_phases in H as (d & sc & e & i & tt0 & r0 & r1 & r2 & r3 & r4 & -> & _ & _ & _ & _ & _ & _ & _ & G & H); [|exact N].
  rewrite On in H. unfold generate_types in H. apply bind_ok in H as ([] & r5 & H5 & H).
  assert (G5 : good (r_scalars r') r5) by (eapply (good_of _ [KImp]); [| |exact H5|exact G]; [cbn; intuition discriminate|ev_tac]).
  eapply (mconcat_in _ (good (r_scalars r'))) with (x := (key, t)) in H as (ra & y & rb & Ga & Hy & J); [|exact G5| |].
  - eapply type_class_members in Hy as (bases & docs & ms & cfg & dec & -> & F0 & F1 & F2); [|exact Ga|exact W|exact Sk].
    exists bases, docs, ms, cfg, dec. split; [|auto]. rewrite !in_app_iff. do 4 right. apply J. now left.
  - intros x rc z rd _ Gc Hx. eapply good_of; [|apply ev_type_class|exact Hx|exact Gc]. cbn; intuition discriminate.
  - unfold sorted_objects. apply in_app_iff. rewrite !filter_In. cbn. apply orb_true_iff in Hk as [Hk|Hk]; auto.
Qed.
Theorem inputs_C55 : forall r l r', names_styled st r -> strawberry_plugin c st s ds ap pc r = (Ok l, r') -> sb_inputs pc = true ->
  forall key de fs dirs, In (key, TInput de fs dirs) (s_types s) -> sb_skip_underscore pc && startswith "_" key = false ->
  Forall (fun kv => gty_wf (if_type (snd kv)) = true) fs ->
  exists bases docs ms cfg dec, In (SClass (style_inputtype_class st key) bases (docs ++ ms ++ cfg) dec) l
    /\ Forall no_field (docs ++ cfg) /\ Forall2 (input_member st s (r_scalars r')) fs ms.
Proof.
  intros r l r' N H On key de fs dirs Hin Sk W. apply plugin_phases in H as (d & sc & e & i & tt0 & r0 & r1 & r2 & r3 & r4 & -> & _ & _ & _ & _ & _ & G & H & _ & _); [|exact N].
  rewrite On in H. unfold generate_inputs in H.
  eapply (mconcat_in _ (good (r_scalars r'))) with (x := (key, TInput de fs dirs)) in H as (ra & y & rb & Ga & Hy & J); [|exact G| |exact Hin].
  - cbn in Hy. eapply (input_class_members (r_scalars r')) in Hy as (bases & docs & ms & cfg & dec & -> & F1 & F2); [|exact Ga|exact W|exact Sk].
    exists bases, docs, ms, cfg, dec. split; [|auto]. rewrite !in_app_iff. do 3 right. left. apply J. now left.
  - intros [k []] rc z rd _ Gc Hx; cbn in Hx; try (apply ret_ok in Hx as [_ ->]; exact Gc).
    eapply good_of; [|apply ev_input_class|exact Hx|exact Gc]. cbn; intuition discriminate.
Qed.
Theorem directives_C55 : forall r l r', names_styled st r -> strawberry_plugin c st s ds ap pc r = (Ok l, r') -> sb_directives pc = true ->
  forall d, In d ds -> ~ In (dd_name d) (sb_builtin_directives pc) -> skipped pc (dd_name d) = false ->
  Forall (fun kv => gty_wf (arg_type (snd kv)) = true) (dd_args d) ->
  exists ms cfg dec, In (SClass (dd_name d) [] ((match ms with [] => [SPass] | _ => ms end) ++ cfg) [dec]) l
    /\ Forall no_field cfg /\ Forall2 (directive_member st s (r_scalars r)) (dd_args d) ms.
Proof.
  intros r l r' N H On d Hin Hb Sk W. apply plugin_phases in H as (dl & sc & e & i & tt0 & r0 & r1 & r2 & r3 & r4 & -> & G & H & _); [|exact N].
  rewrite On in H. unfold generate_directives in H.
  assert (Hf : In d (filter (fun d => negb (mem (dd_name d) (sb_builtin_directives pc))) ds)).
  { apply filter_In. split; [exact Hin|]. apply negb_true_iff. destruct (mem (dd_name d) (sb_builtin_directives pc)) eqn:E; [|reflexivity]. now apply mem_In in E. }
  destruct (filter _ ds) as [|d0 l0] eqn:Ef; [contradiction|]. apply bind_ok in H as ([] & r5 & H5 & H).
  assert (G5 : good (r_scalars r) r5) by (eapply (good_of _ [KImp]); [| |exact H5|exact G]; [cbn; intuition discriminate|ev_tac]).
  eapply (mconcat_in _ (good (r_scalars r))) with (x := d) in H as (ra & y & rb & Ga & Hy & J); [|exact G5| |exact Hf].
  - eapply (directive_class_members (r_scalars r)) in Hy as (ms & cfg & dec & -> & F1 & F2); [|exact Ga|exact W|exact Sk].
    exists ms, cfg, dec. split; [|auto]. apply in_app_iff. left. apply J. now left.
  - intros x rc z rd _ Gc Hx. eapply good_of; [|apply ev_directive_class|exact Hx|exact Gc]. cbn; intuition discriminate.
Qed.

(** ** Parts *)
Lemma mconcat_map : forall {A B C} (f : A -> M (list B)) (g : B -> C) (h : A -> list C) l r ys r',
  (forall x r y r', In x l -> f x r = (Ok y, r') -> map g y = h x) -> mconcat f l r = (Ok ys, r') -> map g ys = flat_map h l.
Proof.
  intros A B C f g h l r ys r' HS H. apply mconcat_ok in H as (yss & H & ->). revert r yss r' H. induction l as [|a l IH]; intros r yss r' H; cbn in H.
  - apply ret_ok in H as [-> _]. reflexivity.
  - apply bind_ok in H as (y & r1 & H1 & H). apply bind_ok in H as (ys & r2 & H2 & H). apply ret_ok in H as [-> ->]. cbn. rewrite map_app. f_equal.
    + eapply HS; [now left|exact H1].
    + eapply IH; [intros x rc z rd Hx Hz; eapply HS; [right; exact Hx|exact Hz]|exact H2].
Qed.
Lemma flat_map_map : forall {A B C} (f : A -> list B) (g : B -> C) l, map g (flat_map f l) = flat_map (fun x => map g (f x)) l.
Proof. intros A B C f g l. induction l; cbn; [reflexivity|]. rewrite map_app. now f_equal. Qed.
Lemma flat_map_filter : forall {A B} (p : A -> bool) (f : A -> list B) l, flat_map f (filter p l) = flat_map (fun x => if p x then f x else []) l.
Proof. intros A B p f l. induction l as [|x l IH]; cbn; [reflexivity|]. destruct (p x); cbn; now rewrite IH. Qed.
Lemma flat_map_flat_map : forall {A B C} (f : A -> list B) (g : B -> list C) l, flat_map g (flat_map f l) = flat_map (fun x => flat_map g (f x)) l.
Proof. intros A B C f g l. induction l as [|x l IH]; cbn; [reflexivity|]. now rewrite flat_map_app, IH. Qed.
Lemma flat_map_ext' : forall {A B} (f g : A -> list B) l, (forall x, f x = g x) -> flat_map f l = flat_map g l.
Proof. intros A B f g l H. induction l; cbn; [reflexivity|]. now rewrite H, IHl. Qed.
Definition tag (p : part) (n : string) : option (part * string) := Some (p, n).
Lemma head_decorate : forall n kws, head_name (decorate n kws) = n.
Proof. intros n []; reflexivity. Qed.
Lemma part_class : forall n b body deco kws p, part_named deco = Some p -> part_of (SClass n b body [decorate deco kws]) = tag p n.
Proof. intros n b body deco kws p H. cbn [part_of]. now rewrite head_decorate, H. Qed.

Lemma directives_parts : forall r l r', generate_directives c st s ds pc r = (Ok l, r') ->
  map part_of l = map (tag PDirective) (wanted st s ds pc PDirective).
Proof.
  intros r l r' H. unfold generate_directives in H. cbn [wanted]. rewrite flat_map_map.
  assert (E : exists r1, mconcat (directive_class c st s pc) (filter (fun d => negb (mem (dd_name d) (sb_builtin_directives pc))) ds) r1 = (Ok l, r')).
  { destruct (filter _ ds) eqn:E; [exists r; exact H|]. apply bind_ok in H as ([] & r1 & H1 & H). eauto. }
  destruct E as [r1 E]. eapply (mconcat_map _ part_of (fun d => map (tag PDirective) (if skipped pc (dd_name d) then [] else [dd_name d]))) in E.
  - rewrite E, flat_map_filter. apply flat_map_ext'. intros d. destruct (mem (dd_name d) (sb_builtin_directives pc)); reflexivity.
  - intros d r2 y r3 _ Hy. unfold directive_class in Hy. destruct (skipped pc (dd_name d)); [apply ret_ok in Hy as [-> _]; reflexivity|].
    apply bind_ok in Hy as (f & r4 & H4 & Hy). apply bind_ok in Hy as (cfg & r5 & H5 & Hy). apply ret_ok in Hy as [-> _]. reflexivity.
Qed.
Lemma scalars_parts : forall r l r', generate_scalars s ap pc r = (Ok l, r') -> map part_of l = map (tag PScalar) (wanted st s ds pc PScalar).
Proof.
  intros r l r' H. unfold generate_scalars in H. apply bind_ok in H as (u & r1 & H1 & H).
  eapply (mconcat_map _ part_of (fun d => [tag PScalar (fst d)])) in H.
  - rewrite H. unfold scalar_types. cbn [wanted]. rewrite flat_map_flat_map, flat_map_map. apply flat_map_ext'. intros [k []]; try reflexivity. cbn [fst snd].
    destruct (mem k (sb_builtin_scalars pc)); reflexivity.
  - intros [k d] r2 y r3 _ Hy. cbn [scalar_assign] in Hy. apply bind_ok in Hy as (f & r4 & H4 & Hy). apply bind_ok in Hy as (cfg & r5 & H5 & Hy).
    apply ret_ok in Hy as [-> _]. reflexivity.
Qed.
Lemma enums_parts : forall r l r', generate_enums st s ap pc r = (Ok l, r') -> map part_of l = map (tag PEnum) (wanted st s ds pc PEnum).
Proof.
  intros r l r' H. unfold generate_enums in H. cbn [wanted]. rewrite flat_map_map. eapply mconcat_map; [|exact H].
  intros [k t] r2 y r3 _ Hy. cbn [fst snd] in *. destruct t; try (apply ret_ok in Hy as [-> _]; reflexivity).
  unfold generate_enum_class in Hy. apply bind_ok in Hy as (f & r4 & H4 & Hy). fold (skipped pc k). destruct (skipped pc k); [apply ret_ok in Hy as [-> _]; reflexivity|].
  apply bind_ok in Hy as (cls & r5 & H5 & Hy). apply generate_in_spec in H5 as (_ & -> & _). cbn zeta in Hy.
  apply bind_ok in Hy as (u & r6 & H6 & Hy). apply ret_ok in Hy as [-> _]. cbn [map]. now rewrite (part_class _ _ _ _ _ PEnum).
Qed.
Lemma inputs_parts : forall r l r', generate_inputs c st s pc r = (Ok l, r') -> map part_of l = map (tag PInput) (wanted st s ds pc PInput).
Proof.
  intros r l r' H. unfold generate_inputs in H. cbn [wanted]. rewrite flat_map_map. eapply mconcat_map; [|exact H].
  intros [k t] r2 y r3 _ Hy. cbn [fst snd] in *. destruct t; try (apply ret_ok in Hy as [-> _]; reflexivity).
  unfold input_class in Hy. destruct (sb_skip_underscore pc && startswith "_" k); [apply ret_ok in Hy as [-> _]; reflexivity|].
  apply bind_ok in Hy as (f & r4 & H4 & Hy). cbn zeta in Hy. apply bind_ok in Hy as (add & r5 & H5 & Hy). apply bind_ok in Hy as (cls & r6 & H6 & Hy).
  apply generate_in_spec in H6 as (_ & -> & _). apply bind_ok in Hy as (fs & r7 & H7 & Hy). apply bind_ok in Hy as (cfg & r8 & H8 & Hy).
  apply ret_ok in Hy as [-> _]. cbn [map]. now rewrite (part_class _ _ _ _ _ PInput).
Qed.
Lemma types_parts : forall r l r', generate_types c st s ap pc r = (Ok l, r') -> map part_of l = map (tag PType) (wanted st s ds pc PType).
Proof.
  intros r l r' H. unfold generate_types in H. apply bind_ok in H as (u & r1 & H1 & H).
  eapply (mconcat_map _ part_of (fun kt => if skipped pc (fst kt) then []
     else [tag PType (if is_interface_def (snd kt) then style_interface_class st (fst kt) else style_objecttype_class st (fst kt))])) in H.
  - rewrite H. unfold sorted_objects. cbn [wanted]. rewrite flat_map_app, map_app, !flat_map_filter, !flat_map_map. f_equal; apply flat_map_ext'; intros [k []]; try reflexivity;
      cbn [fst snd is_interface_def is_object_def]; fold (skipped pc k); destruct (skipped pc k); reflexivity.
  - intros [k t] r2 y r3 _ Hy. cbn [fst snd type_class] in *. apply bind_ok in Hy as (add & r4 & H4 & Hy). destruct (skipped pc k); [apply ret_ok in Hy as [-> _]; reflexivity|].
    apply bind_ok in Hy as (kws & r5 & H5 & Hy). apply bind_ok in Hy as (cls & r6 & H6 & Hy). apply bind_ok in Hy as (ib & r7 & H7 & Hy).
    apply bind_ok in Hy as (fs & r8 & H8 & Hy). apply bind_ok in Hy as (cfg & r9 & H9 & Hy). apply ret_ok in Hy as [-> _]. cbn [map].
    rewrite (part_class _ _ _ _ _ PType) by (destruct (is_interface_def t); reflexivity). f_equal. f_equal. destruct (is_interface_def t).
    + unfold generate_interface in H6. minv. reflexivity.
    + now apply generate_in_spec in H6 as (_ & -> & _).
Qed.

Definition on (p : part) : bool := match p with PScalar => sb_directives pc | _ => enabled pc p end.
Definition parts : list part := [PDirective; PScalar; PEnum; PInput; PType].
Definition expected (p : part) : list (option (part * string)) := if on p then map (tag p) (wanted st s ds pc p) else [].
Lemma if_parts : forall (b : bool) (m : M (list stmt)) p r l r',
  (forall r l r', m r = (Ok l, r') -> map part_of l = map (tag p) (wanted st s ds pc p)) ->
  (if b then m else ret []) r = (Ok l, r') -> map part_of l = if b then map (tag p) (wanted st s ds pc p) else [].
Proof. intros [] m p r l r' H E; [eapply H; exact E|]. apply ret_ok in E as [-> _]. reflexivity. Qed.
Lemma plugin_parts : forall r l r', strawberry_plugin c st s ds ap pc r = (Ok l, r') -> map part_of l = flat_map expected parts.
Proof.
  intros r l r' H. unfold strawberry_plugin in H. apply bind_ok in H as ([] & r0 & H0 & H).
  apply bind_ok in H as (d & r1 & H1 & H). apply bind_ok in H as (sc & r2 & H2 & H). apply bind_ok in H as (e & r3 & H3 & H).
  apply bind_ok in H as (i & r4 & H4 & H). apply bind_ok in H as (t & r5 & H5 & H). apply ret_ok in H as [-> ->].
  apply (if_parts _ _ PDirective) in H1; [|apply directives_parts]. apply (if_parts _ _ PScalar) in H2; [|apply scalars_parts].
  apply (if_parts _ _ PEnum) in H3; [|apply enums_parts]. apply (if_parts _ _ PInput) in H4; [|apply inputs_parts].
  apply (if_parts _ _ PType) in H5; [|apply types_parts].
  rewrite !map_app, H1, H2, H3, H4, H5. cbn [flat_map parts]. rewrite app_nil_r. reflexivity.
Qed.
Definition pick (p : part) (x : option (part * string)) : list string :=
  match x with Some (q, n) => if part_eqb p q then [n] else [] | None => [] end.
Lemma names_in_pick : forall p l, names_in p l = flat_map (pick p) (map part_of l).
Proof. intros p l. unfold names_in. induction l as [|x l IH]; cbn; [reflexivity|]. now rewrite IH. Qed.
Lemma pick_tags : forall p q l, flat_map (pick p) (map (tag q) l) = if part_eqb p q then l else [].
Proof. intros p q l. induction l as [|x l IH]; cbn; [now destruct (part_eqb p q)|]. rewrite IH. now destruct (part_eqb p q). Qed.
Lemma pick_expected : forall p q, flat_map (pick p) (expected q) = if part_eqb p q then if on q then wanted st s ds pc q else [] else [].
Proof. intros p q. unfold expected. destruct (on q); [apply pick_tags|]. cbn. now destruct (part_eqb p q). Qed.
Theorem parts_C48 : forall r l r', strawberry_plugin c st s ds ap pc r = (Ok l, r') ->
  (forall p, (p = PScalar -> sb_scalars pc = sb_directives pc) -> names_in p l = if enabled pc p then wanted st s ds pc p else [])
  /\ exists ps, map part_of l = map Some ps /\ StronglySorted (fun a b => rank (fst a) <= rank (fst b)) ps.
Proof.
  intros r l r' H. apply plugin_parts in H. split.
  - intros p Hp. rewrite names_in_pick, H. cbn [flat_map parts]. rewrite !flat_map_app. cbn [flat_map]. rewrite !pick_expected.
    destruct p; cbn [part_eqb rank Nat.eqb on enabled]; rewrite ?app_nil_r, ?app_nil_l; try reflexivity. now rewrite Hp.
  - exists (flat_map (fun p => if on p then map (pair p) (wanted st s ds pc p) else []) parts). split.
    + rewrite H. clear H. generalize parts as ps. induction ps as [|p ps IH]; cbn; [reflexivity|]. rewrite map_app, IH. f_equal. unfold expected.
      destruct (on p); [|reflexivity]. now rewrite map_map.
    + assert (S : StronglySorted (fun a b => rank a <= rank b) parts) by (repeat constructor).
      revert S. clear H. generalize parts as ps. induction ps as [|p ps IH]; intros S; cbn; [constructor|]. inversion S as [|? ? S1 S2]; subst. specialize (IH S1).
      assert (Hall : forall x, In x (flat_map (fun p => if on p then map (pair p) (wanted st s ds pc p) else []) ps) -> rank p <= rank (fst x)).
      { intros x Hx. apply in_flat_map in Hx as (q & Hq & Hx). destruct (on q); [|contradiction]. apply in_map_iff in Hx as (n & <- & _). rewrite Forall_forall in S2. now apply S2. }
      destruct (on p); [|exact IH]. generalize (wanted st s ds pc p) as ns. induction ns as [|n ns IHn]; cbn; [exact IH|]. constructor; [exact IHn|].
      apply Forall_forall. intros x Hx. apply in_app_iff in Hx as [Hx|Hx]; [apply in_map_iff in Hx as (m & <- & _); cbn; lia|now apply Hall].
Qed.

(** ** Reading annotations *)
Lemma reads_flat : forall e t, reads e <> RNonNull (RNonNull t).
Proof.
  fix IH 1. intros e t. destruct e; cbn [reads]; try discriminate. destruct e1; try discriminate.
  destruct (String.eqb id "Optional"); [|destruct (String.eqb id "List"); discriminate]. specialize (IH e2). destruct (reads e2) as [x|x|x] eqn:E; try discriminate.
  intros ->. now apply (IH (RNonNull t)).
Qed.
Lemma says_optional : forall sc t a, gty_wf t = true -> says st s sc t a -> ((exists e, a = optional_of e) <-> is_nonnull t = false).
Proof.
  intros sc t a W (e & R & _). split.
  - intros (b & ->). destruct t; try reflexivity. exfalso. rewrite reads_optional in R. cbn [rty_of] in R.
    pose proof (reads_flat b) as F. destruct (reads b) as [x|x|x] eqn:E; try discriminate. subst x. now apply (F (rty_of t e)).
  - intros N. assert (K : forall x, reads a <> RNonNull x) by (rewrite R; destruct t; [discriminate|discriminate|discriminate N]).
    destruct a; cbn [reads] in K; try (now edestruct K). destruct a1; try (now edestruct K). destruct (String.eqb_spec id "Optional") as [->|H]; [eexists; reflexivity|].
    destruct (String.eqb id "List"); now edestruct K.
Qed.

Theorem resolvers_C47 : forall r l r', names_styled st r -> strawberry_plugin c st s ds ap pc r = (Ok l, r') -> sb_types pc = true ->
  forall key t name f, In (key, t) (s_types s) -> is_interface_def t || is_object_def t = true -> skipped pc key = false ->
  Forall (fun kv => field_wf (snd kv)) (type_fields t) -> In (name, f) (type_fields t) -> fd_args f <> [] \/ root_type_name key = true ->
  exists cls bases body dec asy args fbody ret fdec, In (SClass cls bases body dec) l
    /\ In (SFunc asy (generate_node_name st name) args fbody ret fdec) body
    /\ signature st s (r_scalars r') required (fd_args f) args.
Proof.
  intros r l r' N H On key t name f Hin Hk Sk W Hf Ha. eapply types_C55 in H as (bases & docs & ms & cfg & dec & I & _ & _ & F); [|exact N|exact On|exact Hin|exact Hk|exact Sk|exact W].
  assert (E : exists m, In m ms /\ member st s (r_scalars r') key (name, f) m).
  { clear - F Hf. induction F as [|x y l1 l2 Q F IH]; [contradiction|]. destruct Hf as [->|Hf]; [exists y; split; [now left|exact Q]|].
    destruct (IH Hf) as (m & Hm & Qm). exists m. split; [now right|exact Qm]. }
  destruct E as (m & Hm & Q). cbn [member] in Q. destruct m; try contradiction.
  - destruct Q as (_ & E1 & E2 & _). destruct Ha; congruence.
  - destruct Q as (-> & _ & S & _). do 9 eexists. split; [exact I|]. split; [apply in_app_iff; right; apply in_app_iff; left; exact Hm|exact S].
Qed.
End P.
