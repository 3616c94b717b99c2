(** Classes for selections can be generated. *)
From Verif Require Import Base PyAst Gql Config Stylers Registry Utils Recurse Spec_Mro Spec_Mro2 Spec_Docs Spec_Valid Spec_ValidDoc P_Base P_Gql P_Monad P_Config P_Mro P_Total P_Total2 P_Total3.

Arguments register_import : simpl never.
Arguments add_forward : simpl never.
Arguments register_builtin : simpl never.
Arguments dkeys : simpl never.
Arguments fold_left : simpl never.

Lemma tot_mfold : forall r0 {A S} (f : S -> A -> M S) l a, (forall x a, In x l -> tot r0 (f a x)) -> tot r0 (mfold f l a).
Proof.
  intros r0 A S f l. induction l as [|x l IH]; intros a H; [apply tot_ret|]. cbn. apply tot_bind; [apply H; now left|]. intros b. apply IH. intros y e Hy. apply H. now right.
Qed.
Lemma tot_walk : forall r0 {A} (item : A -> selection -> M A) l a, (forall x a, In x l -> is_typename_field x = false -> tot r0 (item a x)) -> tot r0 (walk item (Some l) a).
Proof. intros r0 A item l a H. cbn. apply tot_mfold. intros x b Hx. destruct (is_typename_field x) eqn:E; [apply tot_ret|auto]. Qed.
Lemma tot_some : forall r0 {A B} (o : option A) e m (k : A -> M B) a, o = Some a -> tot r0 (k a) -> tot r0 (bind (from_opt o e m) k).
Proof. intros r0 A B o e m k a -> H r S. exact (H r S). Qed.
Lemma tot_optional : forall r0 b e, tot r0 e -> tot r0 (optional_if b e).
Proof. intros r0 b e H. unfold optional_if. apply tot_bind; [apply tot_optimport|]. intros _. apply tot_bind; [exact H|]. intros; apply tot_ret. Qed.
Lemma tot_typename : forall r0 c n, tot r0 (generate_typename_field c n).
Proof. intros r0 c n. unfold generate_typename_field. repeat (apply tot_bind; [apply tot_import|intros _]). apply tot_ret. Qed.
Lemma tot_generic_typename : forall r0 c, tot r0 (generate_generic_typename_field c).
Proof. intros r0 c. unfold generate_generic_typename_field. repeat (apply tot_bind; [apply tot_import|intros _]). apply tot_ret. Qed.
Lemma tot_interface_bases : forall r0 c, tot r0 (get_interface_bases c).
Proof. intros r0 c. unfold get_interface_bases. destruct (c_interface_bases c) as [[|]|]; apply tot_bases. Qed.
Lemma tot_enum_forward : forall r0 st n p, tot r0 (reference_enum st n p true).
Proof.
  intros r0 st n p. unfold reference_enum. destruct (mem n built_in_keys) eqn:B.
  { apply tot_bind; [apply tot_builtin; now apply mem_In|]. intros _. apply tot_bind; [apply tot_forward|]; intros; apply tot_ret. }
  apply tot_gets. intros r _. apply tot_if; [|apply tot_ret]. apply tot_bind; [apply tot_forward|]; intros; apply tot_ret.
Qed.
Lemma possible_object : forall s n i, is_object s n = true -> is_iface s i = true -> overlap s n i = true -> In n (implementations s i).
Proof.
  intros s n i O I H. unfold overlap, possible, is_object, is_iface in *. destruct (get_type s n) as [[]|]; try discriminate. destruct (get_type s i) as [[]|]; try discriminate.
  cbn in H. rewrite orb_false_r in H. apply mem_In, in_map_iff in H as ([k t] & E & H). cbn in E. subst k. apply filter_In in H as (H & M). cbn in M.
  unfold implementations. apply in_flat_map. exists (n, t). split; [exact H|]. cbn. destruct t; try discriminate. rewrite M. now left.
Qed.
Lemma impls_in : forall (f : string -> string) l (m : dict string) i, In i l \/ dmem i m = true -> dmem i (fold_left (fun m i => dset i (f i) m) l m) = true.
Proof.
  intros f l. induction l as [|x l IH]; intros m i H; cbn [fold_left]; [destruct H as [[]|H]; exact H|]. cbn. apply IH.
  unfold dmem in *. rewrite dget_dset. destruct (String.eqb_spec i x) as [->|N]; [now right|]. destruct H as [[->|H]|H]; [congruence|now left|now right].
Qed.

Section Sel.
Variable c : gconfig. Variable st : list styler. Variable s : schema. Variable d : document.
Hypothesis V : valid_schema s.
(** what the registry knows about a fragment *)
Definition ready (r : reg) (n : string) : Prop :=
  exists f, the_fragment d n = Some f /\ dmem n (r_frags r) = true /\ dget n (r_fragtypes r) = Some (fr_on f)
    /\ (if is_iface s (fr_on f) then exists m, dget n (r_iffrag r) = Some m /\ forall i, In i (implementations s (fr_on f)) -> dmem i m = true else dget n (r_iffrag r) = None)
    /\ (is_union s (fr_on f) = true -> dmem n (r_ufrag r) = true).
Lemma fside_eq : forall r r', tsame r r' -> r_frags r' = r_frags r /\ r_fragdocs r' = r_fragdocs r /\ r_fragtypes r' = r_fragtypes r /\ r_iffrag r' = r_iffrag r /\ r_ufrag r' = r_ufrag r /\ r_ifrags r' = r_ifrags r.
Proof. intros r r' (_ & _ & _ & _ & _ & _ & E). unfold fside in E. injection E. intuition. Qed.
Lemma ready_same : forall r r' n, tsame r r' -> ready r n -> ready r' n.
Proof. intros r r' n S H. destruct (fside_eq _ _ S) as (A1 & _ & A3 & A4 & A5 & _). unfold ready. rewrite A1, A3, A4, A5. exact H. Qed.

Variable r0 : reg.
Hypothesis NI : r_ifrags r0 = [].
Hypothesis Scal : forall k t f fd, In (k, t) (s_types s) -> In (f, fd) (fields_of t) -> is_scalar s (gty_name (fd_type fd)) = true -> dmem (gty_name (fd_type fd)) (r_scalars r0) = true.
Lemma tot_inherit : forall n, ready r0 n -> tot r0 (inherit_fragment n).
Proof.
  intros n (f & _ & H & _). unfold inherit_fragment. apply tot_gets. intros r S. rewrite (proj1 (fside_eq _ _ S)). unfold dmem in H. destruct (dget n (r_frags r0)); [apply tot_ret|discriminate].
Qed.
Lemma tot_implementation : forall n on, ready r0 n -> is_object s on = true -> (forall f, the_fragment d n = Some f -> overlap s on (fr_on f) = true) -> tot r0 (get_interface_fragment_implementation_or_none n on).
Proof.
  intros n on (f & F & _ & _ & H & _) O Ov. unfold get_interface_fragment_implementation_or_none. apply tot_gets. intros r S. destruct (fside_eq _ _ S) as (_ & _ & _ & -> & _).
  destruct (is_iface s (fr_on f)) eqn:I; [|rewrite H; apply tot_ret]. destruct H as (m & -> & H). specialize (H on (possible_object _ _ _ O I (Ov _ F))). unfold dmem in H. destruct (dget on m); [apply tot_ret|discriminate].
Qed.
Lemma tot_spread_bases : forall n b, ready r0 n -> tot r0 (spread_bases n b).
Proof.
  intros n b R. unfold spread_bases. apply tot_gets. intros r S. destruct (dget n (r_iffrag r)); [apply tot_ret|]. apply tot_bind; [|intros; apply tot_bind; [now apply tot_inherit|intros; apply tot_ret]].
  unfold get_fragment_type. apply tot_gets. intros r' S'. destruct R as (f & _ & _ & H & _). destruct (fside_eq _ _ S') as (_ & _ & -> & _). rewrite H. apply tot_ret.
Qed.
Lemma tot_wrap : forall named t o, (forall o, tot r0 (named (gty_name t) o)) -> tot r0 (wrap_annotation c named t o).
Proof.
  intros named. induction t as [n|t IH|t IH]; intros o H; cbn; [apply H| |now apply IH].
  apply tot_bind; [apply tot_import|]. intros _. apply tot_bind; [apply tot_optimport|]. intros _. apply tot_bind; [now apply IH|]. intros; apply tot_ret.
Qed.
Lemma tot_field_statements : forall target fd a, tot r0 (field_statements c st target fd a).
Proof.
  intros target fd a. unfold field_statements. cbn zeta. apply tot_bind; [apply tot_metadata|]. intros b. apply tot_bind; [|intros; apply tot_ret].
  match goal with |- tot _ (match ?l with _ => _ end) => destruct l; [apply tot_ret|apply tot_import] end.
Qed.

Definition sub_sels (f : fieldnode) : list selection := match fn_sels f with Some l => l | None => [] end.
Definition good (f : fieldnode) : Prop := forall parent fd,
  valid_node s d (gty_name (fd_type fd)) f = true -> supported_node s (gty_name (fd_type fd)) f = true ->
  (is_scalar s (gty_name (fd_type fd)) = true -> dmem (gty_name (fd_type fd)) (r_scalars r0) = true) ->
  (forall n, spread_in True (sub_sels f) n -> ready r0 n) -> tot r0 (type_field_node c st s f parent fd).
(** a field of a type *)
Lemma good_field : forall on t f fd parent, get_type s on = Some t -> dget (fn_name f) (fields_of t) = Some fd -> valid_sel s d on (SelField f) = true -> is_typename_field (SelField f) = false ->
  supported_field s on (SelField f) = true -> (forall n, spread_in True (sub_sels f) n -> ready r0 n) -> good f -> tot r0 (type_field_node c st s f parent fd).
Proof.
  intros on t f fd parent G Gf Va N Su Re H. cbn [is_typename_field] in N. cbn [valid_sel supported_field] in *. rewrite N in Va. unfold field_type in *. rewrite G, Gf in *. cbn [option_map] in *.
  apply H; auto. unfold get_type in G. apply dget_Some_In in G, Gf. eapply Scal; eassumption.
Qed.
Lemma valid_has_field : forall on f, valid_sel s d on (SelField f) = true -> is_typename_field (SelField f) = false -> exists t fd, get_type s on = Some t /\ dget (fn_name f) (fields_of t) = Some fd.
Proof.
  intros on f Va N. cbn [is_typename_field valid_sel] in *. rewrite N in Va. unfold field_type in Va. destruct (get_type s on) as [t|]; [|discriminate]. destruct (dget (fn_name f) (fields_of t)) as [fd|] eqn:E; [|discriminate]. eauto.
Qed.
Lemma field_def_of : forall on t f fd, get_type s on = Some t -> dget f (fields_of t) = Some fd -> String.eqb f "__typename" = false -> get_field_def s on f = Some fd.
Proof. intros on t f fd G Gf N. unfold get_field_def. rewrite N, G. destruct t; try discriminate; exact Gf. Qed.
Lemma spread_sub : forall l f n, In (SelField f) l -> spread_in True (sub_sels f) n -> spread_in True l n.
Proof. intros l f n H S. unfold sub_sels in S. destruct (fn_sels f) as [m|] eqn:E; [eapply si_field; eassumption|]. inversion S; contradiction. Qed.

Section Items.
Variable l : list selection. Variable on : string.
Hypothesis Va : forallb (valid_sel s d on) l = true.
Hypothesis Re : forall n, spread_in True l n -> ready r0 n.
Hypothesis Go : forall f, In (SelField f) l -> good f.
Hypothesis GoI : forall cond ds m f, In (SelInline cond ds m) l -> In (SelField f) m -> good f.
Lemma valid_in : forall x, In x l -> valid_sel s d on x = true.
Proof. intros x H. rewrite forallb_forall in Va. auto. Qed.
Lemma ready_spread : forall n ds, In (SelSpread n ds) l -> ready r0 n /\ forall f, the_fragment d n = Some f -> overlap s on (fr_on f) = true.
Proof. intros n ds H. split; [eapply Re, si_here, H|]. intros f F. apply valid_in in H. cbn in H. now rewrite F in H. Qed.
Lemma tot_field_in : forall f t fd parent, In (SelField f) l -> get_type s on = Some t -> dget (fn_name f) (fields_of t) = Some fd -> is_typename_field (SelField f) = false -> supported_field s on (SelField f) = true ->
  tot r0 (type_field_node c st s f parent fd).
Proof. intros f t fd parent H G Gf N Su. eapply good_field; eauto; [now apply valid_in|]. intros n Hn. apply Re. eapply spread_sub; eassumption. Qed.
(** the fields of an inline fragment *)
Lemma tot_inline_in : forall k ds m f parent, In (SelInline (Some k) ds m) l -> In (SelField f) m -> is_typename_field (SelField f) = false -> supported_field s k (SelField f) = true ->
  exists t fd, get_type s k = Some t /\ dget (fn_name f) (fields_of t) = Some fd /\ tot r0 (type_field_node c st s f parent fd).
Proof.
  intros k ds m f parent H Hf N Su. pose proof (valid_in _ H) as W. cbn [valid_sel] in W. apply andb_true_iff in W as (_ & W). rewrite forallb_forall in W. specialize (W _ Hf).
  destruct (valid_has_field _ _ W N) as (t & fd & G & Gf). exists t, fd. split; [exact G|]. split; [exact Gf|]. eapply good_field; eauto. intros n Hn. apply Re. eapply si_inline; [exact I|exact H|]. eapply spread_sub; eassumption.
Qed.
Lemma tot_iface_item : forall strict d0 is fs parent x p, get_type s on = Some (TInterface d0 is fs) -> In x l -> is_typename_field x = false -> supported_fragment s d on x = true ->
  (strict = true -> forall k ds m, x = SelInline (Some k) ds m -> is_object s k = true) ->
  tot r0 (iface_item s (type_field_node c st s) strict fs parent p x).
Proof.
  intros strict d0 is fs parent x p G Hx N Su Ob. destruct x as [f|n ds|[k|] ds m]; cbn [iface_item].
  - destruct (valid_has_field _ _ (valid_in _ Hx) N) as (t & fd & G' & Gf). rewrite G in G'. injection G' as <-. eapply tot_some; [exact Gf|]. apply tot_bind; [|intros; apply tot_ret]. eapply tot_field_in; eauto.
  - apply tot_bind; [|intros; apply tot_ret]. apply tot_spread_bases. eapply ready_spread, Hx.
  - cbn [from_opt]. intros r S. unfold bind at 1, ret at 1. revert r S. change (tot r0 ((match get_type s k with Some (TObject _ _ _ _) => ret tt | _ => if strict then raise ValueErrorC k else ret tt end) ;;
      let* r := inline_fields s (type_field_node c st s) strict parent k m in ret (IParts (ip_classes p ++ fst r) (ip_fields p) (ip_bases p) (dextend k (snd r) (ip_inline p))))).
    apply tot_bind; [|intros _; apply tot_bind; [|intros; apply tot_ret]].
    + specialize (fun E => Ob E _ _ _ eq_refl). unfold is_object in Ob. destruct strict; destruct (get_type s k) as [[]|]; try apply tot_ret; discriminate (Ob eq_refl).
    + unfold inline_fields. apply tot_mfold. intros y acc Hy. destruct y as [f| |]; try apply tot_ret. destruct (String.eqb (fn_name f) "__typename") eqn:Nf; [apply tot_ret|].
      cbn [supported_fragment] in Su. rewrite forallb_forall in Su. specialize (Su _ Hy). destruct (tot_inline_in _ _ _ _ parent Hx Hy Nf Su) as (t & fd & Gt & Gf & T).
      eapply tot_some; [eapply field_def_of; eassumption|]. apply tot_bind; [exact T|]. intros; apply tot_ret.
  - discriminate Su.
Qed.
Lemma tot_object_item : forall d0 is fs ds cls x acc, get_type s on = Some (TObject d0 is fs ds) -> In x l -> supported_sel s on x = true -> tot r0 (object_item (type_field_node c st s) on cls fs acc x).
Proof.
  intros d0 is fs ds cls x [[classes bases] body] G Hx Su. assert (is_object s on = true) as O by (unfold is_object; now rewrite G). destruct x as [f|n ds'|[k|] ds' m]; cbn [object_item].
  - destruct (String.eqb (fn_name f) "__typename") eqn:N; [apply tot_ret|]. destruct (valid_has_field _ _ (valid_in _ Hx) N) as (t & fd & G' & Gf). rewrite G in G'. injection G' as <-.
    eapply tot_some; [exact Gf|]. apply tot_bind; [|intros; apply tot_ret]. eapply tot_field_in; eauto.
  - destruct (ready_spread _ _ Hx) as (R & Ov). apply tot_bind; [now apply tot_implementation|]. intros [b|]; (apply tot_bind; [first [apply tot_ret|now apply tot_inherit]|intros; apply tot_ret]).
  - cbn [supported_sel] in Su. rewrite O in Su. discriminate.
  - discriminate.
Qed.
Lemma tot_union_item : forall parent x acc, In x l -> supported_sel s on x = true -> tot r0 (union_item c s (type_field_node c st s) parent acc x).
Proof.
  intros parent x [classes names] Hx Su. destruct x as [f|n ds|[k|] ds m]; cbn [union_item]; [apply tot_ret| | |discriminate].
  - apply tot_bind; [|intros; apply tot_ret]. eapply tot_inherit, ready_spread, Hx.
  - cbn [supported_sel] in Su. apply andb_true_iff in Su as (Su & Sf). apply andb_true_iff in Su as (_ & Ok). rewrite forallb_forall in Sf.
    eapply tot_some; [reflexivity|]. cbn zeta. apply tot_bind.
    + apply tot_mfold. intros y [[cl bs] fl] Hy. destruct y as [f|n ds'|]; cbn [inline_item]; [| |apply tot_ret].
      * destruct (String.eqb (fn_name f) "__typename") eqn:N; [apply tot_ret|]. specialize (Sf _ Hy). cbn beta iota in Sf. destruct (tot_inline_in _ _ _ _ (parent +s+ k +s+ "InlineFragment") Hx Hy N Sf) as (t & fd & Gt & Gf & T).
        unfold is_object in Ok. rewrite Gt in *. destruct t; try discriminate. eapply tot_some; [exact Gf|]. apply tot_bind; [exact T|]. intros; apply tot_ret.
      * unfold is_interface_fragment. apply tot_gets. intros r S. destruct (fside_eq _ _ S) as (_ & _ & _ & _ & _ & ->). rewrite NI. cbn [mem existsb]. apply tot_bind; [|intros; apply tot_ret].
        apply tot_inherit, Re. eapply si_inline; [exact I|exact Hx|]. eapply si_here, Hy.
    + intros [[nested bases] fields]. apply tot_bind; [destruct bases; [apply tot_bind; [apply tot_typename|intros; apply tot_ret]|apply tot_ret]|]. intros body.
      apply tot_bind; [destruct bases; [apply tot_additional|apply tot_ret]|]. intros add. apply tot_bind; [apply tot_config|]. intros; apply tot_ret.
Qed.
(** a union selection yields at least one class *)
Lemma tot_union : forall parent o, forallb (supported_sel s on) l = true -> existsb (fun x => match x with SelField _ => false | _ => true end) l = true ->
  tot r0 (union_annotation c s (type_field_node c st s) parent (Some l) o).
Proof.
  intros parent o Su Ex r S. rewrite forallb_forall in Su. unfold union_annotation. cbn [walk].
  destruct (mfold_total (fun a sel => if is_typename_field sel then ret a else union_item c s (type_field_node c st s) parent a sel)
    (fun pre acc r => tsame r0 r /\ (existsb (fun x => match x with SelField _ => false | _ => true end) pre = true -> snd acc <> [])) l ([], []) r) as ([classes names] & r1 & E & S1 & Ne).
  { split; [exact S|]. discriminate. }
  { intros pre x post [cl nm] r1 E (S1 & Ne). assert (In x l) as Hx by (rewrite E; apply in_elt). cbn [snd] in *. destruct (is_typename_field x) eqn:N.
    - exists (cl, nm), r1. split; [reflexivity|]. split; [exact S1|]. rewrite existsb_app. destruct x; try discriminate. cbn. rewrite orb_false_r. exact Ne.
    - destruct (tot_union_item parent x (cl, nm) Hx (Su _ Hx) r1 S1) as ([cl' nm'] & r2 & E2 & S2). exists (cl', nm'), r2. split; [exact E2|]. split; [exact S2|]. rewrite existsb_app. intros X. cbn [snd].
      destruct x as [f|n ds|k ds m]; cbn [union_item] in E2.
      + cbn in X. rewrite orb_false_r in X. unfold ret in E2. injection E2 as <- <- <-. auto.
      + unfold bind in E2. destruct (inherit_fragment n r1) as [[a|] ?]; [|discriminate]. unfold ret in E2. injection E2 as <- <- <-. intros Y. now apply app_eq_nil in Y.
      + apply bind_ok in E2 as (on' & ra & _ & E2). apply bind_ok in E2 as ([[ne ba] fi] & rb & _ & E2). cbn beta iota in E2. apply bind_ok in E2 as (bo & rc & _ & E2). apply bind_ok in E2 as (ad & rd & _ & E2). apply bind_ok in E2 as (cf & re & _ & E2).
        unfold ret in E2. injection E2 as <- <- <-. intros Y. now apply app_eq_nil in Y. }
  cbn [snd] in Ne. specialize (Ne Ex). eapply (bind_exv _ _ _ (fun a r => a = (classes, names) /\ r = r1)); [eauto|]. intros a r2 (-> & ->).
  destruct names as [|x [|y q]]; [congruence|eexists; eexists; split; [reflexivity|exact S1]|].
  cut (tot r0 (register_import "typing.Union" ;; let* e := optional_if o (ret (union_of (map EName (x :: y :: q)))) in ret (classes, e))); [intros T; exact (T r1 S1)|].
  apply tot_bind; [apply tot_import|]. intros _. apply tot_bind; [apply tot_optional, tot_ret|]. intros; apply tot_ret.
Qed.
End Items.

Lemma tot_interface : forall l parent target n d0 is fs o, get_type s n = Some (TInterface d0 is fs) -> forallb (valid_sel s d n) l = true -> forallb (supported_sel s n) l = true ->
  (forall n, spread_in True l n -> ready r0 n) -> (forall f, In (SelField f) l -> good f) -> (forall cond ds m f, In (SelInline cond ds m) l -> In (SelField f) m -> good f) ->
  tot r0 (interface_annotation c s (type_field_node c st s) parent target n d0 fs (Some l) o).
Proof.
  intros l parent target n d0 is fs o G Va Su Re Go GoI. unfold interface_annotation. cbn zeta. rewrite forallb_forall in Su. apply tot_bind.
  { apply tot_walk. intros x p Hx N. specialize (Su _ Hx). eapply tot_iface_item; eauto.
    - destruct x as [f|m ds|[k|] ds m]; cbn [supported_sel supported_fragment supported_field] in *; auto.
      + assert (is_union s n = false) as -> by (unfold is_union; now rewrite G). reflexivity.
      + apply andb_true_iff in Su as (_ & Su). exact Su.
    - intros _ k ds m ->. cbn [supported_sel] in Su. apply andb_true_iff in Su as (Su & _). now apply andb_true_iff in Su as (_ & Su). }
  intros p. apply tot_bind; [apply tot_additional|]. intros add. apply tot_bind; [apply tot_interface_bases|]. intros ib. apply tot_bind; [apply tot_config|]. intros cfg.
  apply tot_bind.
  { apply tot_mmap. intros i _. unfold implementing_class. cbn zeta. apply tot_bind; [apply tot_additional|]. intros a1. apply tot_bind; [apply tot_interface_bases|]. intros a2. apply tot_bind; [apply tot_typename|]. intros; apply tot_ret. }
  intros ic. apply tot_bind; [apply tot_import|]. intros _. apply tot_bind; [apply tot_import|]. intros _. apply tot_bind.
  { apply tot_if; [|apply tot_ret]. apply tot_bind; [apply tot_interface_bases|]. intros a2. apply tot_bind; [apply tot_generic_typename|]. intros a3. apply tot_bind; [apply tot_import|]. intros; apply tot_ret. }
  intros rest. apply tot_bind; [apply tot_optional, tot_ret|]. intros e. apply tot_bind; [apply tot_if; [apply tot_ret|apply tot_import]|]. intros; apply tot_ret.
Qed.
Lemma tot_object : forall l parent target n d0 is fs ds o, get_type s n = Some (TObject d0 is fs ds) -> forallb (valid_sel s d n) l = true -> forallb (supported_sel s n) l = true ->
  (forall n, spread_in True l n -> ready r0 n) -> (forall f, In (SelField f) l -> good f) ->
  tot r0 (object_annotation c st (type_field_node c st s) parent target n d0 fs (Some l) o).
Proof.
  intros l parent target n d0 is fs ds o G Va Su Re Go. assert (is_object s n = true) as O by (unfold is_object; now rewrite G). unfold object_annotation. cbn zeta. apply tot_bind; [apply tot_typename|]. intros t.
  rewrite forallb_forall in Su.
  assert (tot r0 (let* r := walk (object_item (type_field_node c st s) n (parent +s+ py_capitalize target) fs) (Some l) ([], [], [doc_stmt d0; t]) in
    let '(classes, bases, body) := r in
    let* add := match bases with [] => get_additional_bases_for_type c n | _ => ret (map EName bases) end in
    let* cfg := generate_pydantic_config (KT KObject) c None in
    let* e := optional_if o (ret (EName (parent +s+ py_capitalize target))) in
    ret (classes ++ [SClass (parent +s+ py_capitalize target) (add ++ names_of (c_object_bases c)) (body ++ cfg) []], e))) as T.
  { apply tot_bind; [apply tot_walk; intros x a Hx N; eapply tot_object_item; eauto|]. intros [[classes bases] body].
    apply tot_bind; [destruct bases; [apply tot_additional|apply tot_ret]|]. intros add. apply tot_bind; [apply tot_config|]. intros cfg. apply tot_bind; [apply tot_optional, tot_ret|]. intros; apply tot_ret. }
  cbn [option_map]. destruct (non_typename l) as [|[f|m ds'|cond ds' m] [|y q]] eqn:E; try exact T.
  assert (In (SelSpread m ds') l) as Hm by (assert (In (SelSpread m ds') (non_typename l)) as X by (rewrite E; now left); unfold non_typename in X; now apply filter_In in X).
  destruct (ready_spread l n Va Re _ _ Hm) as (R & Ov). apply tot_bind; [now apply tot_implementation|]. intros i. apply tot_bind; [destruct i; [apply tot_ret|apply tot_generic]|]. intros e.
  apply tot_bind; [apply tot_optional, tot_ret|]. intros; apply tot_ret.
Qed.
Lemma tot_named_sel : forall f parent target n o, valid_node s d n f = true -> supported_node s n f = true -> (is_scalar s n = true -> dmem n (r_scalars r0) = true) ->
  (forall n, spread_in True (sub_sels f) n -> ready r0 n) -> (forall g, In (SelField g) (sub_sels f) -> good g) -> (forall cond ds m g, In (SelInline cond ds m) (sub_sels f) -> In (SelField g) m -> good g) ->
  tot r0 (named_annotation c st s (type_field_node c st s) parent target (fn_sels f) n o).
Proof.
  intros [al nm args ds sels] parent target n o Va Su Sc Re Go GoI. cbn [fn_sels sub_sels valid_node supported_node] in *. unfold named_annotation. destruct sels as [l|].
  - apply andb_true_iff in Va as (Va & Vl). apply andb_true_iff in Va as (Co & _). apply andb_true_iff in Su as (Su & Un). unfold is_composite, is_object, is_iface, is_union in Co, Un.
    destruct (get_type s n) as [[]|] eqn:G; cbn in Co; try discriminate.
    + eapply tot_object; eauto.
    + eapply tot_interface; eauto.
    + cbn in Un. eapply tot_union; eauto.
  - unfold is_leaf, is_enum in Va. unfold is_scalar in *. destruct (get_type s n) as [[]|] eqn:G; cbn in Va; try discriminate.
    + apply tot_bind; [apply tot_optional, tot_scalar; auto|]. intros; apply tot_ret.
    + apply tot_bind; [apply tot_optional, tot_enum_forward|]. intros; apply tot_ret.
Qed.
Definition good_sel (x : selection) : Prop :=
  match x with SelField f => good f | SelSpread _ _ => True | SelInline _ _ l => forall f, In (SelField f) l -> good f end.
Lemma tot_node : forall f, (forall g, In (SelField g) (sub_sels f) -> good g) -> (forall cond ds m g, In (SelInline cond ds m) (sub_sels f) -> In (SelField g) m -> good g) -> good f.
Proof.
  intros f G1 G2 parent fd Va Su Sc Re. destruct f as [al nm args ds sels]. cbn [type_field_node]. cbn zeta. apply tot_bind; [|intros a; apply tot_bind; [apply tot_field_statements|intros; apply tot_ret]].
  apply tot_wrap. intros o. exact (tot_named_sel (FieldNode al nm args ds sels) parent _ _ o Va Su Sc Re G1 G2).
Qed.
Lemma all_good : forall x, good_sel x.
Proof.
  apply sel_ind.
  - intros al n args ds. cbn. apply tot_node; intros; contradiction.
  - intros al n args ds l H. cbn. rewrite Forall_forall in H. apply tot_node; cbn.
    + intros g Hg. exact (H _ Hg).
    + intros cond ds' m g Hm Hg. exact (H _ Hm g Hg).
  - intros. exact I.
  - intros cond ds l H f Hf. rewrite Forall_forall in H. exact (H _ Hf).
Qed.
Lemma good_all : forall f, good f.
Proof. intros f. exact (all_good (SelField f)). Qed.
End Sel.
