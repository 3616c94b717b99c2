(** The function plugin does not fail. *)
From Verif Require Import Base PyAst Gql Config Stylers Registry Utils Documents Recurse Referencer Enums Inputs Inline Print Fragments Operations Funcs Run Spec_Mro Spec_Mro2 Spec_Docs Spec_Refs Spec_Inline Spec_Valid Spec_ValidDoc Spec_ValidFuncs
  P_Base P_Gql P_Monad P_Config P_Annot P_Recurse P_Mro P_Documents P_Topo P_Inline P_Print P_InlineProps P_Refs P_Indep P_Funcs P_Funcs2 P_Return P_Total P_Total2 P_Total3 P_Total4 P_Total5 P_Total6 P_Total7 P_Total8.
From Coq Require Import Permutation Lia.
Arguments register_import : simpl never.
Arguments add_forward : simpl never.
Arguments register_builtin : simpl never.
Arguments dkeys : simpl never.
Arguments fold_left : simpl never.
Notation is_scalar := Spec_Valid.is_scalar.
Notation is_input := Spec_Valid.is_input.
Notation is_enum := Spec_Valid.is_enum.

(** ** What the earlier plugins leave behind *)
(** the classes of interface fragments have the name of the fragment *)
Definition impls_named (st : list styler) (r : reg) : Prop :=
  forall n m i x, dget n (r_iffrag r) = Some m -> dget i m = Some x -> x = style_fragment_class st n +s+ i.
Lemma fold_named : forall b l (m : dict string) i x, dget i (fold_left (fun m i => dset i (b +s+ i) m) l m) = Some x -> (forall j y, dget j m = Some y -> y = b +s+ j) -> x = b +s+ i.
Proof.
  intros b l. induction l as [|j l IH]; intros m i x H Hm; [now apply Hm|]. apply (IH (dset j (b +s+ j) m)); [exact H|].
  intros k y. rewrite dget_dset. destruct (String.eqb_spec k j) as [->|]; [congruence|apply Hm].
Qed.
Section Before.
Variable c : gconfig. Variable st : list styler. Variable s : schema.
Lemma interface_named : forall pc f d fs r l r', interface_fragment c st s pc f d fs r = (Ok l, r') -> impls_named st r -> impls_named st r'.
Proof.
  intros pc f d fs r l r' H I. unfold interface_fragment in H. cbn zeta in H.
  apply bind_ok in H as (ad & r1 & H1 & H). apply bind_ok in H as (p & r2 & H2 & H). apply bind_ok in H as (ib & r3 & H3 & H).
  apply bind_ok in H as (t & r4 & H4 & H). apply bind_ok in H as (ic & r5 & H5 & H). apply bind_ok in H as (u & r6 & H6 & H). apply ret_ok in H as [-> ->].
  assert (r_iffrag r5 = r_iffrag r) as E.
  { transitivity (r_iffrag r4); [eapply (frame_iffrag st Ksel); [cbn; intuition discriminate|eapply ev_ok; [|exact H5]; ev_go]|].
    transitivity (r_iffrag r3); [eapply (frame_iffrag st Ksel); [cbn; intuition discriminate|eapply ev_ok; [|exact H4]; ev_go]|].
    transitivity (r_iffrag r2); [eapply (frame_iffrag st Ksel); [cbn; intuition discriminate|eapply ev_ok; [|exact H3]; ev_go]|].
    transitivity (r_iffrag r1); [eapply (frame_iffrag st Ksel); [cbn; intuition discriminate|eapply ev_ok; [|exact H2]; ev_go]|].
    eapply (frame_iffrag st Ksel); [cbn; intuition discriminate|eapply ev_ok; [|exact H1]; ev_go]. }
  unfold register_interface_fragment_implementations in H6. cbv [modify] in H6. injection H6 as _ <-. intros n m i x. cbn [with_iffrag r_iffrag]. rewrite dget_dset, E.
  destruct (String.eqb_spec n (fr_name f)) as [->|]; [|apply I]. intros [= <-] Hx. eapply fold_named; [exact Hx|]. discriminate.
Qed.
Lemma fragment_named : forall pc pf add f r l r', generate_fragment c st s pc pf add f r = (Ok l, r') -> impls_named st r -> impls_named st r'.
Proof.
  intros pc pf add f r l r' H I. unfold generate_fragment in H.
  apply bind_ok in H as (t & r1 & H1 & H). apply bind_ok in H as (n & r2 & H2 & H). apply bind_ok in H as (u & r3 & H3 & H). apply bind_ok in H as (w & r4 & H4 & H).
  assert (r_iffrag r4 = r_iffrag r) as E.
  { transitivity (r_iffrag r3); [eapply (frame_iffrag st [KFty]); [cbn; intuition discriminate|eapply ev_ok; [|exact H4]; ev_go]|].
    transitivity (r_iffrag r2); [eapply (frame_iffrag st [KDoc]); [cbn; intuition discriminate|eapply ev_ok; [|exact H3]; ev_go]|].
    transitivity (r_iffrag r1); [eapply (frame_iffrag st [KFra]); [cbn; intuition discriminate|eapply ev_ok; [|exact H2]; ev_go]|].
    eapply (frame_iffrag st []); [cbn; intuition discriminate|eapply ev_ok; [|exact H1]; ev_go]. }
  assert (impls_named st r4) as I4 by (unfold impls_named; rewrite E; exact I).
  destruct t; try discriminate H.
  - assert (r_iffrag r' = r_iffrag r4) as E'; [|unfold impls_named; rewrite E'; exact I4]. eapply (frame_iffrag st Ksel); [cbn; intuition discriminate|eapply ev_ok; [apply ev_object_fragment|exact H]].
  - eapply interface_named; eassumption.
  - assert (r_iffrag r' = r_iffrag r4) as E'; [|unfold impls_named; rewrite E'; exact I4].
    eapply (frame_iffrag st [KImp; KBui; KFwd; KFty; KUff]); [cbn; intuition discriminate|eapply ev_ok; [|exact H]]. unfold union_fragment, union_fragment_item, union_inline, get_fragment_bases. ev_go.
Qed.
Lemma fragments_named : forall pc pf add d r l r', fragments_plugin c st s pc pf add d r = (Ok l, r') -> impls_named st r -> impls_named st r'.
Proof.
  intros pc pf add d r l r' H I. unfold fragments_plugin in H. apply bind_ok in H as (fs & r1 & H1 & H). unfold lift in H1. injection H1 as _ <-. apply mconcat_ok in H as (yss & H & _).
  eapply (mmap_inv _ (impls_named st) (fun _ _ => True)) in H as (H & _); [exact H|exact I|]. intros f ra y rb _ Ia Hf. split; [|exact Logic.I]. eapply fragment_named; eassumption.
Qed.
End Before.

(** ** The parts of a function *)
Lemma tot_bindp : forall r0 {A B} (m : M A) (k : A -> M B) (P : A -> Prop), tot r0 m -> (forall r a r', m r = (Ok a, r') -> P a) -> (forall a, P a -> tot r0 (k a)) -> tot r0 (bind m k).
Proof.
  intros r0 A B m k P Hm HP Hk r S. destruct (Hm r S) as (a & r1 & E & S1). destruct (Hk a (HP _ _ _ E) r1 S1) as (b & r2 & E2 & S2). exists b, r2. unfold bind. rewrite E. auto.
Qed.
Definition labelled (e : expr) : Prop := (exists n, e = EName n) \/ exists n, e = estr n.
Lemma scalar_name : forall n r e r', reference_scalar n r = (Ok e, r') -> exists m, e = EName m.
Proof. intros n r e r' H. unfold reference_scalar in H. apply bind_ok in H as (m & r1 & H1 & H). destruct (dget n m); [|discriminate]. apply bind_ok in H as (u & r2 & _ & H). apply ret_ok in H as [-> _]. eauto. Qed.
Lemma input_labelled : forall st n p b r e r', reference_inputtype st n p b r = (Ok e, r') -> labelled e.
Proof.
  intros st n p b r e r' H. unfold reference_inputtype in H. apply bind_ok in H as (m & r1 & H1 & H).
  assert (forall (z : string), (if b then add_forward p ;; ret (estr z) else raise NoInputTypeFoundC n) r1 = (Ok e, r') -> labelled e) as X.
  { intros z X. destruct b; [|discriminate]. apply bind_ok in X as (u & r2 & _ & X). apply ret_ok in X as [-> _]. right. eauto. }
  destruct (dget n m); [destruct (String.eqb _ _); [eauto|]|eauto]. apply ret_ok in H as [-> _]. left. eauto.
Qed.
Lemma enum_labelled : forall st n p b r e r', reference_enum st n p b r = (Ok e, r') -> labelled e.
Proof.
  intros st n p b r e r' H. unfold reference_enum in H. destruct (mem n built_in_keys).
  { apply bind_ok in H as (u & r1 & _ & H). apply bind_ok in H as (w & r2 & _ & H). apply ret_ok in H as [-> _]. right. eauto. }
  apply bind_ok in H as (m & r1 & H1 & H). destruct (_ || _); [destruct b; [|discriminate]; apply bind_ok in H as (u & r2 & _ & H); apply ret_ok in H as [-> _]; right; eauto|]. apply ret_ok in H as [-> _]. left. eauto.
Qed.
Lemma any_labelled : forall st n p r e r', reference_any_input st n p r = (Ok e, r') -> labelled e.
Proof.
  intros st n p r e r' H. unfold reference_any_input, try_except in H. destruct (reference_scalar n r) as [[x|x] r1] eqn:E; [injection H as <- _; left; eapply scalar_name; exact E|].
  destruct (is_cls _ x); [|discriminate]. clear E. destruct (reference_inputtype st n p false r1) as [[y|y] r2] eqn:E; [injection H as <- _; eapply input_labelled; exact E|].
  destruct (is_cls _ y); [|discriminate]. clear E. destruct (reference_enum st n p false r2) as [[z|z] r3] eqn:E; [injection H as <- _; eapply enum_labelled; exact E|].
  destruct (is_cls _ z); discriminate.
Qed.
Lemma tot_label_of : forall r0 e, labelled e -> tot r0 (label_of e).
Proof. intros r0 e [[n ->]|[n ->]]; apply tot_ret. Qed.

Lemma rfoldl_ok : forall {A S} (f : S -> A -> res S) l m, (forall x m, In x l -> exists m', f m x = Ok m') -> exists m', rfoldl f l m = Ok m'.
Proof. intros A S f l. induction l as [|x l IH]; intros m H; [eexists; reflexivity|]. cbn. destruct (H x m) as (m1 & ->); [now left|]. cbn. apply IH. intros y k Hy. apply H. now right. Qed.
Section Estimate.
Variable s : schema.
Lemma describe_quiet : forall root n args m, forallb (fun a => match snd a with VVar _ => false | _ => true end) args = true -> exists m', rfoldl (describe_arg s root n) args m = Ok m'.
Proof.
  intros root n args m H. apply rfoldl_ok. intros [k v] m' Hx. rewrite forallb_forall in H. specialize (H _ Hx). unfold describe_arg. cbn in *. destruct v; try discriminate; eexists; reflexivity.
Qed.
(** the two loops over sub-selections *)
Definition level2 (f : dict string -> fieldnode -> res (dict string)) : list selection -> dict string -> res (dict string) :=
  fix subs (l : list selection) (m : dict string) : res (dict string) :=
    match l with
    | [] => Ok m
    | SelField (FieldNode _ n' _ _ sels') :: r =>
        let? m' := if String.eqb n' "__typename" then Ok m
                   else match sels' with
                        | None => Ok m
                        | Some l' =>
                            (fix fields (l : list selection) (m : dict string) : res (dict string) :=
                               match l with
                               | [] => Ok m
                               | SelField g :: r' => let? m' := f m g in fields r' m'
                               | _ :: r' => fields r' m
                               end) l' m
                        end in
        subs r m'
    | _ :: r => subs r m
    end.
Lemma estimate_eq : forall root a n args ds sels m, estimate_field s root (FieldNode a n args ds sels) m =
  (let? m1 := rfoldl (describe_arg s root n) args m in match sels with None => Ok m1 | Some l => level2 (fun m g => estimate_field s None g m) l m1 end).
Proof. reflexivity. Qed.
Lemma level2_ok : forall f l m, (forall a n ar ds l' g m, In (SelField (FieldNode a n ar ds (Some l'))) l -> In (SelField g) l' -> exists m', f m g = Ok m') -> exists m', level2 f l m = Ok m'.
Proof.
  intros f. induction l as [|x l IH]; intros m H; [eexists; reflexivity|]. assert (forall m, exists m', level2 f l m = Ok m') as Rest by (intros k; apply IH; intros; eapply H; [right|]; eassumption).
  destruct x as [[a n ar ds sels]|k ds|k ds l1]; [|apply Rest|apply Rest]. cbn [level2].
  match goal with |- exists m', rbind ?b _ = _ => assert (exists m', b = Ok m') as (m1 & ->) end.
  { destruct (String.eqb n "__typename"); [eexists; reflexivity|]. destruct sels as [l'|]; [|eexists; reflexivity]. assert (forall g m, In (SelField g) l' -> exists m', f m g = Ok m') as Hg by (intros; eapply H; [now left|eassumption]). clear - Hg.
    revert m. induction l' as [|y l' IH]; intros m; [eexists; reflexivity|]. destruct y as [g| |]; [|apply IH; intros; apply Hg; now right|apply IH; intros; apply Hg; now right].
    destruct (Hg g m) as (m1 & ->); [now left|]. cbn. apply IH. intros; apply Hg; now right. }
  cbn. apply Rest.
Qed.
Lemma quiet_estimate : forall x f, x = SelField f ->
  (quiet true f = true -> forall m, exists m', estimate_field s None f m = Ok m')
  /\ (quiet false f = true -> forall a n ar ds l' g m, f = FieldNode a n ar ds (Some l') -> In (SelField g) l' -> exists m', estimate_field s None g m = Ok m').
Proof.
  intros x. induction x as [a n ar ds|a n ar ds l IH|n ds|k ds l IH] using sel_ind; intros f E; try discriminate; injection E as <-.
  - split; [|intros _ a' n' ar' ds' l' g m; discriminate]. intros H m. cbn in H. rewrite andb_true_r in H. rewrite estimate_eq. destruct (describe_quiet None n ar m H) as (m1 & ->). eexists; reflexivity.
  - rewrite Forall_forall in IH. split.
    + intros H m. cbn [quiet] in H. apply andb_true_iff in H as (H1 & H2). cbn in H1. rewrite forallb_forall in H2. rewrite estimate_eq. destruct (describe_quiet None n ar m H1) as (m1 & ->). cbn [rbind].
      apply level2_ok. intros a' n' ar' ds' l' g m' Hin Hg. specialize (IH _ Hin _ eq_refl). apply proj2 in IH. eapply IH; [|reflexivity|exact Hg]. specialize (H2 _ Hin). exact H2.
    + intros H a' n' ar' ds' l' g m E Hg. injection E as -> -> -> -> ->. cbn [quiet] in H. apply andb_true_iff in H as (_ & H). rewrite forallb_forall in H. apply (IH _ Hg _ eq_refl). specialize (H _ Hg). exact H.
Qed.
Lemma estimate_root : forall root f m, (exists fd, get_field_def s root (fn_name f) = Some fd) -> quiet_below f = true -> exists m', estimate_field s (Some root) f m = Ok m'.
Proof.
  intros root [a n ar ds sels] m (fd & G) H. rewrite estimate_eq. cbn in G. destruct (rfoldl_ok (describe_arg s (Some root) n) ar m) as (m1 & ->).
  { intros [k v] m' _. unfold describe_arg. cbn [snd]. destruct v; try (eexists; reflexivity). rewrite G. destruct (dget s0 (fd_args fd)) as [ad|]; [|eexists; reflexivity]. destruct (truthy (arg_desc ad)); eexists; reflexivity. }
  cbn [rbind]. destruct sels as [l|]; [|eexists; reflexivity]. apply level2_ok. intros a' n' ar' ds' l' g m' Hin Hg. unfold quiet_below, below_field in H. rewrite forallb_forall in H. specialize (H _ Hin).
  destruct (quiet_estimate _ _ (eq_refl (SelField (FieldNode a' n' ar' ds' (Some l'))))) as (_ & X). eapply X; [exact H|reflexivity|exact Hg].
Qed.
End Estimate.

Section Functions.
Variable c : gconfig. Variable st : list styler. Variable s : schema. Variable d : document. Variable pc : fcfg. Variable doc_of : operation -> option string.
Hypothesis V : valid_schema s.
Hypothesis VD : valid_document s d.
Hypothesis Str : is_scalar s "String" = true.
Variable ks ke ki : list string.
Hypothesis Kstr : In "String" ks.
Hypothesis Sc : scalars_known s ks.
Variable r0 : reg.
Hypothesis B : base ks ke ki r0.
Hypothesis Re : forall f, In f (fragments_of d) -> ready s d r0 (fr_name f).
Hypothesis In0 : impls_named st r0.
(** an enum class that can be named *)
Definition enum_ok (n : string) : Prop := In n ke /\ ~ In n built_in_keys /\ style_enum_class st n <> "" /\ style_enum_class st n <> "SHOULD_NOT_BE_USED".

Lemma scalar_registered : forall n, In n ks -> dmem n (r_scalars r0) = true. Proof. intros n H. now apply B. Qed.
Lemma tot_enum_class : forall n p, enum_ok n -> p = "" \/ p = "SHOULD_NOT_BE_USED" -> tot r0 (reference_enum st n p false).
Proof.
  intros n p (K & Nb & N1 & N2) Hp. unfold reference_enum. destruct (mem n built_in_keys) eqn:M; [apply mem_In in M; contradiction|].
  apply tot_gets. intros r S. assert (dmem n (r_enums r) = true) as ->. { apply dmem_In. pose proof S as (_ & -> & _). destruct B as (_ & -> & _). exact K. }
  destruct (String.eqb_spec p (style_enum_class st n)) as [E|]; [destruct Hp; congruence|]. apply tot_ret.
Qed.
Lemma enum_name : forall n p r e r', enum_ok n -> reference_enum st n p false r = (Ok e, r') -> exists m, e = EName m.
Proof.
  intros n p r e r' (_ & Nb & _) H. unfold reference_enum in H. destruct (mem n built_in_keys) eqn:M; [apply mem_In in M; contradiction|]. apply bind_ok in H as (m & r1 & _ & H).
  destruct (_ || _); [discriminate|]. apply ret_ok in H as [-> _]. eauto.
Qed.
Lemma tot_input_forward : forall n p, tot r0 (reference_inputtype st n p true).
Proof.
  intros n p. unfold reference_inputtype. apply tot_gets. intros r S. assert (tot r0 (add_forward p ;; ret (estr (style_inputtype_class st n)))) as F by (apply tot_bind; [apply tot_forward|intros; apply tot_ret]).
  destruct (dget n (r_inputs r)); [destruct (String.eqb _ _); [exact F|apply tot_ret]|exact F].
Qed.
Lemma tot_opt_wrap : forall b e, tot r0 (opt_wrap b e).
Proof. intros b e. unfold opt_wrap. apply tot_if; [|apply tot_ret]. apply tot_bind; [apply tot_import|]. intros; apply tot_ret. Qed.
Lemma tot_coercible : forall e t, tot r0 (coercible_input_union e t).
Proof. intros e t. unfold coercible_input_union. do 2 (apply tot_bind; [apply tot_import|intros]). apply tot_ret. Qed.
Lemma tot_unset : tot r0 (reference_unset c). Proof. apply tot_override. cbn. tauto. Qed.
Lemma tot_unset_type : tot r0 (reference_unset_type c). Proof. apply tot_override. cbn. tauto. Qed.
Lemma tot_unset_union : forall e, tot r0 (unset_union_annotation c e).
Proof. intros e. unfold unset_union_annotation. apply tot_bind; [apply tot_import|intros]. apply tot_bind; [apply tot_unset_type|intros]. apply tot_ret. Qed.

(** *** expanded input types *)
Definition field_ok (n : string) : Prop := input_type s n = true /\ (is_scalar s n = true -> In n ks) /\ (is_enum s n = true -> enum_ok n).
Lemma tot_input_annotation : forall t b, field_ok (gty_name t) -> tot r0 (generate_input_annotation st s pc t b).
Proof.
  induction t as [n|t IH|t IH]; intros b F; cbn [generate_input_annotation].
  - destruct F as (It & F1 & F2). unfold input_type, is_scalar, is_enum, is_input in *. cbn [gty_name] in *. destruct (get_type s n) as [[]|]; try discriminate It.
    + apply tot_bind; [|intros; apply tot_opt_wrap]. destruct (dget n (f_coercible_scalars pc)); [apply tot_bind; [apply tot_import|intros; apply tot_ret]|]. apply tot_scalar, scalar_registered. auto.
    + apply tot_bind; [apply tot_optimport|intros]. apply tot_bind; [apply tot_enum_class; auto|intros; apply tot_ret].
    + apply tot_bind; [apply tot_input_forward|intros]. apply tot_bind; [|intros; apply tot_opt_wrap]. destruct (dget n (f_coercible_inputs pc)); [apply tot_coercible|apply tot_ret].
  - apply tot_bind; [apply tot_import|intros]. apply tot_bind; [apply tot_optimport|intros]. apply tot_bind; [now apply IH|intros; apply tot_ret].
  - now apply IH.
Qed.
Lemma tot_input_description : forall t, field_ok (gty_name t) -> tot r0 (generate_input_description s t).
Proof.
  induction t as [n|t IH|t IH]; intros F; cbn [generate_input_description]; [|apply tot_bind; [now apply IH|intros; apply tot_ret]|apply tot_bind; [now apply IH|intros; apply tot_ret]].
  destruct F as (It & _). unfold input_type, is_scalar, is_enum, is_input in It. cbn [gty_name] in It. destruct (get_type s n) as [[]|]; try discriminate It; apply tot_ret.
Qed.
Lemma tot_descriptions : forall fs, (forall k fd, In (k, fd) fs -> field_ok (gty_name (if_type fd))) -> tot r0 (generate_input_type_descriptions st s fs).
Proof.
  intros fs H. unfold generate_input_type_descriptions. apply tot_bind; [|intros; apply tot_ret]. apply tot_mmap. intros [k fd] Hk. apply tot_bind; [|intros; apply tot_ret].
  apply tot_if; [apply tot_ret|]. apply tot_input_description. eapply H. exact Hk.
Qed.
Lemma tot_params : forall fs, (forall k fd, In (k, fd) fs -> field_ok (gty_name (if_type fd))) -> tot r0 (generate_input_type_params c st s pc fs).
Proof.
  intros fs H. unfold generate_input_type_params. apply tot_mfold. intros [k fd] acc Hk. cbn zeta. cbn [fst snd]. apply H in Hk. destruct (is_nonnull (if_type fd)).
  - apply tot_bind; [now apply tot_input_annotation|intros; apply tot_ret].
  - apply tot_bind; [now apply tot_input_annotation|intros]. apply tot_bind; [apply tot_unset_union|intros]. apply tot_bind; [apply tot_unset|intros; apply tot_ret].
Qed.

(** *** labels of results *)
Definition label_ok (ov : option string) (n : string) : Prop :=
  match get_type s n with
  | Some (TEnum _ _) => enum_ok n
  | Some (TScalar _) => In n ks
  | Some (TObject _ _ _ _) | Some (TInterface _ _ _) | Some (TUnion _ _) => exists o, ov = Some o /\ o <> ""
  | _ => False
  end.
Lemma tot_output_label : forall ov t b, label_ok ov (gty_name t) -> tot r0 (recurse_outputtype_label st s ov t b).
Proof.
  intros ov. induction t as [n|t IH|t IH]; intros b H; cbn [recurse_outputtype_label]; [|apply tot_bind; [now apply IH|intros; apply tot_ret]|now apply IH].
  cbn zeta. unfold label_ok in H. cbn [gty_name] in H. destruct (get_type s n) as [[]|]; try contradiction.
  - eapply tot_bindp; [apply tot_scalar, scalar_registered, H|apply scalar_name|]. intros e (m & ->). apply tot_bind; [apply tot_ret|intros; apply tot_ret].
  - eapply tot_bindp; [apply tot_enum_class; auto|intros r e r'; now apply enum_name|]. intros e (m & ->). apply tot_bind; [apply tot_ret|intros; apply tot_ret].
  - destruct H as (x & -> & N). destruct x; [congruence|]. apply tot_ret.
  - destruct H as (x & -> & N). destruct x; [congruence|]. apply tot_ret.
  - destruct H as (x & -> & N). destruct x; [congruence|]. apply tot_ret.
Qed.
Lemma tot_fragment_class : forall n t {A} (k : string -> M A), (exists f, the_fragment d n = Some f) -> style_fragment_class st n <> "" ->
  (forall g, the_fragment d n = Some g -> is_iface s (fr_on g) = true -> gty_name t = fr_on g \/ (is_object s (gty_name t) = true /\ overlap s (gty_name t) (fr_on g) = true)) ->
  (forall x, x <> "" -> tot r0 (k x)) -> tot r0 (bind (fragment_class_for st n t) k).
Proof.
  intros n t A k (f & F) N I Hk. assert (In f (fragments_of d) /\ fr_name f = n) as (Hf & En) by (now apply the_fragment_in in F). pose proof (Re f Hf) as (f' & F' & R1 & R2 & R3 & _). rewrite En in F', R1, R2, R3. rewrite F in F'. injection F' as <-.
  assert (tot r0 (bind (let* e := reference_fragment st n "" false in name_id e) k)) as Self.
  { intros r S. unfold bind at 1. unfold reference_fragment, reference_generic, bind, gets. destruct (fside_eq _ _ S) as (-> & _). rewrite R1. destruct (String.eqb_spec "" (style_fragment_class st n)); [congruence|]. cbn. apply Hk; [exact N|exact S]. }
  intros r S. destruct (fside_eq _ _ S) as (_ & _ & Ft & Fi & _). unfold fragment_class_for, get_interface_fragment_implementation_or_none. unfold bind at 1. unfold bind at 1. unfold bind at 1. unfold gets at 1. rewrite Fi. destruct (is_iface s (fr_on f)) eqn:If.
  - destruct R3 as (m & Em & Im). rewrite Em. destruct (dget (gty_name t) m) as [x|] eqn:Ex.
    + cbn. apply Hk; [|exact S]. rewrite (In0 _ _ _ _ Em Ex). now destruct (style_fragment_class st n).
    + destruct (I f F If) as [Et|(Ob & Ov)].
      * unfold bind at 1, gets at 1. rewrite Ft, R2, <- Et, String.eqb_refl. exact (Self r S).
      * exfalso. specialize (Im _ (possible_object _ _ _ Ob If Ov)). unfold dmem in Im. now rewrite Ex in Im.
  - rewrite R3. exact (Self r S).
Qed.

(** *** one operation *)
Section Operation.
Variable o : operation. Variable n root : string.
Hypothesis Ho : In o (operations_of d).
Hypothesis N : op_name o = Some n.
Hypothesis R : root_type s (op_kind o) = Some root.
Hypothesis Va : forallb (valid_sel s d root) (op_sels o) = true.
Hypothesis Fo : forall x, In x (op_sels o) -> exists f, x = SelField f.
Hypothesis Hq : forall f, In (SelField f) (op_sels o) -> quiet_below f = true.
Hypothesis Hd : forall v x, In v (op_vars o) -> v_default v = Some x -> texted x = true.
Hypothesis Hv : forall v, In v (op_vars o) -> var_ok st ks ke ki (gty_name (v_type v)).
Hypothesis He : forall v, In v (op_vars o) -> In (v_name v) (f_expand_input_types pc) -> exists m, (v_type v = GNonNull (GNamed m) \/ v_type v = GList (GNamed m)) /\ is_input s m = true.
Hypothesis Hx : forall v k t f fd, In v (op_vars o) -> In (v_name v) (f_expand_input_types pc) -> k = gty_name (v_type v) -> get_type s k = Some t -> In (f, fd) (inputs_of t) -> is_enum s (gty_name (if_type fd)) = true -> enum_ok (gty_name (if_type fd)).
Notation coll := (f_collapse_lonely pc && is_collapsable o).
Hypothesis Hr : coll = true -> forall f t, op_sels o = [SelField f] -> fn_name f <> "__typename" -> Spec_ValidDoc.field_type s root (fn_name f) = Some t -> result_ok s d f t /\ (is_enum s t = true -> enum_ok t).
Hypothesis Hc : op_class st (op_kind o) n <> "".
Hypothesis Hf : forall f m ds, coll = true -> op_sels o = [SelField f] -> besides_typename f = [SelSpread m ds] -> style_fragment_class st m <> "".

Lemma root_field : forall f, In (SelField f) (op_sels o) -> exists fd, get_field_def s root (fn_name f) = Some fd /\
  ((fn_name f = "__typename" /\ gty_name (fd_type fd) = "String" /\ fn_sels f = None)
   \/ (fn_name f <> "__typename" /\ Spec_ValidDoc.field_type s root (fn_name f) = Some (gty_name (fd_type fd)) /\ valid_node s d (gty_name (fd_type fd)) f = true /\ exists t, In (root, t) (s_types s) /\ In (fn_name f, fd) (fields_of t))).
Proof.
  intros f H. assert (valid_sel s d root (SelField f) = true) as Vf by (rewrite forallb_forall in Va; auto). destruct (String.eqb (fn_name f) "__typename") eqn:T.
  - unfold get_field_def. rewrite T. eexists. split; [reflexivity|]. left. apply String.eqb_eq in T as T'. split; [exact T'|]. split; [reflexivity|]. cbn [valid_sel] in Vf. rewrite T in Vf. now destruct (fn_sels f).
  - destruct (valid_has_field s d _ f Vf T) as (t & fd & Gt & Gf). exists fd. split; [eapply field_def_of; eassumption|]. right. cbn [valid_sel] in Vf. rewrite T in Vf.
    assert (Spec_ValidDoc.field_type s root (fn_name f) = Some (gty_name (fd_type fd))) as E by (unfold Spec_ValidDoc.field_type; rewrite Gt; cbn; now rewrite Gf). rewrite E in Vf. split; [now apply String.eqb_neq|]. split; [exact E|]. split; [exact Vf|].
    exists t. split; [unfold get_type in Gt; now apply dget_Some_In in Gt|now apply dget_Some_In in Gf].
Qed.
Lemma class_name_tot : tot r0 (get_operation_class_name st o).
Proof. unfold get_operation_class_name. rewrite N. apply tot_ret. Qed.
Lemma first_tot : coll = true -> tot r0 (first_field o).
Proof.
  intros H. apply andb_true_iff in H as (_ & H). unfold is_collapsable in H. unfold first_field. destruct (op_sels o) as [|x []] eqn:E; try discriminate. destruct (Fo x) as (f & ->); [now left|]. apply tot_ret.
Qed.
Lemma besides_eq : forall f, non_typename_fields f = besides_typename f.
Proof.
  intros [a m ar ds sels]. unfold non_typename_fields, besides_typename, below_field. cbn. destruct sels as [l|]; [|reflexivity]. unfold non_typename. apply filter_ext. intros [g| |]; reflexivity.
Qed.
Lemma return_string_tot : tot r0 (get_return_type_string st s o coll).
Proof.
  pose proof root_field as RF. pose proof tot_output_label as TL. pose proof tot_fragment_class as TF. unfold get_return_type_string. unfold get_operation_class_name. rewrite N. unfold root_of. rewrite R. cbn [from_opt]. intros r S. unfold bind at 1. unfold bind at 1. cbn [ret]. unfold bind at 1. cbn [ret]. revert r S. fold (op_class st (op_kind o) n).
  match goal with |- forall r, tsame r0 r -> exists a r', ?m r = _ /\ _ => change (tot r0 m) end.
  destruct coll eqn:Co; [|apply tot_ret]. apply andb_true_iff in Co as (_ & Co). unfold is_collapsable in Co. unfold first_field. destruct (op_sels o) as [|x []] eqn:E; try discriminate. destruct (Fo x) as (f & ->); [now left|].
  intros r S. unfold bind at 1. cbn [ret]. revert r S. match goal with |- forall r, tsame r0 r -> exists a r', ?m r = _ /\ _ => change (tot r0 m) end.
  destruct (RF f) as (fd & G & Ca); [now left|]. unfold Funcs.field_type. rewrite G. cbn [option_map]. eapply tot_some; [reflexivity|]. rewrite besides_eq.
  destruct Ca as [(T & Ts & Ns)|(Nt & Ft & Vn & t & Ht & Hfd)].
  - assert (besides_typename f = []) as ->. { destruct f as [a m ar ds sels]. cbn in Ns. subst sels. reflexivity. }
    apply TL. unfold label_ok. rewrite Ts. unfold is_scalar in Str. destruct (get_type s "String") as [[]|]; try discriminate. exact Kstr.
  - destruct (Hr eq_refl f _ eq_refl Nt Ft) as (Ro & Re'). unfold result_ok in Ro. pose proof (vs_out s V _ _ _ _ Ht Hfd) as Out.
    assert (forall ov, (is_leaf s (gty_name (fd_type fd)) = true \/ exists x, ov = Some x /\ x <> "") -> label_ok ov (gty_name (fd_type fd))) as L.
    { intros ov Hl. unfold label_ok. unfold is_leaf, output_type, is_scalar, is_enum, is_object, is_iface, is_union in *. assert (In (gty_name (fd_type fd)) (mentions t)) as Me by (apply in_app_iff; left; apply in_flat_map; eexists; split; [exact Hfd|now left]).
      specialize (Sc _ _ _ Ht Me). unfold is_scalar in Sc. destruct (get_type s (gty_name (fd_type fd))) as [[]|]; try discriminate Out; auto; destruct Hl as [Hl|Hl]; try discriminate Hl; exact Hl. }
    destruct (besides_typename f) as [|y ys] eqn:Eb; [apply TL, L; now left|].
    assert (forall x, x <> "" -> tot r0 (recurse_outputtype_label st s (Some x) (fd_type fd) true)) as T1 by (intros x Nx; apply TL, L; right; eauto).
    assert (tot r0 (recurse_outputtype_label st s (Some (op_class st (op_kind o) n +s+ py_capitalize (fn_name f))) (fd_type fd) true)) as T2 by (apply T1; now destruct (op_class st (op_kind o) n)).
    destruct y as [g|m ds|k ds l]; try exact T2. destruct ys; [|exact T2].
    assert (In (SelSpread m ds) (below_field f)) as Hb. { assert (In (SelSpread m ds) (besides_typename f)) as Hb by (rewrite Eb; now left). unfold besides_typename in Hb. now apply filter_In in Hb. }
    destruct f as [a fm ar fds sels]. cbn [below_field] in Hb. destruct sels as [l|]; [|destruct Hb]. cbn [valid_node] in Vn. rewrite !andb_true_iff, forallb_forall in Vn. destruct Vn as (_ & Vn). specialize (Vn _ Hb). cbn [valid_sel] in Vn.
    apply TF; [destruct (the_fragment d m); [eauto|discriminate]|eapply Hf; [reflexivity|reflexivity|exact Eb]| |exact T1].
    intros g F If. destruct (Ro g F If) as [Eq|Ob]; [now left|right]. rewrite F in Vn. auto.
Qed.
Lemma expanded : forall v {A} (k : list (string * inputfield) -> M A), In v (op_vars o) -> mem (v_name v) (f_expand_input_types pc) = true ->
  (forall fs, (forall x fd, In (x, fd) fs -> field_ok (gty_name (if_type fd))) -> tot r0 (k fs)) -> tot r0 (let* t := expanded_type s v in let* fs := Funcs.fields_of t in k fs).
Proof.
  intros v A k Hin M Hk. apply mem_In in M. destruct (He v Hin M) as (m & Et & Im). unfold is_input in Im. destruct (get_type s m) as [[| | | | |dd fs ds]|] eqn:G; try discriminate.
  assert (expanded_type s v = ret (TInput dd fs ds)) as ->. { unfold expanded_type. destruct Et as [->| ->]; rewrite G; reflexivity. }
  intros r S. unfold bind at 1. cbn [ret]. unfold bind at 1. cbn [Funcs.fields_of ret]. apply Hk; [|exact S]. intros x fd Hfd.
  assert (In (m, TInput dd fs ds) (s_types s)) as Hin2 by (unfold get_type in G; now apply dget_Some_In in G).
  split; [eapply (vs_in s V); [exact Hin2|exact Hfd]|]. split.
  - intros X. eapply Sc; [exact Hin2| |exact X]. apply in_app_iff. right. apply in_map_iff. exists (x, fd). split; [reflexivity|exact Hfd].
  - intros X. eapply (Hx v m); [exact Hin|exact M| |exact G|exact Hfd|exact X]. destruct Et as [->| ->]; reflexivity.
Qed.
Lemma label_tot : forall t b, var_ok st ks ke ki (gty_name t) -> tot r0 (recurse_type_label st None t b).
Proof.
  induction t as [m|t IH|t IH]; intros b H; cbn [recurse_type_label]; [|apply tot_bind; [now apply IH|intros; apply tot_ret]|now apply IH].
  eapply tot_bindp; [eapply tot_any_input; [exact B|exact H]|apply any_labelled|]. intros e He'. apply tot_bind; [now apply tot_label_of|intros; apply tot_ret].
Qed.
Lemma doc_tot : forall def, tot r0 (generate_query_doc st s pc doc_of def o coll).
Proof.
  intros def. unfold generate_query_doc. unfold root_of. eapply tot_some; [exact R|]. apply tot_bind; [apply class_name_tot|intros _]. apply tot_bind; [apply return_string_tot|intros rt]. cbn zeta.
  apply tot_bind.
  { assert (exists m, estimate_variable_name s o root = Ok m) as (m & ->); [|apply tot_ret]. unfold estimate_variable_name. apply rfoldl_ok. intros x m Hin. destruct (Fo x Hin) as (f & ->). apply estimate_root; [|now apply Hq].
    destruct (root_field f Hin) as (fd & G & _). eauto. }
  intros dm. apply tot_bind.
  { apply tot_if; [apply tot_ret|]. apply tot_bind; [|intros; apply tot_ret]. apply tot_mfold. intros x acc Hin. destruct (Fo x Hin) as (f & ->). destruct (root_field f Hin) as (fd & G & _). eapply tot_some; [exact G|]. apply tot_ret. }
  intros desc. apply tot_bind.
  { apply tot_mmap. intros v Hin. destruct (mem (v_name v) (f_expand_input_types pc)) eqn:M.
    - apply expanded; auto. intros fs Hfs. now apply tot_descriptions.
    - apply tot_if; [|apply tot_ret]. apply tot_bind; [apply label_tot; auto|intros; apply tot_ret]. }
  intros a. apply tot_bind; [|intros; apply tot_ret]. apply tot_mmap. intros v Hin. apply filter_In in Hin as (Hin & _). apply tot_bind; [apply label_tot; auto|intros l]. apply tot_bind; [|intros; apply tot_ret].
  destruct (v_default v) as [x|] eqn:Ed; [|apply tot_ret]. specialize (Hd v x Hin Ed). apply tot_bind; [|intros; apply tot_ret]. destruct x; try discriminate; apply tot_ret.
Qed.
Lemma new_dict_tot : forall k, tot r0 (new_dict k).
Proof. intros k. unfold new_dict, dict_str_any_annotation. apply tot_bind; [|intros; apply tot_ret]. do 2 (apply tot_bind; [apply tot_import|intros]). apply tot_ret. Qed.
Lemma guard_tot : forall b x y z, tot r0 (assign_or_guard c b x y z).
Proof. intros b x y z. unfold assign_or_guard, guarded_assign. apply tot_if; [apply tot_ret|]. apply tot_bind; [apply tot_unset|intros; apply tot_ret]. Qed.
Lemma assignments_tot : tot r0 (generate_variable_assignments c st s pc o).
Proof.
  unfold generate_variable_assignments. apply tot_bind; [apply new_dict_tot|intros h]. apply tot_bind; [|intros; apply tot_ret]. apply tot_mconcat. intros v Hin. unfold variable_assignment. destruct (mem (v_name v) (f_expand_input_types pc)) eqn:M.
  - apply expanded; auto. intros fs Hfs. apply tot_bind; [apply new_dict_tot|intros]. apply tot_bind; [|intros; apply tot_ret]. apply tot_mmap. intros kf _. apply guard_tot.
  - apply tot_bind; [apply guard_tot|intros; apply tot_ret].
Qed.
Lemma overwritten_tot : forall e t b, tot r0 (recurse_type_annotation st (Some e) t b).
Proof.
  intros e. induction t as [m|t IH|t IH]; intros b; cbn [recurse_type_annotation]; [apply tot_bind; [apply tot_ret|intros; apply tot_opt_wrap]| |apply IH].
  destruct b; repeat (apply tot_bind; [first [apply tot_import|apply IH]|intros]); apply tot_ret.
Qed.
Lemma variable_annotation_tot : forall t, var_ok st ks ke ki (gty_name t) -> tot r0 (generate_variable_annotation st pc t).
Proof.
  intros t H. unfold generate_variable_annotation. cbn zeta. apply tot_if; [apply tot_bind; [apply tot_import|intros; apply overwritten_tot]|]. apply tot_if.
  - apply tot_bind; [apply tot_input_forward|intros]. apply tot_bind; [apply tot_coercible|intros; apply overwritten_tot].
  - eapply tot_variable_type; [exact B|exact H].
Qed.
Lemma parameters_tot : forall def, tot r0 (generate_parameters c st s pc def o).
Proof.
  intros def. unfold generate_parameters. cbn zeta. apply tot_bind; [apply tot_mmap; intros; apply tot_bind; [apply tot_import|intros; apply tot_ret]|intros e]. apply tot_bind.
  { apply tot_mfold. intros v acc Hin. apply filter_In in Hin as (Hin & _). destruct (mem (v_name v) (f_expand_input_types pc)) eqn:M; [|apply tot_ret]. apply expanded; auto. intros fs Hfs. apply tot_bind; [now apply tot_params|intros; apply tot_ret]. }
  intros ex. apply tot_bind. { apply tot_mmap. intros v Hin. apply filter_In in Hin as (Hin & _). apply filter_In in Hin as (Hin & _). apply tot_bind; [apply variable_annotation_tot; auto|intros; apply tot_ret]. }
  intros pl. apply tot_bind.
  { apply tot_mmap. intros v Hin. apply filter_In in Hin as (Hin & _). apply tot_bind; [apply variable_annotation_tot; auto|intros]. apply tot_bind; [apply tot_unset_union|intros]. apply tot_bind; [apply tot_unset|intros; apply tot_ret]. }
  intros op. apply tot_bind; [|intros; apply tot_ret]. apply tot_mmap. intros k _. apply tot_bind; [apply tot_import|intros; apply tot_ret].
Qed.
Lemma call_tot : forall def, tot r0 (call_stmt st pc def o coll).
Proof.
  intros def. unfold call_stmt. apply tot_bind. { unfold proxy_call. apply tot_bind; [apply tot_import|intros]. apply tot_bind; [apply class_name_tot|intros; apply tot_ret]. }
  intros call. assert (forall e, tot r0 (collapsed_attr st o coll e)) as T. { intros e. pose proof first_tot as FT. unfold collapsed_attr. destruct coll; [|apply tot_ret]. apply tot_bind; [exact (FT eq_refl)|intros; apply tot_ret]. }
  destruct (d_kind def); (apply tot_bind; [apply T|intros; apply tot_ret]).
Qed.
Lemma function_total : forall cs def, recorded_result st cs r0 o -> forall r, tsame r0 r -> r_single r = r_single r0 -> exists f r', generate_operation_func c st s pc doc_of o def r = (Ok f, r') /\ tsame r0 r'.
Proof.
  intros cs def (n' & N' & b & body & _ & Hs) r S Si. rewrite N in N'. injection N' as <-.
  assert (exists e, get_return_type_annotation st s o coll r = (Ok e, r)) as (e & E).
  { unfold get_return_type_annotation, get_operation_class_name, root_of. rewrite N, R. unfold bind at 1. unfold bind at 1. cbn [from_opt ret]. unfold bind at 1. cbn [ret].
    destruct coll eqn:Co; [|eexists; reflexivity]. apply andb_true_iff in Co as (_ & Co). unfold is_collapsable in Co. destruct (op_sels o) as [|x []] eqn:Es; try discriminate.
    destruct (Hs x eq_refl) as (f & a & v & -> & _ & Sg). unfold bind, get_operation_single_or_none, gets. cbn [opt_str]. rewrite Si, Sg. eexists; reflexivity. }
  unfold generate_operation_func. cbn zeta. unfold bind at 1. rewrite E.
  match goal with |- exists f r', ?m r = _ /\ _ => assert (tot r0 m) as T; [|destruct (T r S) as (f & r' & Ef & S'); eauto] end.
  apply tot_bind; [apply doc_tot|intros]. apply tot_bind; [apply assignments_tot|intros]. apply tot_bind; [destruct (op_kind o); [apply tot_ret|apply tot_ret|apply tot_import]|intros].
  apply tot_bind; [unfold func_name; rewrite N; apply tot_bind; [apply tot_ret|intros; apply tot_ret]|intros]. apply tot_bind; [apply parameters_tot|intros]. apply tot_bind; [apply call_tot|intros; apply tot_ret].
Qed.
End Operation.
End Functions.
