(** Names looked up by generated functions. *)
From Verif Require Import Base PyAst Gql Config Stylers Registry Utils Referencer Documents Enums Inputs Recurse Inline Fragments Operations Funcs Run
  Spec_Types Spec_Inputs Spec_Refs Spec_Docs Spec_Imports Spec_Scope Spec_Scope2 Spec_Mro Spec_Valid Spec_ValidDoc Spec_Return
  P_Base P_Gql P_Monad P_Types P_Inputs P_Inputs2 P_Inputs3 P_Imports P_Enums P_InputProps P_Topo P_Recurse P_InlineProps P_Modelled P_Modelled2 P_Refs
  P_Indep P_Funcs P_Funcs2 P_Return P_Total7 P_Scope P_Scope2 P_Scope3 P_Scope4 P_Scope5 P_Scope6 P_Scope7 P_Scope8 P_Scope9.
From Coq Require Import Permutation.
Arguments register_import : simpl never.
Arguments add_forward : simpl never.
Arguments register_builtin : simpl never.

Lemma scoped_runs : forall l (E : string -> Prop) x n, scoped E l -> In x l -> In n (runs x) -> E n \/ In n (binds l).
Proof.
  induction l as [|y l IH]; intros E x n H Hx Hn; [destruct Hx|]. destruct H as (H1 & H2). destruct Hx as [->|Hx]; [left; auto|].
  unfold binds. cbn [flat_map]. rewrite in_app_iff. destruct (IH _ _ _ H2 Hx Hn) as [[Y|Y]|Y]; auto.
Qed.

Section Fun.
Variables (st : list styler) (bi : list string).
Hypothesis Hbi : incl simple_types bi.
Variables (c : gconfig) (s : schema) (sc : dict string).
Hypothesis Hsc : forall n t, dget n sc = Some t -> has_dot t = false -> In t bi.
Variables (d : document) (X : string -> Prop) (E0 : dict string) (tree : list stmt) (done : list string).
Variable pc : fcfg.
(** the input types with a class *)
Variable I0 : dict string.
Notation adv := (adv st (Tt X tree)).
Notation cov := (cov bi (Tt X tree)).
Notation rok := (rok st s sc (Tt X tree) (okE E0) (okU s d) (fun f => In f done)).
Definition rk (r : reg) : Prop := rok r /\ r_inputs r = I0.
Lemma rk_adv : forall r r', adv r r' -> rk r -> rk r'.
Proof.
  intros r r' A (H1 & H2). split; [eapply rok_adv; eassumption|]. rewrite <- H2. eapply frame_inputs; [|exact (adv_ev _ _ _ _ A)]. cbn. intuition discriminate.
Qed.

(** [Y pre names m]: [m] needs the names [pre] to be bound and yields a result with bound names *)
Definition Y {A} (pre : list string) (names : A -> list string) (m : M A) : Prop :=
  forall r a r', rk r -> cov r [] pre -> m r = (Ok a, r') -> adv r r' /\ cov r' [] (names a).
Lemma cov_incl : forall r l l', incl l l' -> cov r [] l' -> cov r [] l.
Proof. intros r l l' I H n Hn. apply H, I, Hn. Qed.
Lemma Y_ret : forall {A} pre (f : A -> list string) a, incl (f a) pre -> Y pre f (ret a).
Proof. intros A pre f a I r x r' HR HC H. apply ret_ok in H as [-> ->]. split; [apply adv_refl|]. eapply cov_incl; eassumption. Qed.
Lemma Y_raise : forall {A} pre (f : A -> list string) k m, Y pre f (raise k m).
Proof. intros A pre f k m r x r' HR HC H. discriminate. Qed.
Lemma Y_bind : forall {A B} pre (f : A -> list string) (g : B -> list string) m k, Y pre f m -> (forall a, Y (pre ++ f a) g (k a)) -> Y pre g (bind m k).
Proof.
  intros A B pre f g m k H1 H2 r b r' HR HC H. apply bind_ok in H as (a & r1 & Ha & H). destruct (H1 _ _ _ HR HC Ha) as (A1 & C1).
  destruct (H2 a r1 b r') as (A2 & C2); [eapply rk_adv; eassumption|apply cov_app; [eapply cov_adv; eassumption|exact C1]|exact H|]. split; [eapply adv_trans; eassumption|exact C2].
Qed.
Lemma Y_pre : forall {A} pre pre' (f : A -> list string) m, incl pre' pre -> Y pre' f m -> Y pre f m.
Proof. intros A pre pre' f m I H r a r' HR HC E. apply (H r a r' HR); [eapply cov_incl; eassumption|exact E]. Qed.
Lemma Y_post : forall {A} pre (f g : A -> list string) m, (forall a, incl (g a) (f a)) -> Y pre f m -> Y pre g m.
Proof. intros A pre f g m I H r a r' HR HC E. destruct (H r a r' HR HC E) as (A1 & C1). split; [exact A1|]. eapply cov_incl; [apply I|exact C1]. Qed.
Definition nothing {A} (_ : A) : list string := [].
Lemma Y_gets : forall {A} pre (f : reg -> A), Y pre nothing (gets f).
Proof. intros A pre f r a r' HR HC H. apply gets_ok in H as [-> ->]. split; [apply adv_refl|apply cov_nil]. Qed.
Lemma Y_from_opt : forall {A} pre (o : option A) k m, Y pre nothing (from_opt o k m).
Proof. intros A pre o k m r a r' HR HC H. apply from_opt_ok in H as [_ ->]. split; [apply adv_refl|apply cov_nil]. Qed.
Lemma Y_lift : forall {A} pre (x : res A), Y pre nothing (lift x).
Proof. intros A pre x r a r' HR HC H. apply lift_ok in H as [_ ->]. split; [apply adv_refl|apply cov_nil]. Qed.
Lemma Y_import : forall pre n, Y pre (fun _ => [last_comp n]) (register_import n).
Proof. intros pre n r a r' HR HC H. apply (import_adv st bi Hbi (Tt X tree)) in H as (A1 & G1). split; [exact A1|]. apply cov_cons; [now left|apply cov_nil]. Qed.
Lemma Y_mmap : forall {A B} pre (g : B -> list string) (f : A -> M B) l, (forall x, In x l -> Y pre g (f x)) -> Y pre (flat_map g) (mmap f l).
Proof.
  intros A B pre g f l. induction l as [|x l IH]; intros H; [apply Y_ret; intros n []|]. cbn [mmap].
  eapply Y_bind; [apply H; now left|]. intros b. eapply Y_bind; [eapply Y_pre; [apply incl_appl, incl_refl|apply IH; intros y Hy; apply H; now right]|].
  intros bs. apply Y_ret. cbn [flat_map]. intros n Hn. apply in_app_or in Hn. rewrite !in_app_iff. tauto.
Qed.
Lemma Y_mfold : forall {A B} pre (g : B -> list string) (f : B -> A -> M B) l b, (forall b x, In x l -> Y (pre ++ g b) g (f b x)) -> Y (pre ++ g b) g (mfold f l b).
Proof.
  intros A B pre g f l. induction l as [|x l IH]; intros b H; [apply Y_ret, incl_appr, incl_refl|]. cbn [mfold].
  eapply Y_bind; [apply H; now left|]. intros b'. eapply Y_pre; [|apply IH; intros b0 y Hy; apply H; now right]. intros n. rewrite !in_app_iff. tauto.
Qed.
Lemma Y_mconcat : forall {A B} pre (g : B -> list string) (f : A -> M (list B)) l, (forall x, In x l -> Y pre (flat_map g) (f x)) -> Y pre (flat_map g) (mconcat f l).
Proof.
  intros A B pre g f l H r a r' HR HC E. apply mconcat_ok in E as (yss & E & ->). destruct (Y_mmap pre (flat_map g) f l H r yss r' HR HC E) as (A1 & C1). split; [exact A1|].
  intros n Hn. apply C1. apply in_flat_map in Hn as (y & Hy & Hn). apply in_concat in Hy as (ys & Hys & Hy). apply in_flat_map. exists ys. split; [exact Hys|]. apply in_flat_map. eauto.
Qed.
Lemma Y_override : forall pre o k n, (exists l, built_in k = Some l /\ In n (binds l)) -> Y pre loads (reference_override o k n).
Proof.
  intros pre o k n HB r e r' HR HC H. assert (V : evolve st [KImp; KBui] r r') by (eapply ev_ok; [apply ev_reference_override|exact H]).
  split; [eapply quiet_adv; [apply ev_reference_override|exact H]|]. 
  eapply covers_cov; [apply rk_adv with r; [eapply quiet_adv; [apply ev_reference_override|exact H]|exact HR]|]. eapply override_scope; eassumption.
  Unshelve. exact "".
Qed.
Lemma Y_any : forall pre n, mem n built_in_keys = false -> Y pre loads (reference_any_input st n "").
Proof. intros pre n HB r e r' HR HC H. eapply any_input_adv; [exact Hbi|exact Hsc|exact HB|exact (proj1 HR)|exact H]. Qed.
Lemma Y_scalar : forall pre n, Y pre loads (reference_scalar n).
Proof. intros pre n r e r' HR HC H. eapply scalar_adv; [exact Hbi|exact Hsc|exact (proj1 HR)|exact H]. Qed.
Lemma Y_input : forall pre n p, dmem n I0 = true -> style_inputtype_class st n <> p -> Y pre loads (reference_inputtype st n p true).
Proof.
  intros pre n p HI HN r e r' HR HC H. unfold reference_inputtype in H. cbn zeta in H. apply bind_ok in H as (m & r1 & H1 & H). apply gets_ok in H1 as [-> ->]. rewrite (proj2 HR) in H. unfold dmem in HI. destruct (dget n I0) as [k|] eqn:EK; [|discriminate].
  destruct (String.eqb_spec p (style_inputtype_class st n)) as [->|_]; [contradiction|]. apply ret_ok in H as [-> ->]. split; [apply adv_refl|]. apply cov_cons; [|apply cov_nil].
  right. apply (ok_reg _ _ _ _ _ _ _ _ (proj1 HR)). left. exists n. now rewrite (proj2 HR).
Qed.
Lemma Y_enum : forall pre n p, mem n built_in_keys = false -> Y pre loads (reference_enum st n p false).
Proof.
  intros pre n p HB r e r' HR HC H. unfold reference_enum in H. rewrite HB in H. cbn zeta in H. apply bind_ok in H as (m & r1 & H1 & H). apply gets_ok in H1 as [-> ->].
  destruct (negb (dmem n (r_enums r))) eqn:D; [discriminate|]. cbn [orb] in H. destruct (String.eqb p (style_enum_class st n)); [discriminate|]. apply ret_ok in H as [-> ->]. split; [apply adv_refl|].
  apply cov_cons; [|apply cov_nil]. right. apply (ok_reg _ _ _ _ _ _ _ _ (proj1 HR)). right. exists n. apply negb_false_iff in D. unfold dmem in D.
  destruct (dget n (r_enums r)) as [k|] eqn:EK; [|discriminate]. f_equal. destruct (ok_styled _ _ _ _ _ _ _ _ (proj1 HR)) as (_ & HN & _). now apply HN.
Qed.

Lemma Y_opt_wrap : forall pre b e, incl (loads e) pre -> Y pre loads (opt_wrap b e).
Proof.
  intros pre b e I. unfold opt_wrap. destruct b; [|now apply Y_ret]. eapply Y_bind; [apply Y_import|]. intros u. apply Y_ret. cbn. intros n [<-|Hn]; apply in_or_app; [right; now left|left; auto].
Qed.
Ltac sub := let n := fresh "n" in intros n; repeat match goal with I : incl _ _ |- _ => specialize (I n) end; repeat (cbn in *; rewrite ?in_app_iff in * ); tauto.
Lemma Y_union : forall pre e n, incl (loads e) pre -> Y pre loads (coercible_input_union e n).
Proof.
  intros pre e n I. unfold coercible_input_union. eapply Y_bind; [apply Y_import|]. intros u. eapply Y_bind; [apply Y_import|]. intros u'. apply Y_ret.
  unfold nothing. sub.
Qed.
Lemma Y_annotation_none : forall pre t b, mem (gty_name t) built_in_keys = false -> Y pre loads (recurse_type_annotation st None t b).
Proof. intros pre t b HB r e r' HR HC H. eapply annotation_adv; [exact Hbi|exact Hsc|exact HB|exact (proj1 HR)|exact H]. Qed.
Lemma Y_annotation_some : forall e t pre b, incl (loads e) pre -> Y pre loads (recurse_type_annotation st (Some e) t b).
Proof.
  intros e. induction t as [n|t IH|t IH]; intros pre b I; cbn [recurse_type_annotation].
  - eapply Y_bind; [apply (Y_ret pre loads e I)|]. intros a. apply Y_opt_wrap. sub.
  - destruct b.
    + eapply Y_bind; [apply Y_import|]. intros u. eapply Y_bind; [apply Y_import|]. intros u'. eapply Y_bind; [apply IH; sub|].
      intros a. apply Y_ret. sub.
    + eapply Y_bind; [apply Y_import|]. intros u. eapply Y_bind; [apply IH; sub|]. intros a. apply Y_ret. sub.
  - now apply IH.
Qed.
(** annotations of the fields of an expanded variable *)
Definition field_ok (t : gty) : Prop :=
  (Spec_Refs.is_input s (gty_name t) -> dmem (gty_name t) I0 = true /\ style_inputtype_class st (gty_name t) <> "SHOULD_NOT_BE_USED")
  /\ (Spec_Refs.is_enum s (gty_name t) -> mem (gty_name t) built_in_keys = false).
Lemma Y_input_annotation : forall t pre b, field_ok t -> Y pre loads (generate_input_annotation st s pc t b).
Proof.
  induction t as [n|t IH|t IH]; intros pre b HF; cbn [generate_input_annotation].
  - destruct (get_type s n) as [[]|] eqn:E; try apply Y_raise.
    + eapply Y_bind with (f := loads); [|intros a; apply Y_opt_wrap; sub]. destruct (dget n (f_coercible_scalars pc)) as [x|]; [|apply Y_scalar].
      eapply Y_bind; [apply Y_import|]. intros u. apply Y_ret. sub.
    + destruct HF as (_ & HE). cbn [gty_name] in HE. assert (mem n built_in_keys = false) as HB by (apply HE; do 2 eexists; exact E). destruct b.
      * eapply Y_bind; [apply Y_import|]. intros u. eapply Y_bind; [apply Y_enum; exact HB|]. intros a. apply Y_ret. sub.
      * eapply Y_bind; [apply (Y_ret _ nothing); sub|]. intros u. eapply Y_bind; [apply Y_enum; exact HB|]. intros a. apply Y_ret. sub.
    + destruct HF as (HI & _). cbn [gty_name] in HI. destruct HI as (H1 & H2); [do 3 eexists; exact E|]. eapply Y_bind; [apply Y_input; assumption|]. intros a.
      eapply Y_bind with (f := loads); [|intros a'; apply Y_opt_wrap; sub]. destruct (dget n (f_coercible_inputs pc)); [apply Y_union; sub|apply Y_ret; sub].
  - eapply Y_bind; [apply Y_import|]. intros u. destruct b.
    + eapply Y_bind; [apply Y_import|]. intros u'. eapply Y_bind; [apply IH; exact HF|]. intros a. apply Y_ret. sub.
    + eapply Y_bind; [apply (Y_ret _ nothing); sub|]. intros u'. eapply Y_bind; [apply IH; exact HF|]. intros a. apply Y_ret. sub.
  - now apply IH.
Qed.

Definition anns (l : list pyarg) : list string := flat_map (fun p => opt_loads (pa_ann p)) l.
Definition ploads (p : params) : list string := anns (p_pos p) ++ anns (p_kw p) ++ flat_map loads (p_def p).
Lemma ploads_papp : forall a b n, In n (ploads (papp a b)) <-> In n (ploads a) \/ In n (ploads b).
Proof. intros [a1 a2 a3] [b1 b2 b3] n. unfold ploads, anns. cbn. rewrite !flat_map_app, !in_app_iff. tauto. Qed.
Lemma Y_unset : forall pre, Y pre loads (reference_unset c).
Proof. intros pre. apply Y_override. eexists. split; [reflexivity|]. cbn. tauto. Qed.
Lemma Y_unset_union : forall pre e, incl (loads e) pre -> Y pre loads (unset_union_annotation c e).
Proof.
  intros pre e I. unfold unset_union_annotation. eapply Y_bind; [apply Y_import|]. intros u.
  eapply Y_bind; [apply Y_override; eexists; split; [reflexivity|]; cbn; tauto|]. intros a. apply Y_ret. sub.
Qed.
Lemma Y_type_params : forall pre fields, (forall k f, In (k, f) fields -> field_ok (if_type f)) -> Y pre ploads (generate_input_type_params c st s pc fields).
Proof.
  intros pre fields HF. unfold generate_input_type_params. eapply (Y_pre _ (pre ++ ploads pnil)); [cbn; rewrite app_nil_r; apply incl_refl|]. apply Y_mfold. intros b [k f] Hf. cbn [fst snd].
  destruct (is_nonnull (if_type f)).
  - eapply Y_bind; [apply Y_input_annotation; eapply HF; exact Hf|]. intros a. apply Y_ret. intros n Hn. apply ploads_papp in Hn. rewrite !in_app_iff. destruct Hn as [Hn|Hn]; [tauto|]. repeat (cbn in Hn; rewrite ?in_app_iff in Hn). tauto.
  - eapply Y_bind; [apply Y_input_annotation; eapply HF; exact Hf|]. intros a. eapply Y_bind; [apply Y_unset_union; sub|]. intros a'. eapply Y_bind; [apply Y_unset|]. intros a2. apply Y_ret.
    intros n Hn. apply ploads_papp in Hn. rewrite !in_app_iff. destruct Hn as [Hn|Hn]; [tauto|]. repeat (cbn in Hn; rewrite ?in_app_iff in Hn). cbn. rewrite ?in_app_iff. tauto.
Qed.

Section Op.
Variable o : operation.
Variable def : fdef.
Hypothesis HV : forall v, In v (op_vars o) -> mem (gty_name (v_type v)) built_in_keys = false.
Hypothesis HCo : forall v, In v (op_vars o) -> truthy (dget (gty_name (v_type v)) (f_coercible_inputs pc)) = true ->
  dmem (gty_name (v_type v)) I0 = true /\ style_inputtype_class st (gty_name (v_type v)) <> "SHOULD_NOT_BE_USED".
Hypothesis HEx : forall v n dd fs ds k f, In v (op_vars o) -> In (v_name v) (f_expand_input_types pc) -> v_type v = GNonNull (GNamed n) \/ v_type v = GList (GNamed n) ->
  get_type s n = Some (TInput dd fs ds) -> In (k, f) fs -> field_ok (if_type f).
Hypothesis HK : forall k, In k (extra_kwargs pc def) -> fk_default k <> CNone.
Lemma Y_variable : forall pre v, In v (op_vars o) -> Y pre loads (generate_variable_annotation st pc (v_type v)).
Proof.
  intros pre v Hv. unfold generate_variable_annotation. destruct (truthy (dget _ (f_coercible_scalars pc))).
  - eapply Y_bind; [apply Y_import|]. intros u. apply Y_annotation_some. sub.
  - destruct (truthy (dget _ (f_coercible_inputs pc))) eqn:E; [|apply Y_annotation_none; auto].
    destruct (HCo v Hv E) as (H1 & H2). eapply Y_bind; [apply Y_input; assumption|]. intros a. eapply Y_bind; [apply Y_union; sub|]. intros a'. apply Y_annotation_some. sub.
Qed.
Lemma Y_expanded : forall pre v (k : list (string * inputfield) -> M params) acc, In v (op_vars o) -> In (v_name v) (f_expand_input_types pc) ->
  (forall fs, (forall k f, In (k, f) fs -> field_ok (if_type f)) -> Y pre acc (k fs)) -> Y pre acc (let* t := expanded_type s v in let* fields := Funcs.fields_of t in k fields).
Proof.
  intros pre v k acc Hv HX HY r a r' HR HC H. apply bind_ok in H as (t & r1 & H1 & H). apply bind_ok in H as (fs & r2 & H2 & H).
  unfold expanded_type in H1. unfold Funcs.fields_of in H2. destruct t as [| | | | |dd ff di]; try discriminate H2. apply ret_ok in H2 as [-> ->].
  assert (exists n, (v_type v = GNonNull (GNamed n) \/ v_type v = GList (GNamed n)) /\ r1 = r /\ get_type s n = Some (TInput dd ff di)) as (n & HT & -> & HG).
  { destruct (v_type v) as [n|[n|x|x]|[n|x|x]]; try discriminate H1; apply from_opt_ok in H1 as [H1 ->]; eauto. }
  eapply HY; [|exact HR|exact HC|exact H]. intros k' f Hf. eapply HEx; eassumption.
Qed.
Lemma Y_parameters : forall pre, Y pre args_loads (generate_parameters c st s pc def o).
Proof.
  intros pre. unfold generate_parameters. cbn zeta.
  eapply Y_bind with (f := anns).
  { apply Y_mmap. intros a _. eapply Y_bind; [apply Y_import|]. intros u. apply Y_ret. sub. }
  intros extra. eapply Y_bind with (f := ploads).
  { eapply (Y_pre _ ((pre ++ anns extra) ++ ploads pnil)); [cbn; rewrite app_nil_r; apply incl_refl|]. apply Y_mfold. intros acc v Hv. apply filter_In in Hv as (Hv & _).
    destruct (mem (v_name v) (f_expand_input_types pc)) eqn:E; [|apply Y_ret; sub]. apply mem_In in E. apply (Y_expanded _ v (fun fields => let* p := generate_input_type_params c st s pc fields in ret (papp acc p))); [exact Hv|exact E|].
    intros fs HF. eapply Y_bind; [apply Y_type_params; exact HF|]. intros p. apply Y_ret. intros n Hn. apply ploads_papp in Hn. rewrite !in_app_iff. tauto. }
  intros expanded. eapply Y_bind with (f := anns).
  { apply Y_mmap. intros v Hv. apply filter_In in Hv as (Hv & _). apply filter_In in Hv as (Hv & _). eapply Y_bind; [apply Y_variable; exact Hv|]. intros a. apply Y_ret. sub. }
  intros plain. eapply Y_bind with (f := flat_map (fun x => opt_loads (pa_ann (fst x)) ++ loads (snd x))).
  { apply Y_mmap. intros v Hv. apply filter_In in Hv as (Hv & _). eapply Y_bind; [apply Y_variable; exact Hv|]. intros a. eapply Y_bind; [apply Y_unset_union; sub|]. intros u. eapply Y_bind; [apply Y_unset|].
    intros dv. apply Y_ret. sub. }
  intros opts. eapply Y_bind with (f := flat_map (fun x => opt_loads (pa_ann (fst x)) ++ loads (snd x))).
  { apply Y_mmap. intros k Hk. eapply Y_bind; [apply Y_import|]. intros u. apply Y_ret. pose proof (HK k Hk) as HN. destruct (fk_default k); try congruence; sub. }
  intros kws. apply Y_ret. assert (S : forall (l : list (pyarg * expr)) n, In n (anns (map fst l)) \/ In n (flat_map loads (map snd l)) -> In n (flat_map (fun x => opt_loads (pa_ann (fst x)) ++ loads (snd x)) l)).
  { intros l n H. apply in_flat_map. destruct H as [H|H]; apply in_flat_map in H as (x & Hx & Hn); apply in_map_iff in Hx as (y & <- & Hy); exists y; (split; [exact Hy|]); apply in_or_app; tauto. }
  unfold args_loads, ploads. cbn [a_args a_defaults]. fold anns. intros n. change (flat_map (fun p => opt_loads (pa_ann p))) with anns. unfold anns at 1. rewrite !flat_map_app. fold anns.
  pose proof (S opts n). pose proof (S kws n). unfold anns in *. rewrite !in_app_iff. tauto.
Qed.

(** ** docstrings and bodies: what they refer to is not looked up when the module is run *)
Lemma Y_none : forall {A} pre (f : A -> list string) m, Y pre f m -> Y pre nothing m.
Proof. intros A pre f m H. eapply Y_post; [|exact H]. intros a n []. Qed.
Lemma nothing_flat : forall {A} (l : list A), flat_map nothing l = [].
Proof. induction l; [reflexivity|exact IHl]. Qed.
Lemma Y_nothing_mmap : forall {A B} pre (f : A -> M B) l, (forall x, In x l -> Y pre nothing (f x)) -> Y pre nothing (mmap f l).
Proof. intros A B pre f l H. eapply Y_post; [|apply Y_mmap; exact H]. intros a n []. Qed.
Lemma Y_nothing_mfold : forall {A B} pre (f : B -> A -> M B) l b, (forall b x, In x l -> Y pre nothing (f b x)) -> Y pre nothing (mfold f l b).
Proof.
  intros A B pre f l b H. eapply (Y_pre _ (pre ++ nothing b)); [unfold nothing; rewrite app_nil_r; apply incl_refl|]. apply (Y_mfold pre nothing). intros b0 x Hx. unfold nothing at 1. rewrite app_nil_r. auto.
Qed.
Lemma Y_next : forall {A B} pre (f : A -> list string) m (k : A -> M B), Y pre f m -> (forall a, Y pre nothing (k a)) -> Y pre nothing (bind m k).
Proof. intros A B pre f m k H1 H2. eapply Y_bind; [exact H1|]. intros a. eapply Y_pre; [|apply H2]. apply incl_appl, incl_refl. Qed.
Lemma Y_done : forall {A} pre (a : A), Y pre nothing (ret a).
Proof. intros. apply Y_ret. intros n []. Qed.
Lemma Y_label_of : forall pre e, Y pre nothing (label_of e).
Proof. intros pre e. destruct e as [|[]| | | | | | | | | |]; try apply Y_raise; apply Y_done. Qed.
Lemma Y_name_id : forall pre e, Y pre nothing (name_id e).
Proof. intros pre e. destruct e; try apply Y_raise; apply Y_done. Qed.
Lemma Y_type_label : forall pre t b, mem (gty_name t) built_in_keys = false -> Y pre nothing (recurse_type_label st None t b).
Proof.
  intros pre. induction t as [n|t IH|t IH]; intros b HB; cbn [recurse_type_label].
  - eapply Y_next; [apply Y_any; exact HB|]. intros a. eapply Y_next; [apply Y_label_of|]. intros l. apply Y_done.
  - eapply Y_next; [apply IH; exact HB|]. intros a. apply Y_done.
  - now apply IH.
Qed.
Lemma Y_enum_label : forall pre n (k : string -> string), Y pre nothing (let* e := reference_enum st n "" false in let* x := name_id e in ret (k x)).
Proof.
  intros pre n k. destruct (mem n built_in_keys) eqn:E.
  - intros r a r' HR HC H. apply bind_ok in H as (e & r1 & H1 & H). unfold reference_enum in H1. rewrite E in H1. apply bind_ok in H1 as (u & r2 & _ & H1). apply bind_ok in H1 as (u' & r3 & _ & H1). apply ret_ok in H1 as [-> ->]. discriminate.
  - eapply Y_next; [apply Y_enum; exact E|]. intros e. eapply Y_next; [apply Y_name_id|]. intros x. apply Y_done.
Qed.
Lemma Y_output_label : forall pre ov t b, Y pre nothing (recurse_outputtype_label st s ov t b).
Proof.
  intros pre ov. induction t as [n|t IH|t IH]; intros b; cbn [recurse_outputtype_label].
  - destruct (get_type s n) as [[]|]; try apply Y_raise; try (destruct ov as [[|a x]|]; [apply Y_raise|apply Y_done|apply Y_raise]).
    + eapply Y_next; [apply Y_scalar|]. intros e. eapply Y_next; [apply Y_name_id|]. intros x. apply Y_done.
    + apply (Y_enum_label pre n (fun x => if b then "Optional[" +s+ x +s+ "]" else x)).
  - eapply Y_next; [apply IH|]. intros a. apply Y_done.
  - apply IH.
Qed.
Lemma Y_fragment_class : forall pre n t, Y pre nothing (fragment_class_for st n t).
Proof.
  intros pre n t. unfold fragment_class_for. eapply Y_next with (f := nothing).
  { unfold get_interface_fragment_implementation_or_none. eapply Y_next; [apply Y_gets|]. intros m. destruct (dget n m) as [impls|]; [|apply Y_done]. destruct (dget _ impls); [apply Y_done|].
    eapply Y_next; [apply Y_gets|]. intros ft. destruct (dget n ft) as [t0|]; [|apply Y_raise]. destruct (String.eqb _ _); [apply Y_done|apply Y_raise]. }
  intros [i|]; [apply Y_done|]. eapply Y_next with (f := nothing); [|intros e; apply Y_name_id].
  unfold reference_fragment, reference_generic. eapply Y_next; [apply Y_gets|]. intros m. destruct (_ || _); [apply Y_raise|apply Y_done].
Qed.
Lemma Y_return_string : forall pre b, Y pre nothing (get_return_type_string st s o b).
Proof.
  intros pre b. unfold get_return_type_string. eapply Y_next with (f := nothing).
  { unfold get_operation_class_name. eapply Y_next; [apply Y_from_opt|]. intros n. apply Y_done. }
  intros n. eapply Y_next; [apply Y_from_opt|]. intros root. destruct b; [|apply Y_done]. eapply Y_next with (f := nothing).
  { unfold first_field. destruct (op_sels o) as [|[] ?]; try apply Y_raise. apply Y_done. }
  intros f. eapply Y_next; [apply Y_from_opt|]. intros t. destruct (non_typename_fields f) as [|[g|m ds|? ? ?] [|? ?]]; try apply Y_output_label.
  eapply Y_next; [apply Y_fragment_class|]. intros k. apply Y_output_label.
Qed.
Lemma Y_input_description : forall pre t, Y pre nothing (generate_input_description s t).
Proof.
  intros pre. induction t as [n|t IH|t IH]; cbn [generate_input_description].
  - destruct (get_type s n) as [[]|]; try apply Y_raise; apply Y_done.
  - eapply Y_next; [exact IH|]. intros a. apply Y_done.
  - eapply Y_next; [exact IH|]. intros a. apply Y_done.
Qed.
Variable doc_of : operation -> option string.
Lemma Y_doc : forall pre b, Y pre nothing (generate_query_doc st s pc doc_of def o b).
Proof.
  intros pre b. unfold generate_query_doc. eapply Y_next; [apply Y_from_opt|]. intros root. eapply Y_next with (f := nothing).
  { unfold get_operation_class_name. eapply Y_next; [apply Y_from_opt|]. intros n. apply Y_done. }
  intros cn. eapply Y_next; [apply Y_return_string|]. intros rt. cbn zeta. eapply Y_next; [apply Y_lift|]. intros dmap. eapply Y_next with (f := nothing).
  { destruct (truthy _); [apply Y_done|]. eapply Y_next; [|intros descs; apply Y_done]. apply Y_nothing_mfold. intros acc [f|n ds|tc ds sub] _; try apply Y_done. eapply Y_next; [apply Y_from_opt|]. intros fd. apply Y_done. }
  intros description. eapply Y_next with (f := nothing).
  { apply Y_nothing_mmap. intros v Hv. destruct (mem (v_name v) (f_expand_input_types pc)).
    - eapply Y_next with (f := nothing). { unfold expanded_type. destruct (v_type v) as [n|[n|x|x]|[n|x|x]]; try apply Y_raise; apply Y_from_opt. }
      intros t. eapply Y_next with (f := nothing). { destruct t; try apply Y_raise. apply Y_done. }
      intros fs. unfold generate_input_type_descriptions. eapply Y_next; [|intros ls; apply Y_done]. apply Y_nothing_mmap. intros kf _. eapply Y_next with (f := nothing); [|intros x; apply Y_done].
      destruct (truthy _); [apply Y_done|apply Y_input_description].
    - destruct (var_required v); [|apply Y_done]. eapply Y_next; [apply Y_type_label; auto|]. intros x. apply Y_done. }
  intros args. eapply Y_next with (f := nothing).
  { apply Y_nothing_mmap. intros v Hv. apply filter_In in Hv as (Hv & _). eapply Y_next; [apply Y_type_label; auto|]. intros x. eapply Y_next with (f := nothing); [|intros y; apply Y_done].
    destruct (v_default v) as [[]|]; try apply Y_raise; try apply Y_done; eapply Y_next; try apply Y_raise; try apply Y_done; intros; apply Y_done. }
  intros opts. apply Y_done.
Qed.
Lemma Y_dict : forall pre n, Y pre nothing (new_dict n).
Proof.
  intros pre n. unfold new_dict, dict_str_any_annotation. eapply Y_next with (f := nothing); [|intros a; apply Y_done]. eapply Y_next; [apply Y_import|]. intros u. eapply Y_next; [apply Y_import|]. intros u'. apply Y_done.
Qed.
Lemma Y_guard : forall pre b x y z, Y pre nothing (assign_or_guard c b x y z).
Proof. intros pre b x y z. unfold assign_or_guard, guarded_assign. destruct b; [apply Y_done|]. eapply Y_next; [apply Y_unset|]. intros u. apply Y_done. Qed.
Lemma Y_assignments : forall pre, Y pre nothing (generate_variable_assignments c st s pc o).
Proof.
  intros pre. unfold generate_variable_assignments. eapply Y_next; [apply Y_dict|]. intros h. eapply Y_next with (f := nothing); [|intros b; apply Y_done].
  eapply Y_none. apply (Y_mconcat pre (@nothing stmt)). intros v Hv. eapply Y_post; [intros a n; rewrite nothing_flat; intros []|]. instantiate (1 := nothing). unfold variable_assignment. destruct (mem _ _).
  - eapply Y_next with (f := nothing). { unfold expanded_type. destruct (v_type v) as [n|[n|x|x]|[n|x|x]]; try apply Y_raise; apply Y_from_opt. }
    intros t. eapply Y_next with (f := nothing). { destruct t; try apply Y_raise. apply Y_done. }
    intros fs. eapply Y_next; [apply Y_dict|]. intros h'. eapply Y_next; [|intros b; apply Y_done]. apply Y_nothing_mmap. intros kf _. apply Y_guard.
  - eapply Y_next; [apply Y_guard|]. intros x. apply Y_done.
Qed.
Lemma Y_call : forall pre b, Y pre nothing (call_stmt st pc def o b).
Proof.
  intros pre b. unfold call_stmt. eapply Y_next with (f := nothing).
  { unfold proxy_call. eapply Y_next; [apply Y_import|]. intros u. eapply Y_next with (f := nothing); [|intros x; apply Y_done].
    unfold get_operation_class_name. eapply Y_next; [apply Y_from_opt|]. intros n. apply Y_done. }
  assert (CA : forall e, Y pre nothing (collapsed_attr st o b e)).
  { intros e. unfold collapsed_attr. destruct b; [|apply Y_done]. eapply Y_next with (f := nothing); [|intros f; apply Y_done]. unfold first_field. destruct (op_sels o) as [|[] ?]; try apply Y_raise. apply Y_done. }
  intros call. destruct (d_kind def); (eapply Y_next; [apply CA|]; intros e; apply Y_done).
Qed.

Lemma return_bound : forall r rt r', recorded_result st tree r o -> (forall x n, In x tree -> In n (runs x) -> K bi (Tt X tree) r n) ->
  get_return_type_annotation st s o (f_collapse_lonely pc && is_collapsable o) r = (Ok rt, r') -> r' = r /\ cov r [] (loads rt).
Proof.
  intros r rt r' (n & N & b & body & Hin & Hs) HT R.
  unfold get_return_type_annotation, is_collapsable in R. unfold bind at 1, get_operation_class_name, bind at 1 in R. rewrite N in R. cbn in R. unfold root_of, bind at 1 in R.
  destruct (root_type s (op_kind o)); cbn in R; [|discriminate]. fold (op_class st (op_kind o) n) in R.
  destruct (f_collapse_lonely pc && (length (op_sels o) =? 1)%nat) eqn:B.
  - apply andb_true_iff in B as (B1 & B2). unfold bind at 1, get_operation_single_or_none, gets in R.
    destruct (op_sels o) as [|x []] eqn:Es; try discriminate. destruct (Hs x eq_refl) as (f & a & v & -> & Cf & Sg). cbn [opt_str] in R. rewrite Sg in R. injection R as <- <-.
    split; [reflexivity|]. intros m Hm. left. apply (HT _ m Hin). cbn [runs]. rewrite !in_app_iff. right. right.
    assert (HB : In (SAnn (generate_node_name st (target_from_node f)) a v) body).
    { assert (Z : In (generate_node_name st (target_from_node f), a, v) (class_fields body)) by (rewrite Cf; now left). unfold class_fields in Z. apply in_flat_map in Z as (y & Hy & Z). destruct y; try destruct Z as []; try contradiction.
      injection H as -> -> ->. exact Hy. }
    apply in_flat_map. eexists. split; [exact HB|]. cbn. apply in_or_app. now left.
  - injection R as <- <-. split; [reflexivity|]. apply cov_cons; [|apply cov_nil]. right. right. unfold binds. apply in_flat_map. eexists. split; [exact Hin|]. now left.
Qed.
Lemma function_adv : forall r f r', rk r -> recorded_result st tree r o -> d_kind def = op_kind o -> (forall x n, In x tree -> In n (runs x) -> K bi (Tt X tree) r n) ->
  generate_operation_func c st s pc doc_of o def r = (Ok f, r') -> adv r r' /\ cov r' [] (runs f).
Proof.
  intros r f r' HR HRC HKd HT H. unfold generate_operation_func in H. cbn zeta in H.
  apply bind_ok in H as (rt & r1 & H1 & H). apply return_bound in H1 as (-> & C1); [|exact HRC|exact HT].
  match type of H with ?m r = _ => assert (Z : Y (loads rt) runs m) end; [clear H|destruct (Z r f r' HR C1 H) as (A & C2); auto].
  eapply Y_bind; [apply Y_doc|]. intros doc. eapply Y_bind; [apply Y_assignments|]. intros asg.
  eapply Y_bind with (f := fun _ => match op_kind o with OpSubscription => [if d_async def then "AsyncIterator" else "Iterator"] | _ => [] end).
  { destruct (op_kind o); [apply Y_ret; intros n []|apply Y_ret; intros n []|]. eapply Y_post; [|apply Y_import]. intros u. destruct (d_async def); apply incl_refl. }
  intros u. eapply Y_bind with (f := nothing). { unfold func_name. eapply Y_next; [apply Y_from_opt|]. intros n. apply Y_done. }
  intros name. eapply Y_bind; [apply Y_parameters|]. intros args. eapply Y_bind; [apply Y_call|]. intros call. apply Y_ret. cbn [runs]. rewrite HKd. unfold nothing.
  destruct (op_kind o); intros n; cbn; rewrite ?in_app_iff; cbn; rewrite ?in_app_iff; tauto.
Qed.
End Op.
End Fun.

Section Plugin.
Variables (st : list styler) (bi : list string).
Hypothesis Hbi : incl simple_types bi.
Variables (c : gconfig) (s : schema) (sc : dict string).
Hypothesis Hsc : forall n t, dget n sc = Some t -> has_dot t = false -> In t bi.
Variables (d : document) (X : string -> Prop) (E0 : dict string) (tree : list stmt) (done : list string).
Hypothesis HU : unions_plain s d.
Variable pc : fcfg.
Variable doc_of : operation -> option string.
Notation G := (G st bi s sc d X E0).
Notation adv := (adv st (Tt X tree)).
Notation rk := (rk st s sc d X E0 tree done).
Hypothesis HK : forall o def k, In (DOp o) d -> In def (definitions_for pc o) -> In k (extra_kwargs pc def) -> fk_default k <> CNone.
Section State.
Variable I0 : dict string.
Variable r0 : reg.
Hypothesis HG : G tree done r0.
Hypothesis HI0 : r_inputs r0 = I0.
Hypothesis HR0 : forall o, In o (operations_of d) -> recorded_result st tree r0 o.
Hypothesis HV : forall o def v, In (DOp o) d -> In def (definitions_for pc o) -> In v (op_vars o) -> mem (gty_name (v_type v)) built_in_keys = false.
Hypothesis HCo : forall o v, In (DOp o) d -> In v (op_vars o) -> truthy (dget (gty_name (v_type v)) (f_coercible_inputs pc)) = true ->
  dmem (gty_name (v_type v)) I0 = true /\ style_inputtype_class st (gty_name (v_type v)) <> "SHOULD_NOT_BE_USED".
Hypothesis HEx : forall o v n dd fs ds k f, In (DOp o) d -> In v (op_vars o) -> In (v_name v) (f_expand_input_types pc) -> v_type v = GNonNull (GNamed n) \/ v_type v = GList (GNamed n) ->
  get_type s n = Some (TInput dd fs ds) -> In (k, f) fs -> field_ok st s I0 (if_type f).
Lemma tree_bound : forall r x n, rle r0 r -> In x tree -> In n (runs x) -> K bi (Tt X tree) r n.
Proof.
  intros r x n L Hx Hn. destruct (scoped_runs _ _ _ _ (g_scope _ _ _ _ _ _ _ _ _ _ HG) Hx Hn) as [[Y|Y]|Y]; [left; eapply given_rle; eassumption|right; now left|right; now right].
Qed.
Lemma functions_list_step : forall o l r fs r', In o (operations_of d) -> incl l (definitions_for pc o) -> adv r0 r -> mmap (generate_operation_func c st s pc doc_of o) l r = (Ok fs, r') ->
  adv r r' /\ cov bi (Tt X tree) r' [] (flat_map runs fs).
Proof.
  intros o. induction l as [|def l IH]; intros r fs r' Ho HL A0 H; cbn [mmap] in H.
  - apply ret_ok in H as [-> ->]. split; [apply adv_refl|apply cov_nil].
  - apply bind_ok in H as (f & r1 & H1 & H). apply bind_ok in H as (gs & r2 & H2 & H). apply ret_ok in H as [-> ->].
    assert (Hd : In def (definitions_for pc o)) by (apply HL; now left). assert (HO : In (DOp o) d) by now apply in_operations.
    assert (RK : rk I0 r). { eapply rk_adv; [exact A0|]. split; [eapply G_rok; eassumption|exact HI0]. }
    destruct (function_adv st bi Hbi c s sc Hsc d X E0 tree done pc I0 o def (fun v Hv => HV o def v HO Hd Hv) (fun v => HCo o v HO) (fun v n dd fs ds k f => HEx o v n dd fs ds k f HO) (fun k => HK o def k HO Hd) doc_of r f r1 RK) as (A1 & C1); [| | |exact H1|].
    + eapply recorded_mono; [apply HR0; exact Ho|apply incl_refl|]. intros n _. f_equal. eapply frame_single; [|exact (adv_ev _ _ _ _ A0)]. cbn. intuition discriminate.
    + unfold definitions_for in Hd. apply filter_In in Hd as (_ & E). destruct (d_kind def), (op_kind o); try discriminate; reflexivity.
    + intros x n. apply tree_bound. eapply adv_rle; exact A0.
    + destruct (IH r1 gs r2 Ho) as (A2 & C2); [intros x Hx; apply HL; now right|eapply adv_trans; eassumption|exact H2|]. split; [eapply adv_trans; eassumption|].
      cbn [flat_map]. apply cov_app; [eapply cov_adv; eassumption|exact C2].
Qed.
Lemma cov_scoped : forall r l, cov bi (Tt X tree) r [] (flat_map runs l) -> scoped (K bi (Tt X tree) r) l.
Proof.
  intros r l H. assert (Z : forall l (E : string -> Prop), (forall n, In n (flat_map runs l) -> E n) -> scoped E l).
  { induction l0 as [|x l0 IH]; intros E HE; [exact I|]. split; [intros n Hn; apply HE; cbn; apply in_or_app; now left|]. apply IH. intros n Hn. left. apply HE. cbn. apply in_or_app. now right. }
  apply Z. intros n Hn. destruct (H n Hn) as [Y|[]]. exact Y.
Qed.
Lemma functions_step : forall fs r', generate_functions c st s pc doc_of (operations_of d) r0 = (Ok fs, r') -> G (tree ++ fs) done r' /\ rle r0 r'.
Proof.
  intros fs r' H. unfold generate_functions in H. apply mconcat_ok in H as (yss & H & ->).
  assert (Z : forall l r, incl l (operations_of d) -> adv r0 r -> forall yss r', mmap (fun o => mmap (generate_operation_func c st s pc doc_of o) (definitions_for pc o)) l r = (Ok yss, r') ->
     adv r r' /\ cov bi (Tt X tree) r' [] (flat_map runs (concat yss))).
  { clear H. induction l as [|o l IH]; intros r HL A0 zs rz H; cbn [mmap] in H.
    - apply ret_ok in H as [-> ->]. split; [apply adv_refl|apply cov_nil].
    - apply bind_ok in H as (f & r1 & H1 & H). apply bind_ok in H as (gs & r2 & H2 & H). apply ret_ok in H as [-> ->].
      destruct (functions_list_step o _ _ _ _ (HL o (or_introl eq_refl)) (incl_refl _) A0 H1) as (A1 & C1).
      destruct (IH r1 (fun x Hx => HL x (or_intror Hx)) (adv_trans _ _ _ _ _ A0 A1) _ _ H2) as (A2 & C2). split; [eapply adv_trans; eassumption|].
      cbn [concat]. rewrite flat_map_app. apply cov_app; [eapply cov_adv; eassumption|exact C2]. }
  destruct (Z _ _ (incl_refl _) (adv_refl _ _ _) _ _ H) as (A & C). split; [|eapply adv_rle; exact A].
  eapply G_evolve with (k := Ksel); [exact HG|exact (adv_ev _ _ _ _ A)|..]; try (cbn; intuition discriminate).
  - intros n Hn. exact (adv_fwd _ _ _ _ A n Hn).
  - now apply cov_scoped.
Qed.
End State.
End Plugin.

Lemma dmerge_origin : forall A (b a : dict A) n v, dget n (dmerge a b) = Some v -> In n (dkeys a) \/ In n (dkeys b).
Proof.
  intros A b a n v H. assert (Z : forall (b a : dict A), In n (dkeys (dmerge a b)) -> In n (dkeys a) \/ In n (dkeys b)).
  { induction b0 as [|(k, x) b0 IH]; intros a0 N; [now left|].
    cbn [dmerge fold_left] in N. destruct (IH _ N) as [I|I]; [|right; now right]. cbn [fst snd] in I. rewrite P_Base.dkeys_dset in I; destruct (dmem k a0); [now left|]; apply in_app_iff in I as [I|[I|[]]]; [now left|right; now left]. }
  apply Z. apply dmem_In. unfold dmem. now rewrite H.
Qed.
Section ClientFunctions.
Variables (bi : list string) (c : gconfig) (st : list styler) (ec : enums_config) (ic : inputs_config) (fc : frcfg) (oc : ocfg) (pc : fcfg) (s : schema) (d : document).
Variables (print_fragment : fragment -> string) (print_operation : operation -> string) (add : string -> res string) (doc_of doc_of' : operation -> option string).
Hypothesis Hbi : incl simple_types bi.
Hypothesis Hsc : forall n x, dget n (r_scalars (init_reg c)) = Some x -> has_dot x = false -> In x bi.
Hypothesis Hforce : c_force_plugin_order c = true.
Hypothesis ND : NoDup (dkeys (s_types s)).
Hypothesis HAV : inputs_available (ic_skip_underscore ic) (skipping c (ic_skip_unreferenced ic)) s (Ok d).
Hypothesis VD : valid_document s d.
Hypothesis Hin : forall f n, In f (fragments_of d) -> spread_in True (fr_sels f) n -> spread_in False (fr_sels f) n.
Hypothesis HEA : enums_available (ec_skip_underscore ec) (ec_skip_double_underscore ec) (skipping c (ec_skip_unreferenced ec)) s d.
Hypothesis HS : ~ Spec_Refs.is_enum s "String".
Hypothesis HU : unions_plain s d.
Hypothesis HM : members_named s d (style_fragment_class st).
Hypothesis HV : o_create_arguments oc = true \/ f_definitions pc <> [] -> variables_plain d.
Hypothesis HF : c_create_catchall c = false \/ (o_create_arguments oc = true /\ optional_variable d) -> imports_field s d.
Hypothesis HB : incl (c_object_bases c) (ic_bases ic) \/ (exists fr, In (DFrag fr) d /\ object_type s (fr_on fr)) \/ (exists o, In (DOp o) d /\ kind_bases oc o = []).
Hypothesis HI : forall n, Spec_Refs.is_input s n -> style_inputtype_class st n <> "SHOULD_NOT_BE_USED".
Hypothesis HCo : forall n, variable_type d n -> In n (dkeys (c_coercible_inputs c)) \/ In n (dkeys (f_coercible_inputs pc)) -> Spec_Refs.is_input s n.
Hypothesis HEx : f_expand_input_types pc <> [] -> fields_plain s.
Hypothesis HK : forall k, In k (f_global_kwargs pc) \/ (exists def, In def (f_definitions pc) /\ In k (d_kwargs def)) -> fk_default k <> CNone.
Theorem client_functions_scope : forall iter a b e f g t, set_order iter ->
  generate_ast c iter [Plugin a (enums_plugin c st ec s (Ok d)); Plugin b (inputs_plugin c st ic s (Ok d));
    Plugin e (fragments_plugin c st s fc print_fragment add d); Plugin f (operations_plugin c st s oc print_operation add doc_of d);
    Plugin g (funcs_plugin c st s pc doc_of' d)] false = Ok t ->
  scoped (fun n => In n bi) t.
Proof.
  intros iter a b e f g t Hiter H. unfold generate_ast in H. cbn [run_plugins pl_generate pl_name] in H.
  destruct (enums_plugin c st ec s (Ok d) (init_reg c)) as [[t0|] r0] eqn:H0; [|discriminate].
  destruct (inputs_plugin c st ic s (Ok d) r0) as [[t1|] r1] eqn:H1; [|discriminate].
  destruct (fragments_plugin c st s fc print_fragment add d r1) as [[t2|] r2] eqn:H2; [|discriminate].
  destruct (operations_plugin c st s oc print_operation add doc_of d r2) as [[t3|] r3] eqn:H3; [|discriminate].
  destruct (funcs_plugin c st s pc doc_of' d r3) as [[t4|] r4] eqn:H4; [|discriminate].
  cbn [rbind app] in H. destruct (generate_builtins iter r4) as [bs|] eqn:HBS; [|discriminate]. cbn [rbind] in H. injection H as <-.
  assert (HV1 : o_create_arguments oc = true -> variables_plain d) by auto.
  destruct (client_state bi c st ec ic fc oc s d print_fragment print_operation add doc_of Hbi Hsc Hforce ND HAV VD Hin HEA HS HU HM HV1 HF HB _ _ _ _ _ _ _ _ H0 H1 H2 H3) as (done & GF & GE & GX & GI).
  unfold operations_plugin in H3. apply mconcat_ok in H3 as (yss & H3 & ->).
  destruct (operations_recorded _ _ _ _ _ _ _ _ _ _ _ (vd_operations s d VD) H3) as (Rc & _).
  assert (VT : forall o v, In (DOp o) d -> In v (op_vars o) -> variable_type d (gty_name (v_type v))) by (intros o v Ho Hv; exists o, v; auto).
  assert (DI : forall n, needs s (variable_type d) n -> Spec_Refs.is_input s n -> dmem n (r_inputs r3) = true /\ style_inputtype_class st n <> "SHOULD_NOT_BE_USED") by (intros n N I; split; auto).
  assert (DP : forall o def, In def (definitions_for (merged_config c pc) o) -> In def (f_definitions pc)) by (intros o def Hd; unfold definitions_for in Hd; now apply filter_In in Hd as (Hd & _)).
  assert (HK' : forall o def k, In (DOp o) d -> In def (definitions_for (merged_config c pc) o) -> In k (extra_kwargs (merged_config c pc) def) -> fk_default k <> CNone).
  { intros o def k Ho Hd Hk. apply HK. unfold extra_kwargs in Hk. apply in_app_iff in Hk as [Hk|Hk]; [now left|right; eauto]. }
  edestruct (functions_step st bi Hbi c s (r_scalars (init_reg c)) Hsc d) with (pc := merged_config c pc) (I0 := r_inputs r3) (r0 := r3) (fs := t4) (r' := r4) (3 := GF)  as (G4 & L4); [exact HU|exact HK'|reflexivity| | | | |exact H4|].
  - intros o Ho. eapply recorded_mono; [apply Rc; exact Ho|apply incl_appr, incl_refl|auto].
  - intros o def v Ho Hd Hv. apply helper_mem. assert (NE : f_definitions pc <> []) by (apply DP in Hd; intros E; rewrite E in Hd; exact Hd).
    exact (HV (or_intror NE) o v Ho Hv).
  - intros o v Ho Hv HT. pose proof (VT o v Ho Hv) as V. apply DI; [now apply needs_root|]. apply HCo; [exact V|].
    cbn [f_coercible_inputs merged_config] in HT. destruct (dget _ _) eqn:E in HT; [|discriminate]. eapply dmerge_origin; exact E.
  - intros o v n dd fs ds k fl Ho Hv Hx HT HG Hf. assert (FP : fields_plain s) by (apply HEx; intros E; cbn in Hx; rewrite E in Hx; exact Hx). split.
    + intros HIn. apply DI; [|exact HIn]. change fl with (snd (k, fl)). eapply needs_field; [apply needs_root|exact HG|exact Hf].
      pose proof (VT o v Ho Hv) as V. destruct HT as [HT|HT]; rewrite HT in V; exact V.
    + intros _. apply helper_mem. eapply FP; eassumption.
  - pose proof (assemble bi iter c r4 (t0 ++ t1 ++ t2 ++ concat yss ++ t4) bs Hbi Hiter HBS (given_rle _ _ _ _ L4 GE)) as Z.
    repeat rewrite <- app_assoc in Z. repeat rewrite <- app_assoc in G4. repeat rewrite <- app_assoc. apply Z.
    + eapply scoped_mono; [|apply (g_scope _ _ _ _ _ _ _ _ _ _ G4)]. intros n [Y|Y]; [exact Y|]. eapply given_rle; [exact L4|]. apply GX, Y.
    + intros n Hn. destruct (g_fwd _ _ _ _ _ _ _ _ _ _ G4 n Hn) as [Y|Y]; [|auto]. left. eapply given_rle; [exact L4|auto].
Qed.
End ClientFunctions.
