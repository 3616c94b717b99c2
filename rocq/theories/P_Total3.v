(** The plugins for enums, inputs and objects do not fail. *)
From Verif Require Import Base PyAst Gql Config Stylers Registry Utils Recurse Referencer Enums Inputs Objects Strawberry Run Spec_Mro Spec_Mro2 Spec_Valid P_Base P_Gql P_Monad P_Config P_Mro P_Total P_Total2.
Require Import Lia.
Arguments register_import : simpl never.
Arguments add_forward : simpl never.
Arguments register_builtin : simpl never.
Arguments dkeys : simpl never.
Lemma bind_exv : forall {A B} (m : M A) (k : A -> M B) r (P : A -> reg -> Prop) (Q : B -> reg -> Prop), (exists a r', m r = (Ok a, r') /\ P a r') ->
  (forall a r', P a r' -> exists b r'', k a r' = (Ok b, r'') /\ Q b r'') -> exists b r'', bind m k r = (Ok b, r'') /\ Q b r''.
Proof. intros A B m k r P Q (a & r' & E & HP) H. destruct (H a r' HP) as (b & r'' & E' & HQ). exists b, r''. split; [eapply bind_run; eassumption|exact HQ]. Qed.
Lemma keys_flat : forall {A} (f : string * typedef -> list (string * A)) l, (forall kt y, In y (f kt) -> fst y = fst kt) -> forall x, In x (map fst (flat_map f l)) -> In x (map fst l).
Proof. intros A f l F x Hx. apply in_map_iff in Hx as (y & <- & Hy). apply in_flat_map in Hy as (kt & H & Hy). rewrite (F _ _ Hy). now apply in_map. Qed.
Lemma NoDup_flat : forall {A} (f : string * typedef -> list (string * A)) l, (forall kt y, In y (f kt) -> fst y = fst kt) -> (forall kt, (List.length (f kt) <= 1)%nat) -> NoDup (map fst l) -> NoDup (map fst (flat_map f l)).
Proof.
  intros A f l F L. induction l as [|kt l IH]; intros N; [constructor|]. cbn in *. inversion N; subst. specialize (IH H2). specialize (L kt). pose proof (F kt) as Fk.
  destruct (f kt) as [|y [|z q]]; cbn in *; [exact IH| |lia]. constructor; [|exact IH]. rewrite (Fk y) by now left. intros X. apply H1. now apply (keys_flat f l F).
Qed.
Lemma filter_keys : forall {A} (f : string * A -> bool) l x, In x (map fst (filter f l)) -> In x (map fst l).
Proof. intros A f l x H. apply in_map_iff in H as (y & <- & Hy). apply filter_In in Hy as (Hy & _). now apply in_map. Qed.

(** ** Enums *)
Section Enums.
Variable c : gconfig. Variable st : list styler. Variable s : schema. Variable ec : enums_config.
Hypothesis V : valid_schema s.
Variable rf : option refs. Variable docs : res document.
Hypothesis Refs : forall r, plugin_refs c (ec_skip_unreferenced ec) s docs r = (Ok rf, r).
Definition enum_names (l : list (string * (option string * list (string * enumval)))) : list string := map fst (filter (fun kv => negb (enum_skipped ec rf (fst kv))) l).
Lemma enums_plugin_total : forall ks ki ko kf r, tables ks [] ki ko kf r -> exists l r', enums_plugin c st ec s docs r = (Ok l, r') /\ tables ks (enum_names (enum_types s)) ki ko kf r'.
Proof.
  intros ks ki ko kf r T. unfold enums_plugin. eapply bind_ex; [apply tot_tables; [apply tot_import|exact T]|]. intros u r1 T1. cbn beta in T1. unfold Enums.generate_enums.
  eapply (bind_exv _ _ _ (fun a r => a = rf /\ r = r1) (fun _ r => tables ks (enum_names (enum_types s)) ki ko kf r)); [exists rf, r1; auto|]. intros rf' r2 (-> & ->).
  apply (mconcat_total _ (fun pre r => tables ks (enum_names pre) ki ko kf r) _ _ T1).
  intros pre [k [d vs]] post r3 E T3.
  assert (~ In k (map fst pre)) as N.
  { assert (NoDup (map fst (enum_types s))) as ND. { apply NoDup_flat; [| |apply (vs_names s V)]; intros [k' t]; [intros y|]; destruct t; cbn; intuition (subst; auto). }
    rewrite E in ND. apply NoDup_mid in ND. exact ND. }
  unfold enum_names. rewrite filter_app, map_app. fold (enum_names pre). cbn [filter fst snd].
  destruct (enum_skipped ec rf k); cbn [negb map fst]. { rewrite app_nil_r. exists [], r3. auto. }
  assert (~ In k (dkeys (r_enums r3))) as NI. { destruct T3 as (_ & -> & _). intros X. apply N. eapply filter_keys. exact X. }
  unfold generate_enum. eapply (bind_ex _ _ _ (tables ks (enum_names pre ++ [k]) ki ko kf)).
  { rewrite (generate_in_run _ _ _ _ _ (dmem_no _ _ NI)). eexists; eexists; split; [reflexivity|].
    destruct T3 as (A1 & A2 & A3 & A4 & A5 & A7 & A6). repeat split; cbn; auto. rewrite dkeys_snoc by exact NI. now rewrite A2. }
  intros cn r4 T4. eexists; eexists; split; [reflexivity|exact T4].
Qed.
Lemma enum_names_in : forall n, is_enum s n = true -> enum_skipped ec rf n = false -> In n (enum_names (enum_types s)).
Proof.
  intros n H K. unfold is_enum in H. destruct (get_type s n) as [t|] eqn:G; [|discriminate]. unfold get_type in G. apply dget_Some_In in G. destruct t as [|d vs| | | |]; try discriminate.
  apply in_map_iff. exists (n, (d, vs)). split; [reflexivity|]. apply filter_In. cbn. rewrite K. split; [|reflexivity]. apply in_flat_map. eexists. split; [exact G|]. now left.
Qed.
End Enums.

(** ** Inputs *)
Section Inputs.
Variable c : gconfig. Variable st : list styler. Variable s : schema. Variable ic : inputs_config.
Hypothesis V : valid_schema s.
Hypothesis Plain : plain_inputs s.
Variable rf : option refs. Variable docs : res document.
Hypothesis Refs : forall r, plugin_refs c (ic_skip_unreferenced ic) s docs r = (Ok rf, r).
Variable ks ke : list string.
(** what a class may mention *)
Hypothesis Leaf : forall k t n x ki r, tables ks ke ki [] [] r -> In (k, t) (s_types s) -> In n (mentions t) -> In x (input_names (k, t)) ->
  (match rf with Some r => negb (mem k (rf_inputs r)) | None => false end) = false -> leaf_ok r c st s (style_inputtype_class st x) n.

Lemma tot_input_annotation : forall r t p o, leaf_ok r c st s p (gty_name t) -> input_type s (gty_name t) = true -> tot r (generate_input_annotation c st s t p o).
Proof.
  intros r. induction t as [n|t IH|t IH]; intros p o L H; cbn.
  - destruct L as (L1 & L2). unfold input_type, is_scalar, is_enum, is_input in *. cbn in *. destruct (get_type s n) as [[]|]; try discriminate;
    (destruct o; [apply tot_bind; [apply tot_import|intros _; apply tot_bind; [|intros; apply tot_ret]]|]); first [now apply tot_scalar, L1|now apply tot_enum, L2|apply tot_input].
  - apply tot_bind; [apply tot_if; apply tot_import|]. intros _. destruct o.
    + apply tot_bind; [apply tot_import|]. intros _. apply tot_bind; [now apply IH|]. intros; apply tot_ret.
    + apply tot_bind; [now apply IH|]. intros; apply tot_ret.
  - now apply IH.
Qed.
Lemma tot_field_value : forall r a b o d, tot r (generate_input_field_value a b o d).
Proof. intros r a b o d. unfold generate_input_field_value. apply tot_if; [apply tot_ret|]. apply tot_bind; [apply tot_import|]. intros; apply tot_ret. Qed.
Lemma tot_input_field : forall r p k v, leaf_ok r c st s p (gty_name (if_type v)) -> input_type s (gty_name (if_type v)) = true -> tot r (generate_input_field c st s p k v).
Proof.
  intros r p k v L H. unfold generate_input_field. cbn zeta. apply tot_bind.
  { unfold generate_input_field_annotation. apply tot_bind; [now apply tot_input_annotation|]. intros e. apply tot_if; [|apply tot_ret]. apply tot_bind; [apply tot_import|]. intros; apply tot_ret. }
  intros a0. apply tot_bind; [apply tot_metadata|]. intros a. apply tot_bind; [apply tot_field_value|]. intros; apply tot_ret.
Qed.
Lemma tot_input_class : forall r n k d fs add, (forall f fd, In (f, fd) fs -> leaf_ok r c st s n (gty_name (if_type fd)) /\ input_type s (gty_name (if_type fd)) = true) -> tot r (Inputs.input_class c st ic s n k d fs add []).
Proof.
  intros r n k d fs add H. unfold Inputs.input_class. apply tot_bind; [apply tot_ret|]. intros dfs. apply tot_bind; [|intros; apply tot_bind; [apply tot_config|intros; apply tot_ret]].
  apply tot_mconcat. intros [f fd] Hf. cbn. destruct (H _ _ Hf). now apply tot_input_field.
Qed.
Lemma inputs_in : forall k d fs ds, In (k, InputDef d fs ds) (input_types s) <-> In (k, TInput d fs ds) (s_types s).
Proof.
  intros k d fs ds. unfold input_types. rewrite in_flat_map. split.
  - intros ([k' t] & H & X). destruct t; try destruct X. injection H0 as <- <- <- <-. exact H. destruct H0.
  - intros H. eexists. split; [exact H|]. now left.
Qed.
Definition names_of_input (kv : string * inputdef) : list string := input_names (fst kv, TInput (id_desc (snd kv)) (id_fields (snd kv)) (id_dirs (snd kv))).
Arguments names_of_input : simpl never.
Lemma names_NoDup : NoDup (flat_map names_of_input (input_types s)).
Proof.
  destruct Plain as (N & _). assert (flat_map names_of_input (input_types s) = flat_map input_names (s_types s)) as ->; [|exact N].
  unfold input_types. generalize (s_types s). intros l. induction l as [|[k t] l IH]; [reflexivity|]. cbn. rewrite <- IH. destruct t; reflexivity.
Qed.
Lemma NoDup_app_disj : forall {A} (a b : list A), NoDup (a ++ b) -> NoDup b /\ forall x, In x a -> ~ In x b.
Proof.
  induction a as [|y a IH]; intros b H; [split; [exact H|intros x []]|]. cbn in H. inversion H; subst. destruct (IH _ H3) as (H4 & H5). split; [exact H4|]. intros x [<-|Hx]; [|now apply H5]. intros X. apply H2, in_app_iff. now right.
Qed.
Lemma names_fresh : forall pre kv post x, input_types s = pre ++ kv :: post -> In x (names_of_input kv) -> ~ In x (flat_map names_of_input pre) .
Proof.
  intros pre kv post x E Hx Hp. pose proof names_NoDup as N. rewrite E, flat_map_app in N. cbn in N. apply NoDup_app_disj in N as (_ & D). apply (D x Hp). apply in_app_iff. now left.
Qed.
Lemma names_mid : forall pre kv post, input_types s = pre ++ kv :: post -> NoDup (names_of_input kv).
Proof.
  intros pre kv post E. pose proof names_NoDup as N. rewrite E, flat_map_app in N. cbn in N. apply NoDup_app_disj in N as (N & _). clear - N. induction (names_of_input kv) as [|x l IH]; [constructor|].
  cbn in N. inversion N; subst. constructor; [|now apply IH]. intros X. apply H1, in_app_iff. now left.
Qed.
Lemma register_input : forall k ki r, tables ks ke ki [] [] r -> ~ In k ki ->
  exists r', generate_inputtype st k r = (Ok (style_inputtype_class st k), r') /\ tables ks ke (ki ++ [k]) [] [] r'.
Proof.
  intros k ki r T N. assert (~ In k (dkeys (r_inputs r))) as NI by (destruct T as (_ & _ & -> & _); exact N).
  unfold generate_inputtype. rewrite (generate_in_run _ _ _ _ _ (dmem_no _ _ NI)). eexists. split; [reflexivity|].
  destruct T as (A1 & A2 & A3 & A4 & A5 & A7 & A6). repeat split; cbn; auto. rewrite dkeys_snoc by exact NI. now rewrite A3.
Qed.
Lemma with_input : forall {A} k (f : string -> M A) ki r, tables ks ke ki [] [] r -> ~ In k ki ->
  (forall r, tables ks ke (ki ++ [k]) [] [] r -> tot r (f (style_inputtype_class st k))) ->
  exists a r', bind (generate_inputtype st k) f r = (Ok a, r') /\ tables ks ke (ki ++ [k]) [] [] r'.
Proof.
  intros A k f ki r T N H. destruct (register_input _ _ _ T N) as (r1 & E & T1). destruct (tot_tables _ _ _ _ _ _ _ (H _ T1) T1) as (a & r2 & E2 & T2).
  exists a, r2. split; [|exact T2]. eapply bind_run; eassumption.
Qed.
Lemma wrappers_total : forall k fs ki r, tables ks ke ki [] [] r -> NoDup (k :: map (fun f => k +s+ cap_first (fst f)) fs) ->
  (forall x, In x (k :: map (fun f => k +s+ cap_first (fst f)) fs) -> ~ In x ki) ->
  (forall f fd r ki, In (f, fd) fs -> tables ks ke ki [] [] r -> leaf_ok r c st s (style_inputtype_class st (k +s+ cap_first f)) (gty_name (if_type fd)) /\ input_type s (gty_name (if_type fd)) = true) ->
  exists l r', generate_oneof_wrapper_input c st ic s k fs r = (Ok l, r') /\ tables ks ke (ki ++ map (fun f => k +s+ cap_first (fst f)) fs ++ [k]) [] [] r'.
Proof.
  intros k fs ki r T N D L. unfold generate_oneof_wrapper_input. eapply bind_ex; [apply tot_tables; [apply tot_additional|exact T]|]. intros add r1 T1. cbn beta in T1.
  eapply (bind_ex _ _ _ (fun r => tables ks ke (ki ++ map (fun f => k +s+ cap_first (fst f)) fs) [] [] r)).
  { apply (mmap_total _ (fun pre r => tables ks ke (ki ++ map (fun f => k +s+ cap_first (fst f)) pre) [] [] r)); [cbn; rewrite app_nil_r; exact T1|].
    intros pre [f fd] post r2 E T2. unfold oneof_wrapper_class. rewrite map_app, app_assoc. cbn [map fst].
    assert (~ In (k +s+ cap_first f) (ki ++ map (fun f => k +s+ cap_first (fst f)) pre)) as NW.
    { rewrite in_app_iff. intros [X|X]; [apply (D (k +s+ cap_first f)); [right; rewrite E, map_app; apply in_elt|exact X]|].
      inversion N; subst. rewrite map_app in H2. cbn in H2. apply NoDup_remove_2 in H2. apply H2, in_app_iff. now left. }
    destruct (register_input _ _ _ T2 NW) as (r3 & E3 & T3).
    assert (try_except (generate_inputtype st (k +s+ pascal f)) (is_cls AssertionErrorC) (fun _ => raise GenerationErrorC "Cannot generate wrapper class") r2
      = (Ok (style_inputtype_class st (k +s+ cap_first f)), r3)) as E3'.
    { unfold try_except. change (pascal f) with (cap_first f). now rewrite E3. }
    eapply (bind_exv _ _ _ (fun a r => a = style_inputtype_class st (k +s+ cap_first f) /\ r = r3)); [eauto|]. intros a r4 (-> & ->).
    assert (In (f, fd) fs) as Hf by (rewrite E; apply in_elt). destruct (L _ _ _ _ Hf T3) as (L1 & L2).
    apply tot_tables; [|exact T3]. cbn zeta. apply tot_bind; [now apply tot_input_annotation|]. intros a0. apply tot_bind; [apply tot_metadata|]. intros a1.
    apply tot_bind; [apply tot_field_value|]. intros v. apply tot_bind; [apply tot_config|]. intros; apply tot_ret. }
  intros l r2 T2. rewrite app_assoc. apply with_input; [exact T2| |].
  - rewrite in_app_iff. intros [X|X]; [apply (D k); [now left|exact X]|]. now inversion N.
  - intros r3 T3. apply tot_bind; [|intros; apply tot_ret]. unfold generate_union_alias. destruct (map fst l) as [|x [|y q]]; try apply tot_ret; (apply tot_bind; [apply tot_import|]; intros; apply tot_ret).
Qed.

Definition kept_in (kv : string * inputdef) : Prop :=
  (match rf with Some r => negb (mem (fst kv) (rf_inputs r)) | None => false end) = false /\ (ic_skip_underscore ic && startswith "_" (fst kv)) = false.
Definition plain_in (kv : string * inputdef) : Prop := oneof (id_dirs (snd kv)) = false /\ kept_in kv.
Definition loop_inv (pre : list (string * inputdef)) (acc : list stmt * list (string * list (string * string))) (r : reg) : Prop :=
  exists ki, tables ks ke ki [] [] r /\ incl ki (flat_map names_of_input pre) /\ (forall x, In x ki -> ~ In x (map fst (snd acc)))
    /\ incl (map fst (snd acc)) (map fst pre) /\ NoDup (map fst (snd acc)) /\ (forall kv, In kv pre -> kept_in kv -> In (fst kv) ki \/ (oneof (id_dirs (snd kv)) = true /\ In (fst kv) (map fst (snd acc))))
    /\ (forall km m, In km (snd acc) -> In m (snd km) -> exists kv, In kv (input_types s) /\ fst kv = snd m /\ plain_in kv).
Lemma map_members : forall fs ms, get_oneof_member_map s fs = Some ms -> forall m, In m ms -> exists d f ds, In (snd m, TInput d f ds) (s_types s) /\ oneof ds = false.
Proof.
  intros fs ms H. unfold get_oneof_member_map in H. set (g := fold_right _ _ fs) in H.
  assert (forall l, g = Some l -> forall m, In m l -> exists d f ds, In (snd m, TInput d f ds) (s_types s) /\ oneof ds = false) as G.
  { subst g. clear H. induction fs as [|[k v] fs IH]; intros l E m Hm; cbn in E; [injection E as <-; destruct Hm|].
    destruct (if_type v) as [n|t|t]; try discriminate. destruct (fold_right _ _ fs) as [l'|] eqn:E'; [|discriminate]. destruct (get_type s n) as [t|] eqn:Gt; [|discriminate].
    destruct t as [| | | | |d f ds]; try discriminate. destruct (existsb _ ds) eqn:O; [discriminate|]. injection E as <-. destruct Hm as [<-|Hm]; [|now eapply IH].
    cbn. unfold get_type in Gt. apply dget_Some_In in Gt. eauto. }
  destruct g as [[|x l]|]; try discriminate. destruct (nodupb _); [|discriminate]. injection H as <-. apply G. reflexivity.
Qed.
Lemma main_step : forall pre kv post acc r, input_types s = pre ++ kv :: post -> loop_inv pre acc r ->
  exists acc' r', main_type c st ic s rf (Prepass [] [] []) acc kv r = (Ok acc', r') /\ loop_inv (pre ++ [kv]) acc' r'.
Proof.
  intros pre [k [d fs ds]] post [tree def] r E (ki & T & I1 & I2 & I3 & I4 & I5 & I6). cbn [fst snd] in *.
  assert (In (k, TInput d fs ds) (s_types s)) as Hs by (apply inputs_in; rewrite E; apply in_elt).
  assert (forall x, In x (names_of_input (k, InputDef d fs ds)) -> ~ In x ki) as Fr. { intros x Hx X. apply I1 in X. revert X. eapply names_fresh; [exact E|exact Hx]. }
  assert (In k (names_of_input (k, InputDef d fs ds))) as Kn by now left.
  assert (~ In k (map fst def)) as Kd.
  { intros X. apply I3 in X. apply in_map_iff in X as (y & <- & Hy). eapply (names_fresh pre (fst y, InputDef d fs ds) post); [exact E|now left|]. apply in_flat_map. exists y. split; [exact Hy|]. now left. }
  assert (forall f fd, In (f, fd) fs -> In (gty_name (if_type fd)) (mentions (TInput d fs ds))) as Mn.
  { intros f fd Hf. apply in_app_iff. right. apply in_map_iff. exists (f, fd). auto. }
  (* nothing is generated *)
  assert (~ kept_in (k, InputDef d fs ds) -> loop_inv (pre ++ [(k, InputDef d fs ds)]) (tree, def) r) as Nothing.
  { intros NP. exists ki. split; [exact T|]. repeat split; auto.
    - intros x Hx. rewrite flat_map_app. apply in_app_iff. left. auto.
    - intros x Hx. rewrite map_app. apply in_app_iff. left. auto.
    - intros kv Hkv HP. apply in_app_iff in Hkv as [Hkv|[<-|[]]]; [auto|contradiction]. }
  (* the names [xs] are registered *)
  assert (forall xs tree' r', tables ks ke (ki ++ xs) [] [] r' -> incl xs (names_of_input (k, InputDef d fs ds)) -> In k xs -> loop_inv (pre ++ [(k, InputDef d fs ds)]) (tree', def) r') as Registered.
  { intros xs tree' r' T' Xi Xk. exists (ki ++ xs). split; [exact T'|]. repeat split; cbn [snd]; auto.
    - rewrite flat_map_app. cbn [flat_map]. rewrite app_nil_r. intros x Hx. apply in_app_iff in Hx as [Hx|Hx]; apply in_app_iff; auto.
    - intros x Hx X. apply in_app_iff in Hx as [Hx|Hx]; [exact (I2 _ Hx X)|].
      apply I3 in X. apply in_map_iff in X as (y & <- & Hy). apply Xi in Hx. eapply (names_fresh pre (k, InputDef d fs ds) post); [exact E|exact Hx|]. apply in_flat_map. exists y. split; [exact Hy|]. now left.
    - intros x Hx. rewrite map_app. apply in_app_iff. left. auto.
    - intros kv Hkv HP. apply in_app_iff in Hkv as [Hkv|[<-|[]]]; [|left; apply in_app_iff; right; exact Xk].
      destruct (I5 _ Hkv HP) as [X|X]; [left; apply in_app_iff; now left|now right]. }
  unfold main_type. cbn [id_dirs id_fields id_desc pp_types pp_unions pp_discr mem dget]. change (mem k []) with false. cbn iota.
  destruct (match rf with Some r => negb (mem k (rf_inputs r)) | None => false end) eqn:UR. { exists (tree, def), r. split; [reflexivity|]. apply Nothing. intros (X & _). cbn [fst snd] in X. congruence. }
  destruct (ic_skip_underscore ic && startswith "_" k) eqn:SU. { exists (tree, def), r. split; [reflexivity|]. apply Nothing. intros (_ & X). cbn [fst snd] in X. congruence. }
  unfold is_oneof_input_type. change (existsb (fun d0 : directive => dir_name d0 =? "oneOf") ds) with (oneof ds). destruct (oneof ds) eqn:O.
  - assert (NoDup (k :: map (fun f => k +s+ cap_first (fst f)) fs) /\ forall x, In x (k :: map (fun f => k +s+ cap_first (fst f)) fs) -> In x (names_of_input (k, InputDef d fs ds))) as (Nm & Inm).
    { pose proof (names_mid _ _ _ E) as N. unfold names_of_input, input_names in *. cbn [fst snd id_dirs id_fields] in *. rewrite O in *. auto. }
    assert (exists l r', generate_oneof_wrapper_input c st ic s k fs r = (Ok l, r') /\ tables ks ke (ki ++ map (fun f => k +s+ cap_first (fst f)) fs ++ [k]) [] [] r') as (lw & rw & Ew & Tw).
    { apply wrappers_total; auto. intros f fd r' ki' Hf T'. split; [|eapply vs_in; eassumption]. eapply Leaf; [exact T'|exact Hs|eauto| |exact UR].
      unfold input_names. cbn [fst snd]. rewrite O. right. apply in_map_iff. exists (f, fd). auto. }
    assert (exists acc' r', (let* l := generate_oneof_wrapper_input c st ic s k fs in ret (tree ++ l, def)) r = (Ok acc', r') /\ loop_inv (pre ++ [(k, InputDef d fs ds)]) acc' r') as Wrapped.
    { eexists; eexists; split; [eapply bind_run; [exact Ew|reflexivity]|]. apply (Registered _ _ _ Tw); [|apply in_app_iff; right; now left].
      intros x Hx. apply Inm. apply in_app_iff in Hx as [Hx|[<-|[]]]; [now right|now left]. }
    assert (validate_oneof_input_type fs r = (Ok tt, r)) as Val.
    { destruct Plain as (_ & P & _). assert (forall f fd, In (f, fd) fs -> is_nonnull (if_type fd) = false /\ if_default fd = None) as P' by (intros; eapply P; eassumption).
      clear - P'. unfold validate_oneof_input_type. induction fs as [|[f fd] fs IH]; [reflexivity|]. cbn. destruct (P' f fd (or_introl eq_refl)) as (-> & ->). cbn. apply IH. intros; apply (P' f0). now right. }
    eapply (bind_exv _ _ _ (fun _ r' => r' = r)); [eauto|]. intros _ r0 ->.
    destruct (if String.eqb (c_pydantic_version c) "v2" then get_oneof_member_map s fs else None) as [ms|] eqn:Ms; [|exact Wrapped].
    match goal with |- context [existsb ?p ms] => destruct (existsb p ms) eqn:Ex end; [exact Wrapped|].
    exists (tree, def ++ [(k, ms)]), r. split; [reflexivity|]. exists ki. split; [exact T|]. repeat split; cbn [snd].
    + intros x Hx. rewrite flat_map_app. apply in_app_iff. left. auto.
    + intros x Hx. rewrite map_app. cbn. intros X. apply in_app_iff in X as [X|[<-|[]]]; [exact (I2 _ Hx X)|]. exact (Fr _ Kn Hx).
    + rewrite !map_app. cbn. intros x Hx. apply in_app_iff in Hx as [Hx|[<-|[]]]; apply in_app_iff; [left; auto|right; now left].
    + rewrite map_app. cbn. apply NoDup_Add with (a := k) (l := map fst def); [|split; auto]. replace (map fst def) with (map fst def ++ []) at 1 by apply app_nil_r. apply Add_app.
    + intros kv Hkv HP. rewrite map_app. apply in_app_iff in Hkv as [Hkv|[<-|[]]]; [|right; split; [exact O|]; apply in_app_iff; right; now left].
      destruct (I5 _ Hkv HP) as [X|(X & Y)]; [now left|right; split; [exact X|]; apply in_app_iff; now left].
    + intros km m Hkm Hm. apply in_app_iff in Hkm as [Hkm|[<-|[]]]; [eauto|]. cbn in Hm.
      destruct (String.eqb (c_pydantic_version c) "v2"); [|discriminate]. destruct (map_members _ _ Ms _ Hm) as (d' & f' & ds' & H1 & H2). exists (snd m, InputDef d' f' ds').
      split; [now apply inputs_in|]. split; [reflexivity|]. assert (existsb (fun m => (match rf with Some r => negb (mem (snd m) (rf_inputs r)) | None => false end) || ic_skip_underscore ic && startswith "_" (snd m)) ms = false) as Ex' by exact Ex.
      split; [exact H2|]. cbn [fst]. destruct (match rf with Some r => negb (mem (snd m) (rf_inputs r)) | None => false end || ic_skip_underscore ic && startswith "_" (snd m)) eqn:B.
      * assert (existsb (fun m => (match rf with Some r => negb (mem (snd m) (rf_inputs r)) | None => false end) || ic_skip_underscore ic && startswith "_" (snd m)) ms = true) as Y by (apply existsb_exists; exists m; auto). congruence.
      * now apply orb_false_iff in B.
  - eapply (bind_exv _ _ _ (fun _ r => tables ks ke ki [] [] r)); [apply tot_tables; [apply tot_additional|exact T]|]. intros add r1 T1. cbn beta in T1.
    destruct (with_input k (fun name => let* cls := Inputs.input_class c st ic s name k d fs add [] in ret (tree ++ [cls], def)) ki r1 T1 (Fr _ Kn)) as (a & r2 & E2 & T2).
    { intros r2 T2. apply tot_bind; [|intros; apply tot_ret]. apply tot_input_class. intros f fd Hf. split; [|eapply vs_in; eassumption]. eapply Leaf; [exact T2|exact Hs|eauto|now left|exact UR]. }
    exists a, r2. split; [exact E2|]. destruct a as [tree' def']. assert (def' = def) as ->.
    { unfold bind in E2. destruct (generate_inputtype st k r1) as [[|] ?]; [|discriminate]. destruct (Inputs.input_class _ _ _ _ _ _ _ _ _ _ _) as [[|] ?]; [|discriminate]. unfold ret in E2. inversion E2. reflexivity. }
    apply (Registered _ _ _ T2); [|now left]. intros x [<-|[]]. exact Kn.
Qed.
Lemma prepass_total : forall r, mfold (prepass_type c st ic s rf) (input_types s) (Prepass [] [] [], []) r = (Ok (Prepass [] [] [], []), r).
Proof.
  intros r. destruct Plain as (_ & _ & U). assert (forall k d fs ds x, In (k, InputDef d fs ds) (input_types s) -> In x ds -> dir_name x <> "unionElementOf") as U' by (intros k d fs ds x H; apply inputs_in in H; now apply (U _ _ _ _ _ H)).
  clear - U'. induction (input_types s) as [|[k [d fs ds]] l IH]; [reflexivity|]. cbn.
  assert (forall acc, rfold (read_membership rf) ds acc = Ok acc) as R.
  { assert (forall x, In x ds -> dir_name x <> "unionElementOf") as D by (intros x; apply (U' k d fs ds); now left). clear - D. induction ds as [|x ds IH]; intros acc; [reflexivity|]. cbn.
    assert (read_membership rf x acc = Ok acc) as ->. { unfold read_membership. destruct acc. destruct (String.eqb_spec (dir_name x) "unionElementOf") as [X|X]; [|reflexivity]. exfalso. exact (D x (or_introl eq_refl) X). }
    cbn. apply IH. intros y Hy. apply D. now right. }
  unfold bind at 1, prepass_type. cbn [id_dirs pp_discr]. unfold bind at 1, lift. rewrite R. cbn. apply IH. intros k' d' fs' ds' x H. apply (U' k' d' fs' ds'). now right.
Qed.
Lemma inputs_plugin_total : forall r, tables ks ke [] [] [] r -> exists l r', inputs_plugin c st ic s docs r = (Ok l, r') /\ exists ki, tables ks ke ki [] [] r' /\ forall kv, In kv (input_types s) -> kept_in kv -> In (fst kv) ki.
Proof.
  intros r T. set (Fin := fun (_ : list stmt) r => exists ki, tables ks ke ki [] [] r /\ forall kv, In kv (input_types s) -> kept_in kv -> In (fst kv) ki).
  unfold inputs_plugin. eapply bind_ex; [apply tot_tables; [apply tot_miter; intros; apply tot_import|exact T]|]. intros u r1 T1. cbn beta in T1. unfold Inputs.generate_inputs.
  eapply (bind_exv _ _ _ (fun a r => a = rf /\ r = r1) Fin); [exists rf, r1; auto|]. intros rf' r2 (-> & ->).
  eapply (bind_exv _ _ _ (fun _ r => tables ks ke [] [] [] r) Fin); [apply tot_tables; [apply tot_miter; intros; apply tot_import|exact T1]|]. intros _ r2 T2.
  eapply (bind_exv _ _ _ (fun a r => a = (Prepass [] [] [], []) /\ r = r2) Fin); [rewrite prepass_total; eauto|]. intros a r3 (-> & ->). cbn [fst snd].
  destruct (mfold_total (main_type c st ic s rf (Prepass [] [] [])) loop_inv (input_types s) ([], []) r2) as ([tree def] & r4 & E4 & I).
  { exists []. split; [exact T2|]. cbn. repeat split; try constructor; intros; try contradiction; intros ? []. }
  { intros. eapply main_step; eassumption. }
  eapply (bind_exv _ _ _ (fun a r => a = (tree, def) /\ r = r4) Fin); [eauto|]. intros a r5 (-> & ->). cbn [fst snd].
  destruct I as (ki & T4 & I1 & I2 & I3 & I4 & I5 & I6). cbn [snd] in *.
  eapply (bind_exv _ _ _ Fin); [|intros a r5 H5; eexists; eexists; split; [reflexivity|exact H5]].
  match goal with |- context [mconcat ?f _ _] => destruct (mconcat_total f (fun pre r => tables ks ke (ki ++ map fst pre) [] [] r) def r4) as (l & r5 & E5 & T5) end; [cbn; rewrite app_nil_r; exact T4| |].
  2: { exists l, r5. split; [exact E5|]. eexists. split; [exact T5|]. intros kv Hkv HP. apply in_app_iff. destruct (I5 _ Hkv HP) as [X|(_ & X)]; auto. }
  intros pre [k ms] post r5 E T5. cbn [fst snd]. rewrite map_app, app_assoc. cbn [map fst]. unfold generate_oneof_direct_union. cbn zeta. apply with_input; [exact T5| |].
  - rewrite in_app_iff. intros [X|X]; [apply (I2 _ X); rewrite E, map_app; apply in_elt|]. rewrite E in I4. apply NoDup_mid in I4. exact (I4 X).
  - intros r6 T6. apply tot_bind.
    { apply tot_mmap. intros [f m] Hm. apply tot_bind; [|intros; apply tot_ret]. unfold get_inputtype_class. apply tot_gets. intros r7 (_ & _ & S & _). rewrite S. cbn [snd].
      assert (dmem m (r_inputs r6) = true) as D.
      { apply dmem_In. destruct T6 as (_ & _ & -> & _). destruct (I6 (k, ms) (f, m)) as (kv & H1 & H2 & H3); [rewrite E; apply in_elt|exact Hm|]. cbn in H2. rewrite <- H2. rewrite !in_app_iff. left; left. destruct H3 as (H3 & H4). destruct (I5 _ H1 H4) as [X|(X & _)]; [exact X|congruence]. }
      unfold dmem in D. destruct (dget m (r_inputs r6)); [apply tot_ret|discriminate]. }
    intros cls. apply tot_bind; [apply tot_optimport|]. intros _. apply tot_bind; [apply tot_import|]. intros _. apply tot_bind; [apply tot_import|]. intros; apply tot_ret.
Qed.
End Inputs.
