(** Names looked up by the enum and input part of a module: the whole module. *)
From Verif Require Import Base PyAst Gql Config Stylers Registry Utils Referencer Enums Inputs Run
  Spec_Types Spec_Inputs Spec_Refs Spec_Imports Spec_Scope P_Base P_Monad P_Types P_Inputs P_Inputs2 P_Inputs3 P_Imports
  P_Enums P_InputProps P_Scope P_Scope2 P_Scope3.

(** ** every input type that is not skipped is registered *)
Section Cover.
Variables (st : list styler) (c : gconfig) (pc : inputs_config) (s : schema) (rf : option refs).
Definition present (key : string) (r : reg) : Prop := dget key (r_inputs r) <> None.
Lemma present_rle : forall key r r', rle r r' -> present key r -> present key r'.
Proof.
  intros key r r' R H. unfold present in *. destruct (dget key (r_inputs r)) as [x|] eqn:E; [|contradiction].
  rewrite (rle_inputs _ _ R _ _ E). discriminate.
Qed.
Lemma present_new : forall key name r r', generate_inputtype st key r = (Ok name, r') -> present key r'.
Proof.
  intros key name r r' H. apply generate_in_spec in H. destruct H as (_ & -> & ->). unfold present. cbn. rewrite dget_dset, String.eqb_refl. discriminate.
Qed.
Lemma inputs_rle : forall {A} (m : M A) r a r', ev st inputs_kinds m -> m r = (Ok a, r') -> rle r r'.
Proof. intros A m r a r' HE H. eapply evolve_rle. eapply ev_ok; eassumption. Qed.
Lemma prepass_covers : forall acc kt r acc' r', prepass_type c st pc s rf acc kt r = (Ok acc', r') ->
  (forall key, In key (pp_types (fst acc)) -> present key r) -> forall key, In key (pp_types (fst acc')) -> present key r'.
Proof.
  intros [p tree] [key t] r acc' r' H HI. pose proof (inputs_rle _ _ _ _ (ev_prepass_type c st pc s rf (p, tree) (key, t)) H) as R.
  unfold prepass_type in H. apply bind_ok in H. destruct H as ([ms discr] & r1 & H1 & H). apply lift_ok in H1. destruct H1 as [H1 ->].
  destruct ms as [|m0 ms0].
  - apply ret_ok in H. destruct H as [-> ->]. exact HI.
  - apply bind_ok in H. destruct H as (ds & r2 & H2 & H). apply lift_ok in H2. destruct H2 as [H2 ->].
    apply bind_ok in H. destruct H as (name & r3 & H3 & H). apply bind_ok in H. destruct H as (stm & r4 & H4 & H).
    apply ret_ok in H. destruct H as [-> ->]. cbn [fst snd pp_types]. intros k Hk. apply sadd_In in Hk. destruct Hk as [->|Hk].
    + eapply present_rle; [|eapply present_new; exact H3].
      eapply inputs_rle; [|exact H4]. eapply ev_incl; [|apply ev_generate_input_type]. incl_tac.
    + eapply present_rle; [exact R|]. now apply HI.
Qed.
Lemma main_covers : forall p acc key t r acc' r', main_type c st pc s rf p acc (key, t) r = (Ok acc', r') ->
  (forall k, In k (pp_types p) -> present k r) ->
  incl (map fst (snd acc)) (map fst (snd acc'))
  /\ (~ input_skipped (ic_skip_underscore pc) (refd rf) key -> present key r' \/ In key (map fst (snd acc'))).
Proof.
  intros p [tree deferred] key t r acc' r' H HI. unfold main_type in H.
  destruct (mem_spec key (pp_types p)) as [Hk|_].
  { apply ret_ok in H. destruct H as [-> ->]. split; [apply incl_refl|]. intros _. left. now apply HI. }
  destruct (match rf with Some r0 => negb (mem key (rf_inputs r0)) | None => false end) eqn:U.
  { apply ret_ok in H. destruct H as [-> ->]. split; [apply incl_refl|]. intros N. exfalso. apply N, skipped_dec. now rewrite U. }
  destruct (ic_skip_underscore pc && startswith "_" key) eqn:US.
  { apply ret_ok in H. destruct H as [-> ->]. split; [apply incl_refl|]. intros N. exfalso. apply N, skipped_dec. now rewrite US, orb_true_r. }
  destruct (is_oneof_input_type _).
  - apply bind_ok in H. destruct H as (u & r1 & _ & H). cbn zeta in H.
    assert (WR : (let* l := generate_oneof_wrapper_input c st pc s key (id_fields t) in ret (tree ++ l, deferred)) r1 = (Ok acc', r') ->
       incl (map fst deferred) (map fst (snd acc')) /\ (~ input_skipped (ic_skip_underscore pc) (refd rf) key -> present key r' \/ In key (map fst (snd acc')))).
    { clear H. intros H. apply bind_ok in H. destruct H as (l & r2 & H1 & H). apply ret_ok in H. destruct H as [-> ->]. cbn [snd].
      split; [apply incl_refl|]. intros _. left. unfold generate_oneof_wrapper_input in H1.
      apply bind_ok in H1. destruct H1 as (ab & r3 & _ & H1). apply bind_ok in H1. destruct H1 as (l' & r4 & _ & H1).
      apply bind_ok in H1. destruct H1 as (alias & r5 & H5 & H1). apply bind_ok in H1. destruct H1 as (a & r6 & H6 & H1).
      apply ret_ok in H1. destruct H1 as [_ ->]. eapply present_rle; [|eapply present_new; exact H5].
      eapply inputs_rle; [|exact H6]. unfold generate_union_alias. ev_tac. }
    destruct (if String.eqb _ _ then _ else _) as [ms|]; [|auto]. destruct (existsb _ ms); [auto|].
    apply ret_ok in H. destruct H as [-> ->]. cbn [snd]. rewrite map_app. split; [apply incl_appl, incl_refl|]. intros _. right.
    apply in_or_app. right. now left.
  - destruct (dget key (pp_unions p)) as [members|].
    + apply bind_ok in H. destruct H as (u1 & r1 & _ & H). apply bind_ok in H. destruct H as (u2 & r2 & _ & H).
      apply bind_ok in H. destruct H as (u3 & r3 & _ & H). apply bind_ok in H. destruct H as (alias & r4 & H4 & H).
      apply ret_ok in H. destruct H as [-> ->]. cbn [snd]. split; [apply incl_refl|]. intros _. left. eapply present_new; exact H4.
    + apply bind_ok in H. destruct H as (ab & r1 & _ & H). apply bind_ok in H. destruct H as (name & r2 & H2 & H).
      apply bind_ok in H. destruct H as (stm & r3 & H3 & H). apply ret_ok in H. destruct H as [-> ->]. cbn [snd].
      split; [apply incl_refl|]. intros _. left. eapply present_rle; [|eapply present_new; exact H2].
      eapply inputs_rle; [|exact H3]. eapply ev_incl; [|apply ev_input_class]. incl_tac.
Qed.
Lemma direct_covers : forall key ms r out r', generate_oneof_direct_union st key ms r = (Ok out, r') -> present key r'.
Proof.
  intros key ms r out r' H. unfold generate_oneof_direct_union in H.
  apply bind_ok in H. destruct H as (alias & r1 & H1 & H). eapply present_rle; [|eapply present_new; exact H1].
  eapply inputs_rle; [|exact H]. cbn zeta. unfold get_inputtype_class. ev_tac.
Qed.
End Cover.

Section Plugin.
Variables (st : list styler) (bi : list string).
Hypothesis Hbi : incl simple_types bi.
Variables (c : gconfig) (pc : inputs_config) (s : schema) (sc : dict string).
Hypothesis Hsc : forall n t, dget n sc = Some t -> has_dot t = false -> In t bi.
Hypothesis Hforce : c_force_plugin_order c = true.
Hypothesis ND : NoDup (dkeys (s_types s)).
Notation cls n := (style_inputtype_class st n).

Lemma loops_scope : forall rf (ok : string -> Prop) tree0 r r',
  (forall key t, In (key, t) (schema_inputs s) -> ~ input_skipped (ic_skip_underscore pc) (refd rf) key -> fields_ok s ok t) ->
  (forall key t, In (key, t) (schema_inputs s) -> union_member (refd rf) t -> fields_ok s ok t) ->
  forall out, J st bi pc s sc ok tree0 r ->
  (let* x := mfold (prepass_type c st pc s rf) (input_types s) (Prepass [] [] [], []) in
   let* y := mfold (main_type c st pc s rf (fst x)) (input_types s) (snd x, []) in
   let* l := mconcat (fun km => generate_oneof_direct_union st (fst km) (snd km)) (snd y) in
   ret (fst y ++ l)) r = (Ok out, r') ->
  J st bi pc s sc ok (tree0 ++ out) r'
  /\ forall key t, In (key, t) (schema_inputs s) -> ~ input_skipped (ic_skip_underscore pc) (refd rf) key -> present key r' /\ In (cls key) (binds (tree0 ++ out)).
Proof.
  intros rf ok tree0 r r' Hmain Hmember out HJ H.
  apply bind_ok in H. destruct H as ([p tree] & r1 & H1 & H). apply bind_ok in H. destruct H as ([tree2 deferred] & r2 & H2 & H).
  apply bind_ok in H. destruct H as (l & r3 & H3 & H). apply ret_ok in H. destruct H as [-> ->]. cbn [fst snd] in *.
  change (input_types s) with (schema_inputs s) in *.
  assert (I1 : J st bi pc s sc ok (tree0 ++ tree) r1 /\ members_bound p (tree0 ++ tree) /\ forall key, In key (pp_types p) -> present key r1).
  { pose (P := fun (pre : list (string * inputdef)) (acc : prepass * list stmt) (r : reg) =>
      J st bi pc s sc ok (tree0 ++ snd acc) r /\ members_bound (fst acc) (tree0 ++ snd acc) /\ forall key, In key (pp_types (fst acc)) -> present key r).
    refine (mfold_ok _ P _ _ _ _ _ H1 _ _).
    - unfold P. cbn. rewrite app_nil_r. split; [exact HJ|]. split; [intros u l0 n [=]|contradiction].
    - intros pre x post acc ra acc' rb E (A & B & D) Hs.
      destruct (prepass_scope st bi Hbi c pc s sc rf Hsc Hforce ok Hmember tree0 acc x ra acc' rb) as [A' B']; auto.
      { change (input_types s) with (schema_inputs s) in E. rewrite E. apply in_or_app. right; now left. }
      split; [exact A'|]. split; [exact B'|]. eapply prepass_covers; eassumption. }
  destruct I1 as (A1 & B1 & D1).
  assert (I2 : J st bi pc s sc ok (tree0 ++ tree2) r2 /\ Forall deferred_ok deferred
     /\ forall key t, In (key, t) (schema_inputs s) -> ~ input_skipped (ic_skip_underscore pc) (refd rf) key -> present key r2 \/ In key (map fst deferred)).
  { pose (P := fun (pre : list (string * inputdef)) (acc : list stmt * list (string * list (string * string))) (r : reg) =>
      J st bi pc s sc ok (tree0 ++ fst acc) r /\ members_bound p (tree0 ++ fst acc) /\ Forall deferred_ok (snd acc)
      /\ (forall key, In key (pp_types p) -> present key r)
      /\ forall key t, In (key, t) pre -> ~ input_skipped (ic_skip_underscore pc) (refd rf) key -> present key r \/ In key (map fst (snd acc))).
    assert (Q : P (schema_inputs s) (tree2, deferred) r2).
    { refine (mfold_ok _ P _ _ _ _ _ H2 _ _).
      - unfold P. cbn [fst snd]. split; [exact A1|]. split; [exact B1|]. split; [constructor|]. split; [exact D1|]. intros key t [].
      - intros pre [key t] post acc ra acc' rb E (A & B & D & F & G) Hs.
        assert (Hin : In (key, t) (schema_inputs s)).
        { change (input_types s) with (schema_inputs s) in E. rewrite E. apply in_or_app. right; now left. }
        destruct (main_scope st bi Hbi c pc s sc rf Hsc Hforce ND ok Hmain p tree0 acc (key, t) ra acc' rb) as (A' & B' & D'); auto.
        destruct (main_covers st c pc s rf p acc key t ra acc' rb Hs F) as [M1 M2].
        pose proof (inputs_rle st _ _ _ _ (ev_main_type c st pc s rf p acc (key, t)) Hs) as R.
        split; [exact A'|]. split; [exact B'|]. split; [exact D'|]. split; [intros k Hk; eapply present_rle; [exact R|auto]|].
        intros k t' Hk N. apply in_app_or in Hk. destruct Hk as [Hk|[[= <- <-]|[]]]; [|auto].
        destruct (G k t' Hk N) as [X|X]; [left; eapply present_rle; eassumption|right; now apply M1]. }
    destruct Q as (A & _ & D & _ & G). auto. }
  destruct I2 as (A2 & D2 & G2).
  assert (I3 : J st bi pc s sc ok (tree0 ++ tree2 ++ l) r3 /\ forall key, present key r2 \/ In key (map fst deferred) -> present key r3).
  { apply mconcat_ok in H3. destruct H3 as (lss & H3 & ->). rewrite app_assoc.
    generalize dependent (tree0 ++ tree2). clear G2 H2. revert r2 lss H3. induction D2 as [|km ds Hkm HD IH]; intros r2 lss H3 T JT; cbn in H3.
    - apply ret_ok in H3. destruct H3 as [-> ->]. cbn. rewrite app_nil_r. split; [exact JT|]. intros k [H|[]]; exact H.
    - apply bind_ok in H3. destruct H3 as (o & ra & Ha & H3). apply bind_ok in H3. destruct H3 as (os & rb & Hb & H3).
      apply ret_ok in H3. destruct H3 as [-> ->].
      pose proof (direct_scope st bi Hbi pc s sc ok T km r2 o ra Hkm JT Ha) as Ja. destruct (IH _ _ Hb _ Ja) as [Jb Pb].
      cbn [concat]. rewrite app_assoc. split; [exact Jb|]. intros k [H|[<-|H]]; apply Pb.
      + left. eapply present_rle; [|exact H]. eapply (inputs_rle st); [|exact Ha]. unfold generate_oneof_direct_union, get_inputtype_class. ev_tac.
      + left. eapply direct_covers; exact Ha.
      + now right. }
  destruct I3 as [J3 P3]. split; [exact J3|]. intros key t Hk N. specialize (P3 key (G2 key t Hk N)). split; [exact P3|]. unfold present in P3.
  apply (j_reg _ _ _ _ _ _ _ _ J3). left. exists key. destruct (dget key (r_inputs r3)) as [x|] eqn:E; [|contradiction].
  f_equal. destruct (j_ready _ _ _ _ _ _ _ _ J3) as [(HN & _) _]. now apply HN.
Qed.
End Plugin.

(** ** the enum plugin *)
Section Enums.
Variables (st : list styler) (bi : list string).
Hypothesis Hbi : incl simple_types bi.
Variables (s : schema) (sc : dict string) (ok : string -> Prop).
Definition no_bases : inputs_config := InputsConfig [] false false.
Lemma J_bases : forall pc tree r, J st bi no_bases s sc ok tree r -> (forall b, In b (ic_bases pc) -> given bi r (last_comp b)) ->
  J st bi pc s sc ok tree r.
Proof. intros pc tree r [J1 J2 J3 J4 J5 JD J6] HB. split; auto. Qed.
Lemma enum_body_runs : forall d vs, flat_map runs (class_doc d :: flat_map enum_member vs) = []
  /\ class_quotes (class_doc d :: flat_map enum_member vs) = [].
Proof.
  intros d vs. split; cbn.
  - induction vs as [|[k v] vs IH]; cbn; [reflexivity|]. destruct (truthy _); cbn; exact IH.
  - unfold class_quotes. cbn. induction vs as [|[k v] vs IH]; cbn; [reflexivity|]. destruct (truthy _); cbn; exact IH.
Qed.
Lemma enum_step : forall tree key d vs r cn r', J st bi no_bases s sc ok tree r -> given bi r "Enum" -> generate_enum st key r = (Ok cn, r') ->
  J st bi no_bases s sc ok (tree ++ [SClass cn [EName "str"; EName "Enum"] (class_doc d :: flat_map enum_member vs) []]) r'
  /\ given bi r' "Enum".
Proof.
  intros tree key d vs r cn r' [J1 J2 J3 J4 J5 JD J6] HE H.
  pose proof (ev_ok _ _ _ _ _ _ (ev_generate_enum st key) H) as E. pose proof (evolve_rle _ _ _ _ E) as R.
  apply generate_in_spec in H. destruct H as (HN & -> & ->).
  destruct (enum_body_runs d vs) as [B1 B2]. split; [|eapply given_rle; eassumption]. split.
  - destruct J1 as [A B]. split; [eapply names_styled_evolve; eassumption|exact B].
  - intros b [].
  - apply scoped_snoc; [eapply scoped_mono; [|exact J3]; intros n; apply given_rle, R|].
    intros n Hn. change (In n (["str"; "Enum"] ++ [] ++ flat_map runs (class_doc d :: flat_map enum_member vs))) in Hn.
    rewrite B1 in Hn. destruct Hn as [<-|[<-|[]]]; left; [left; apply Hbi; cbn; tauto|]. eapply given_rle; eassumption.
  - intros n Hn. rewrite binds_app, in_app_iff. cbn [binds flat_map bound_by app In].
    destruct Hn as [Hn|(k & Hk)]; [left; apply J4; left; exact Hn|]. cbn [r_enums with_enums] in Hk. rewrite dget_dset in Hk.
    destruct (String.eqb k key); [right; left; congruence|left; apply J4; right; eauto].
  - intros n Hn. destruct (J5 n Hn) as (b' & body' & d' & Hin). do 3 eexists. apply in_or_app. left; exact Hin.
  - apply Forall_app. split; [exact JD|]. repeat constructor.
  - intros nm b' body' d' n Hin Hq. apply in_app_or in Hin. destruct Hin as [Hin|[[= <- <- <- <-]|[]]].
    + destruct (J6 nm b' body' d' n Hin Hq) as [A B]. split; [exact A|eapply ok_given; eassumption].
    + exfalso. revert Hq. match goal with |- In _ (class_quotes ?b) -> _ => change (In n (class_quotes (class_doc d :: flat_map enum_member vs)) -> False) end.
      rewrite B2. contradiction.
Qed.
Lemma enums_scope : forall c ec documents out r', sc = r_scalars (init_reg c) ->
  enums_plugin c st ec s documents (init_reg c) = (Ok out, r') ->
  J st bi no_bases s sc ok out r' /\ given bi r' "Enum".
Proof.
  intros c ec documents out r' ES H. unfold enums_plugin in H. apply bind_ok in H. destruct H as (u & r1 & H1 & H).
  pose proof (import_given bi Hbi _ _ _ _ H1) as HE. change (last_comp "enum.Enum") with "Enum" in HE.
  unfold generate_enums in H. apply bind_ok in H. destruct H as (rf & r2 & H2 & H).
  pose proof (plugin_refs_state _ _ _ _ _ _ _ H2); subst r2. apply mconcat_ok in H. destruct H as (yss & H & ->).
  assert (J0 : J st bi no_bases s sc ok [] r1).
  { eapply J_quiet; [eapply ev_ok; [|exact H1]; ev_leaf|]. split.
    - split; [apply names_styled_init|now rewrite ES].
    - intros b [].
    - exact I.
    - intros n [(k & Hk)|(k & Hk)]; discriminate.
    - intros n [].
    - constructor.
    - contradiction. }
  clear H1 H2. change (concat yss) with ([] ++ concat yss). revert J0 HE. generalize (@nil stmt). revert r1 yss H.
  generalize (enum_types s) as l. induction l as [|[key [d vs]] l IH]; intros r1 yss H tree J0 HE; cbn in H.
  - apply ret_ok in H. destruct H as [-> ->]. cbn. now rewrite app_nil_r.
  - apply bind_ok in H. destruct H as (y & r2 & H1 & H). apply bind_ok in H. destruct H as (ys & r3 & H3 & H).
    apply ret_ok in H. destruct H as [-> ->]. cbn [concat]. rewrite app_assoc. destruct (enum_skipped ec rf key).
    + apply ret_ok in H1. destruct H1 as [-> ->]. rewrite app_nil_r. eapply IH; eassumption.
    + apply bind_ok in H1. destruct H1 as (cn & r4 & H4 & H1). apply ret_ok in H1. destruct H1 as [-> ->].
      destruct (enum_step tree key d vs _ _ _ J0 HE H4) as [A B]. eapply IH; eassumption.
Qed.
End Enums.

(** ** which input types may be quoted *)
Lemma schema_inputs_type : forall s key t, NoDup (dkeys (s_types s)) -> In (key, t) (schema_inputs s) ->
  get_type s key = Some (TInput (id_desc t) (id_fields t) (id_dirs t)).
Proof.
  intros s key t ND H. unfold schema_inputs in H. apply in_flat_map in H. destruct H as ([k d] & Hin & H). cbn [fst snd] in H.
  destruct d; try contradiction. destruct H as [[= <- <-]|[]]. apply dget_In_NoDup; assumption.
Qed.
Lemma available_ok : forall skipu skip s documents rf, NoDup (dkeys (s_types s)) ->
  referenced_inputs skip s documents rf -> inputs_available skipu skip s documents ->
  let ok n := ~ input_skipped skipu rf n in
  (forall key t, In (key, t) (schema_inputs s) -> ~ input_skipped skipu rf key -> fields_ok s ok t)
  /\ (forall key t, In (key, t) (schema_inputs s) -> union_member rf t -> fields_ok s ok t).
Proof.
  intros skipu skip s documents rf ND HR [HU HA] ok. unfold referenced_inputs in HR.
  assert (U : forall n, is_input s n -> wanted rf n -> ok n).
  { intros n Hn W [X|[X Y]]; [contradiction|]. rewrite (HU X n Hn) in Y. discriminate. }
  destruct skip.
  - destruct HR as (d & l & HD & -> & HL). destruct (HA eq_refl d HD) as [UN HM]. specialize (HL UN). split.
    + intros key t Hk NS kv Hkv Hi. apply U; [exact Hi|]. intros l' [= <-]. apply HL. split; [|exact Hi].
      assert (W : In key l). { destruct (in_dec string_dec key l) as [X|X]; [exact X|]. exfalso. apply NS. left. intros W. apply X, W. reflexivity. }
      eapply needs_field; [apply HL, W|eapply schema_inputs_type; eassumption|exact Hkv].
    + intros key t Hk (u & dn & k & HB & HW) kv Hkv Hi. apply U; [exact Hi|]. intros l' [= <-]. apply HL. split; [|exact Hi].
      eapply HM; try eassumption. apply HL. now apply HW.
  - subst rf. assert (W : forall n, wanted None n) by (intros n l [=]). split; intros key t Hk _ kv Hkv Hi; apply U; auto.
Qed.

(** ** the module *)
Lemma split_left : forall {A} (a f pre post : list A) x, a ++ f = pre ++ x :: post -> ~ In x f ->
  exists m, a = pre ++ x :: m /\ post = m ++ f.
Proof.
  induction a as [|y a IH]; intros f pre post x H N.
  - cbn in H. exfalso. apply N. rewrite H. apply in_or_app. right; now left.
  - destruct pre as [|z pre]; cbn in H.
    + injection H as -> <-. exists a. auto.
    + injection H as -> H. destruct (IH f pre post x H N) as (m & -> & ->). exists m. auto.
Qed.
Lemma split_right : forall {A} (a f pre post : list A) x, a ++ f = pre ++ x :: post -> ~ In x a ->
  exists m, pre = a ++ m /\ f = m ++ x :: post.
Proof.
  induction a as [|y a IH]; intros f pre post x H N.
  - exists pre. auto.
  - destruct pre as [|z pre]; cbn in H.
    + injection H as -> _. exfalso. apply N. now left.
    + injection H as -> H. destruct (IH f pre post x H) as (m & -> & ->); [intros X; apply N; now right|]. exists m. auto.
Qed.
Lemma rmap_in : forall {A B} (f : A -> res B) l ys, rmap f l = Ok ys ->
  (forall y, In y ys -> exists x, In x l /\ f x = Ok y) /\ (forall x, In x l -> exists y, In y ys /\ f x = Ok y).
Proof.
  induction l as [|x l IH]; intros ys H; cbn in H.
  - injection H as <-. split; intros ? [].
  - destruct (f x) as [y|] eqn:E; [|discriminate]. cbn [rbind] in H. destruct (rmap f l) as [ys'|] eqn:E'; [|discriminate].
    cbn [rbind] in H. injection H as <-. destruct (IH ys' eq_refl) as [I1 I2]. split.
    + intros z [<-|Hz]; [exists x; split; [now left|exact E]|]. destruct (I1 z Hz) as (w & Hw & Ew). exists w. split; [now right|exact Ew].
    + intros z [<-|Hz]; [exists y; split; [now left|exact E]|]. destruct (I2 z Hz) as (w & Hw & Ew). exists w. split; [now right|exact Ew].
Qed.
Lemma built_in_blocks : forall k l (E : string -> Prop), built_in k = Some l -> E "str" -> E "Enum" ->
  scoped E l /\ Forall definition l /\ forall nm b body d, In (SClass nm b body d) l -> class_quotes body = [].
Proof.
  intros k l E H HS HE. unfold built_in in H.
  assert (EN : forall name vs, l = [enum_class name vs] -> scoped E l /\ Forall definition l /\ forall nm b body d, In (SClass nm b body d) l -> class_quotes body = []).
  { intros name vs ->. assert (X : flat_map runs (map (fun v => SAssign (EName v) (estr v)) vs) = []) by (clear; induction vs; cbn; auto).
    split; [|split].
    - split; [|exact I]. intros n Hn. change (In n (["str"; "Enum"] ++ [] ++ flat_map runs (map (fun v => SAssign (EName v) (estr v)) vs))) in Hn.
      rewrite X in Hn. destruct Hn as [<-|[<-|[]]]; assumption.
    - repeat constructor.
    - intros nm b body d [[= <- <- <- <-]|[]]. unfold class_quotes. clear. induction vs; cbn in *; auto. }
  repeat match type of H with (if ?b then _ else _) = _ => destruct b end; try discriminate; injection H as <-.
  - eapply EN; reflexivity.
  - eapply EN; reflexivity.
  - split; [|split].
    + cbn. split; [contradiction|]. split; [|exact I]. intros n [<-|[]]. right. now left.
    + repeat constructor.
    + intros nm b body d [[= <- <- <- <-]|[[=]|[]]]. reflexivity.
  - split; [cbn; split; [contradiction|exact I]|]. split; [repeat constructor|]. intros nm b body d [[= <- <- <- <-]|[]]. reflexivity.
  - split; [cbn; split; [contradiction|exact I]|]. split; [repeat constructor|]. intros nm b body d [[= <- <- <- <-]|[]]. reflexivity.
Qed.
Lemma scoped_concat : forall (E : string -> Prop) ls, (forall l, In l ls -> scoped E l) -> scoped E (concat ls).
Proof.
  intros E ls. revert E. induction ls as [|l ls IH]; intros E H; [exact I|]. cbn. apply scoped_app. split; [apply H; now left|].
  apply IH. intros l' Hl'. eapply scoped_mono; [|apply H; right; exact Hl']. auto.
Qed.
Lemma imports_scoped : forall (E : string -> Prop) l, Forall is_import l -> scoped E l.
Proof.
  intros E l H. revert E. induction H as [|x l Hx _ IH]; intros E; [exact I|]. split; [|apply IH].
  destruct x; try contradiction; cbn; contradiction.
Qed.
Lemma bindings_binds : forall l n d, In (n, d) (bindings l) -> In n (binds l).
Proof.
  intros l n d H. unfold bindings in H. apply in_flat_map in H. destruct H as (x & Hx & H). apply in_flat_map. exists x. split; [exact Hx|].
  destruct x; try contradiction; cbn in *; apply in_map_iff in H; destruct H as (y & [= <- _] & Hy); exact Hy.
Qed.
Lemma rebuilds_forward : forall c m n, rebuilds (forward_call c m) n -> m = n.
Proof. intros c m n. unfold forward_call. intros [[= -> _]|[= -> _]]; reflexivity. Qed.
Lemma forward_rebuilds : forall c n, rebuilds (forward_call c n) n.
Proof. intros c n. unfold forward_call. destruct (String.eqb _ _); [now left|now right]. Qed.

Theorem module_scope : forall bi c st ec pc s documents iter t,
  incl simple_types bi ->
  (forall n x, dget n (r_scalars (init_reg c)) = Some x -> has_dot x = false -> In x bi) ->
  c_force_plugin_order c = true -> NoDup (dkeys (s_types s)) -> set_order iter ->
  inputs_available (ic_skip_underscore pc) (skipping c (ic_skip_unreferenced pc)) s documents ->
  forall a b,
  generate_ast c iter [Plugin a (enums_plugin c st ec s documents); Plugin b (inputs_plugin c st pc s documents)] false = Ok t ->
  scoped (fun n => In n bi) t /\ quotes_resolved (fun n => In n bi) t /\ rebuilds_defined t.
Proof.
  intros bi c st ec pc s documents iter t Hbi Hsc Hforce ND Hiter HAV na nb H.
  unfold generate_ast in H. cbn [run_plugins pl_generate pl_name] in H.
  destruct (enums_plugin c st ec s documents (init_reg c)) as [[t0|] r0] eqn:HE; [|discriminate].
  destruct (inputs_plugin c st pc s documents r0) as [[t1|] r] eqn:HI; [|discriminate].
  cbn [rbind app] in H. destruct (generate_builtins iter r) as [bs|] eqn:HB; [|discriminate]. cbn [rbind] in H. injection H as <-.
  unfold inputs_plugin in HI. apply bind_ok in HI. destruct HI as (u & r1 & HI1 & HI).
  unfold generate_inputs in HI. apply bind_ok in HI. destruct HI as (rf & r2 & HI2 & HI).
  pose proof (plugin_refs_state _ _ _ _ _ _ _ HI2); subst r2. apply bind_ok in HI. destruct HI as (u2 & r3 & HI3 & HI).
  pose proof (plugin_refs_inputs _ _ _ _ _ _ HI2) as HRF.
  destruct (available_ok _ _ _ _ _ ND HRF HAV) as [Hmain Hmember].
  set (ok := fun n => ~ input_skipped (ic_skip_underscore pc) (refd rf) n) in *.
  destruct (enums_scope st bi Hbi s (r_scalars (init_reg c)) ok c ec documents t0 r0 eq_refl HE) as [J0 GE].
  assert (QI : forall l ra v rb, miter register_import l ra = (Ok v, rb) -> evolve st [KImp; KBui] ra rb).
  { intros l ra v rb HX. eapply ev_ok; [|exact HX]. ev_tac. }
  assert (J1 : J st bi pc s (r_scalars (init_reg c)) ok t0 r3).
  { apply J_bases; [|apply (bases_given bi r3 Hbi _ _ _ HI3)].
    eapply J_quiet; [eapply QI; exact HI3|]. eapply J_quiet; [eapply QI; exact HI1|]. exact J0. }
  destruct (loops_scope st bi Hbi c pc s (r_scalars (init_reg c)) Hsc Hforce ND rf ok t0 r3 r Hmain Hmember t1 J1 HI) as [JF CV0].
  assert (CV : forall key t, In (key, t) (schema_inputs s) -> ~ input_skipped (ic_skip_underscore pc) (refd rf) key -> In (style_inputtype_class st key) (binds (t0 ++ t1))) by (intros key t Hk HN; eapply CV0; eassumption).
  assert (GE' : given bi r "Enum").
  { eapply given_rle; [|exact GE]. eapply evolve_rle. eapply ev_ok; [|].
    2:{ instantiate (1 := t1). instantiate (1 := inputs_plugin c st pc s documents). unfold inputs_plugin, generate_inputs, bind. rewrite HI1, HI2, HI3. exact HI. }
    apply ev_inputs_plugin. }
  destruct JF as [_ _ F3 _ F5 FD F6]. set (tree := t0 ++ t1) in *.
  unfold generate_builtins in HB. destruct (rmap _ (iter (r_builtins r))) as [blocks|] eqn:HBL; [|discriminate]. cbn [rbind] in HB. injection HB as <-.
  destruct (rmap_in _ _ _ HBL) as [BL1 BL2]. clear HBL.
  pose proof (imports_are_imports iter r) as II. destruct (generate_imports_spec iter Hiter r) as [_ IS].
  set (imps := generate_imports iter r) in *. set (F := generate_forward_refs c r).
  assert (IB : forall d, In d (r_imports r) -> In (last_comp d) (binds imps)).
  { intros d Hd. eapply bindings_binds. apply IS. split; [exact Hd|reflexivity]. }
  assert (BB : forall l, In l blocks -> exists k, In k (r_builtins r) /\ built_in k = Some l).
  { intros l Hl. destruct (BL1 l Hl) as (k & Hk & E). exists k. split; [now apply (iter_In iter Hiter)|]. destruct (built_in k); [congruence|discriminate]. }
  assert (BN : forall k l, In k (r_builtins r) -> built_in k = Some l -> In l blocks).
  { intros k l Hk E. destruct (BL2 k) as (y & Hy & E'); [now apply (iter_In iter Hiter)|]. rewrite E in E'. injection E' as ->. exact Hy. }
  assert (GB : forall n, given bi r n -> In n bi \/ In n (binds (imps ++ concat blocks))).
  { intros n [Hn|[(d & Hd & <-)|(k & l & Hk & E & Hn)]]; [now left| |]; right; rewrite binds_app, in_app_iff; [left; now apply IB|].
    right. unfold binds in *. apply in_flat_map in Hn. destruct Hn as (x & Hx & Hn). apply in_flat_map. exists x. split; [|exact Hn].
    apply in_concat. exists l. split; [eapply BN; eassumption|exact Hx]. }
  assert (EN : In "Enum" bi \/ In "Enum" (binds imps)).
  { destruct GE' as [Hn|[(d & Hd & E)|(k & l & Hk & E & Hn)]]; [now left|right; rewrite <- E; now apply IB|].
    exfalso. unfold built_in in E. repeat match type of E with (if ?b then _ else _) = _ => destruct b end; try discriminate; injection E as <-; cbn in Hn; intuition discriminate. }
  assert (BP : forall l (E : string -> Prop), In l blocks -> E "str" -> E "Enum" ->
     scoped E l /\ Forall definition l /\ forall nm b body d, In (SClass nm b body d) l -> class_quotes body = []).
  { intros l E Hl. destruct (BB l Hl) as (k & _ & Ek). eapply built_in_blocks; exact Ek. }
  assert (FW : forall x, In x F -> exists n, x = forward_call c n /\ In n (r_fwd r)).
  { intros x Hx. unfold F, generate_forward_refs in Hx. apply in_map_iff in Hx. destruct Hx as (n & <- & Hn). exists n. split; [reflexivity|]. now apply str_sort_In. }
  assert (NF : forall nm b body d, ~ In (SClass nm b body d) F).
  { intros nm b body d HX. destruct (FW _ HX) as (n & E & _). discriminate. }
  split; [|split].
  - apply scoped_app. split; [now apply imports_scoped|]. apply scoped_app. split.
    + apply scoped_concat. intros l Hl. apply (BP l); [exact Hl|left; apply Hbi; cbn; tauto|exact EN].
    + apply scoped_app. split.
      * eapply scoped_mono; [|exact F3]. intros n Hn. destruct (GB n Hn) as [X|X]; [left; now left|]. rewrite binds_app, in_app_iff in X. tauto.
      * assert (G : forall l (E : string -> Prop), (forall x n, In x l -> In n (runs x) -> E n) -> scoped E l).
        { induction l as [|x l IHl]; intros E HX; [exact I|]. split; [intros n; apply HX; now left|]. apply IHl. intros y n Hy Hn. left. eapply HX; [right; exact Hy|exact Hn]. }
        apply G. intros x n Hx Hn. destruct (FW x Hx) as (m & -> & Hm). cbn in Hn. destruct Hn as [<-|[]].
        right. destruct (F5 m Hm) as (b & body & d & Hin). unfold binds. apply in_flat_map. eexists. split; [exact Hin|]. now left.
  - intros pre name bases body decs post n E Hq.
    rewrite !app_assoc in E. destruct (split_left _ _ _ _ _ E (NF _ _ _ _)) as (mid & EA & ->).
    assert (HT : In (SClass name bases body decs) tree).
    { assert (X : In (SClass name bases body decs) ((imps ++ concat blocks) ++ tree)) by (rewrite EA; apply in_or_app; right; now left).
      rewrite !in_app_iff in X. destruct X as [[X|X]|X]; [| |exact X]; exfalso.
      - rewrite Forall_forall in II. exact (II _ X).
      - apply in_concat in X. destruct X as (l & Hl & X). destruct (BP l (fun _ => True) Hl I I) as (_ & _ & Q). rewrite (Q _ _ _ _ X) in Hq. contradiction. }
    destruct (F6 _ _ _ _ _ HT Hq) as [HF HG].
    assert (HC : In (forward_call c name) F) by (unfold F, generate_forward_refs; apply in_map, str_sort_In, HF).
    apply in_split in HC. destruct HC as (f1 & f2 & EF). exists (mid ++ f1), (forward_call c name), f2.
    split; [rewrite EF; now rewrite <- app_assoc|]. split; [apply forward_rebuilds|].
    rewrite app_comm_cons, app_assoc, <- EA, !binds_app, !in_app_iff.
    destruct HG as [HG|(key & Hok & Hin & ->)].
    + destruct (GB n HG) as [X|X]; [now left|]. rewrite binds_app, in_app_iff in X. tauto.
    + right. left. right. destruct Hin as (dd & ff & di & Hg). apply (CV key (InputDef dd ff di)); [|exact Hok].
      unfold schema_inputs. apply in_flat_map. exists (key, TInput dd ff di). split; [|now left]. now apply dget_Some_In.
  - intros pre call post n E HR.
    rewrite !app_assoc in E. destruct (split_right _ _ _ _ _ E) as (m & -> & EF).
    { intros X. rewrite !in_app_iff in X.
      assert (HS : exists e, call = SExpr e) by (destruct HR as [->| ->]; eauto). destruct HS as (e & ->). destruct X as [[X|X]|X].
      - rewrite Forall_forall in II. exact (II _ X).
      - apply in_concat in X. destruct X as (l & Hl & X). destruct (BP l (fun _ => True) Hl I I) as (_ & Q & _). rewrite Forall_forall in Q. exact (Q _ X).
      - rewrite Forall_forall in FD. exact (FD _ X). }
    destruct (FW call) as (k & -> & Hk); [rewrite EF; apply in_or_app; right; now left|].
    apply rebuilds_forward in HR. subst k. destruct (F5 n Hk) as (b & body & d & Hin). exists b, body, d.
    apply in_or_app. left. apply in_or_app. now right.
Qed.

(** ** consequences that can be computed *)
Definition class_in (t : list stmt) (n : string) : bool :=
  existsb (fun x => match x with SClass m _ _ _ => String.eqb m n | _ => false end) t.
Lemma resolved_bound : forall (E : string -> Prop) t, quotes_resolved E t ->
  forall name bases body decs n, In (SClass name bases body decs) t -> In n (class_quotes body) -> E n \/ In n (binds t).
Proof.
  intros E t H name bases body decs n Hin Hq. apply in_split in Hin. destruct Hin as (pre & post & ->).
  destruct (H pre name bases body decs post n eq_refl Hq) as (mid & call & rest & -> & _ & [X|X]); [now left|right].
  rewrite !binds_app in *. cbn [binds flat_map] in *. rewrite in_app_iff in *. destruct X as [X|X]; [now left|right].
  apply in_app_or in X. apply in_or_app. destruct X as [X|X]; [now left|right]. unfold binds in *. rewrite flat_map_app. apply in_or_app. now left.
Qed.
Lemma rebuilds_class : forall t, rebuilds_defined t -> forall call n, In call t -> rebuilds call n -> class_in t n = true.
Proof.
  intros t H call n Hin HR. apply in_split in Hin. destruct Hin as (pre & post & ->).
  destruct (H pre call post n eq_refl HR) as (b & body & d & Hc). unfold class_in. apply existsb_exists.
  exists (SClass n b body d). split; [apply in_or_app; now left|]. apply String.eqb_refl.
Qed.
