(** Names looked up by the enum and input part of a module: classes and the plugin. *)
From Verif Require Import Base PyAst Gql Config Stylers Registry Utils Referencer Enums Inputs
  Spec_Types Spec_Inputs Spec_Refs Spec_Imports Spec_Scope P_Base P_Monad P_Types P_Inputs P_Inputs2 P_Inputs3 P_Imports P_Scope.

(** ** [scoped] *)
Lemma scoped_mono : forall l (E E' : string -> Prop), (forall n, E n -> E' n) -> scoped E l -> scoped E' l.
Proof.
  induction l as [|x l IH]; intros E E' HE H; [exact I|]. destruct H as [H1 H2]. split; [auto|].
  eapply IH; [|exact H2]. cbn. intros n [Hn|Hn]; auto.
Qed.
Lemma scoped_app : forall a b (E : string -> Prop),
  scoped E (a ++ b) <-> scoped E a /\ scoped (fun n => E n \/ In n (binds a)) b.
Proof.
  induction a as [|x a IH]; intros b E; cbn [app scoped].
  - split; [intros H; split; [exact I|]|intros [_ H]]; (eapply scoped_mono; [|exact H]); cbn; tauto.
  - rewrite IH. split.
    + intros (H1 & H2 & H3). split; [auto|]. eapply scoped_mono; [|exact H3]. cbn. intros n; rewrite in_app_iff; tauto.
    + intros ((H1 & H2) & H3). split; [auto|]. split; [exact H2|]. eapply scoped_mono; [|exact H3]. cbn. intros n; rewrite in_app_iff; tauto.
Qed.
Lemma scoped_snoc : forall a x (E : string -> Prop), scoped E a -> (forall n, In n (runs x) -> E n \/ In n (binds a)) -> scoped E (a ++ [x]).
Proof. intros a x E H1 H2. apply scoped_app. split; [exact H1|]. split; [exact H2|exact I]. Qed.
Lemma binds_app : forall a b, binds (a ++ b) = binds a ++ binds b.
Proof. intros; apply flat_map_app. Qed.
Lemma class_quotes_app : forall a b, class_quotes (a ++ b) = class_quotes a ++ class_quotes b.
Proof. intros. unfold class_quotes. now rewrite class_fields_app, flat_map_app. Qed.
Lemma bases_given : forall bi r, (incl simple_types bi) -> forall l r0 u, miter register_import l r0 = (Ok u, r) ->
  forall b, In b l -> given bi r (last_comp b).
Proof.
  intros bi r Hbi l. induction l as [|x l IH]; intros r0 u H b Hb; [contradiction|]. cbn [miter] in H.
  apply bind_ok in H. destruct H as (u1 & r1 & H1 & H). destruct Hb as [<-|Hb]; [|eapply IH; eassumption].
  eapply given_rle; [|exact (import_given bi Hbi _ _ _ _ H1)].
  eapply evolve_rle with (st := []). eapply ev_ok; [|exact H]. apply ev_miter. intros. apply ev_register_import.
Qed.

Section Classes.
Variables (st : list styler) (bi : list string).
Hypothesis Hbi : incl simple_types bi.
Variables (c : gconfig) (pc : inputs_config) (s : schema) (sc : dict string).
Hypothesis Hsc : forall n t, dget n sc = Some t -> has_dot t = false -> In t bi.
Hypothesis Hforce : c_force_plugin_order c = true.
Notation cls n := (style_inputtype_class st n).
Notation given := (given bi).
Notation step := (step st).
Notation known := (known bi).
Notation covers := (covers bi).
Notation quotes_ok := (quotes_ok bi).
Notation ready := (ready st sc).

Lemma mmap_scope : forall {A B} (f : A -> M B) p (P : A -> reg -> B -> Prop) l,
  (forall x r r' y, step p r r' -> P x r y -> P x r' y) ->
  (forall x r y r', In x l -> ready r -> f x r = (Ok y, r') -> step p r r' /\ P x r' y) ->
  forall r ys r', ready r -> mmap f l r = (Ok ys, r') -> step p r r' /\ Forall2 (fun x y => P x r' y) l ys.
Proof.
  intros A B f p P l HM. induction l as [|x l IH]; intros HF r ys r' HR H; cbn in H.
  - minv. split; [apply step_refl|constructor].
  - apply bind_ok in H. destruct H as (y & r1 & H1 & H). apply bind_ok in H. destruct H as (ys' & r2 & H2 & H).
    apply ret_ok in H. destruct H as [-> ->].
    destruct (HF x r y r1) as [S1 P1]; [now left|exact HR|exact H1|].
    destruct (IH (fun z a b d Hz => HF z a b d (or_intror Hz)) r1 ys' r2) as [S2 P2]; [eapply ready_step; eassumption|exact H2|].
    split; [eapply step_trans; eassumption|]. constructor; [eapply HM; eassumption|exact P2].
Qed.

Lemma field_annotation_scope : forall t p o r e r', ready r -> generate_input_field_annotation c st s t p o r = (Ok e, r') ->
  step p r r' /\ covers r' p (loads e) /\ quotes_ok r' p (target st s t) (quoted e).
Proof.
  intros t p o r e r' HR H. unfold generate_input_field_annotation in H.
  apply bind_ok in H. destruct H as (x & r1 & H1 & H).
  destruct (annotation_scope st bi Hbi c s sc Hsc Hforce _ _ _ _ _ _ HR H1) as (A & B & C).
  destruct (o && is_nonnull t).
  - apply bind_ok in H. destruct H as (u & r2 & H2 & H). apply ret_ok in H. destruct H as [-> ->].
    assert (S2 : step p r1 r2) by (eapply step_quiet; [|exact H2]; ev_leaf).
    split; [eapply step_trans; eassumption|]. split.
    + apply covers_cons; [left; exact (import_given bi Hbi _ _ _ _ H2)|]. eapply covers_step; eassumption.
    + eapply quotes_step; eassumption.
  - apply ret_ok in H. destruct H as [-> ->]. auto.
Qed.
Lemma field_scope : forall name k v r l r', ready r -> generate_input_field c st s name k v r = (Ok l, r') ->
  step name r r' /\ covers r' name (flat_map runs l) /\ quotes_ok r' name (target st s (if_type v)) (class_quotes l).
Proof.
  intros name k v r l r' HR H. unfold generate_input_field in H. cbn zeta in H.
  apply bind_ok in H. destruct H as (a0 & r1 & H1 & H). apply bind_ok in H. destruct H as (a & r2 & H2 & H).
  apply bind_ok in H. destruct H as (val & r3 & H3 & H). apply ret_ok in H. destruct H as [-> ->].
  destruct (field_annotation_scope _ _ _ _ _ _ HR H1) as (A1 & B1 & C1).
  destruct (metadata_scope st bi Hbi c _ _ _ name _ _ _ H2) as (A2 & B2 & C2).
  destruct (value_scope st bi Hbi _ _ _ _ name _ _ _ H3) as (A3 & B3).
  split; [eapply step_trans; [exact A1|eapply step_trans; eassumption]|]. specialize (B2 B1). rewrite <- C2 in C1.
  assert (CO : covers r3 name (loads a ++ opt_loads val)) by (apply covers_app; [eapply covers_step; eassumption|exact B3]).
  assert (QO : quotes_ok r3 name (target st s (if_type v)) (quoted a)) by (eapply quotes_step; [exact A3|]; eapply quotes_step; eassumption).
  destruct (c_document_field_metadata c && _); cbn; rewrite !app_nil_r; auto.
Qed.
Lemma discriminator_scope : forall d p r x r', discriminator_field d r = (Ok x, r') ->
  step p r r' /\ covers r' p (runs x) /\ class_quotes [x] = [].
Proof.
  intros d p r x r' H. split; [eapply step_quiet; [|exact H]; ev_leaf|]. unfold discriminator_field in H.
  apply bind_ok in H. destruct H as (u & r1 & H1 & H). apply bind_ok in H. destruct H as (u2 & r2 & H2 & H).
  apply ret_ok in H. destruct H as [-> ->]. split; [|reflexivity]. cbn.
  apply covers_cons; [left|apply covers_cons; [left|apply covers_nil]].
  - eapply given_rle; [|exact (import_given bi Hbi _ _ _ _ H1)]. eapply evolve_rle with (st := st). eapply ev_ok; [|exact H2]. apply ev_register_import.
  - exact (import_given bi Hbi _ _ _ _ H2).
Qed.

(** the targets of the fields of a type *)
Definition field_target (fields : list (string * inputfield)) (x : string) : Prop :=
  exists kv, In kv fields /\ target st s (if_type (snd kv)) x.

Lemma class_scope : forall name key desc fields ab ds r stm r', ready r ->
  (forall n, In n (flat_map loads (ab ++ input_bases pc)) -> given r n) ->
  input_class c st pc s name key desc fields ab ds r = (Ok stm, r') ->
  step name r r' /\ exists bases body decs, stm = SClass name bases body decs
    /\ covers r' name (runs stm) /\ quotes_ok r' name (field_target fields) (class_quotes body).
Proof.
  intros name key desc fields ab ds r stm r' HR HG H. unfold input_class in H.
  apply bind_ok in H. destruct H as (dfs & r1 & H1 & H). apply bind_ok in H. destruct H as (fs & r2 & H2 & H). cbn zeta in H.
  apply bind_ok in H. destruct H as (cf & r3 & H3 & H). apply ret_ok in H. destruct H as [-> ->].
  eapply (mmap_scope _ name (fun _ r x => covers r name (runs x) /\ class_quotes [x] = [])) in H1; [|intros x ra rb y HS [A B]; split; [eapply covers_step; eassumption|exact B]
    |intros x ra y rb _ _ Hx; exact (discriminator_scope _ _ _ _ _ Hx)|exact HR].
  destruct H1 as [S1 F1]. pose proof (ready_step _ _ _ _ _ S1 HR) as HR1.
  apply mconcat_ok in H2. destruct H2 as (fss & H2 & ->).
  eapply (mmap_scope _ name (fun kv r l => covers r name (flat_map runs l) /\ quotes_ok r name (target st s (if_type (snd kv))) (class_quotes l))) in H2;
    [|intros x ra rb y HS [A B]; split; [eapply covers_step; eassumption|eapply quotes_step; eassumption]| |exact HR1].
  2: { intros x ra y rb _ HRa Hx. destruct (mem _ _).
       - apply ret_ok in Hx. destruct Hx as [-> ->]. split; [apply step_refl|]. split; [apply covers_nil|apply quotes_nil].
       - exact (field_scope _ _ _ _ _ _ HRa Hx). }
  destruct H2 as [S2 F2]. destruct (config_scope st bi Hbi c _ _ name _ _ _ H3) as [S3 C3].
  assert (S : step name r r3) by (eapply step_trans; [exact S1|eapply step_trans; eassumption]).
  split; [exact S|]. do 3 eexists. split; [reflexivity|].
  set (post := match ds with [] => [] | _ :: _ => _ end).
  assert (PR : flat_map runs post = [] /\ class_quotes post = []).
  { unfold post. destruct ds; [auto|]. destruct (String.eqb _ _); auto. }
  assert (D1 : covers r1 name (flat_map runs dfs) /\ class_quotes dfs = []).
  { clear - F1. induction F1 as [|x y l m [A B] _ [IH1 IH2]]; [split; [apply covers_nil|reflexivity]|]. split.
    - cbn. apply covers_app; auto.
    - change (y :: m) with ([y] ++ m). rewrite class_quotes_app, B, IH2. reflexivity. }
  assert (D2 : covers r2 name (flat_map runs (concat fss)) /\ quotes_ok r2 name (field_target fields) (class_quotes (concat fss))).
  { clear - F2. assert (G : covers r2 name (flat_map runs (concat fss)) /\ forall T : string -> Prop, (forall kv n, In kv fields -> target st s (if_type (snd kv)) n -> T n) ->
      quotes_ok r2 name T (class_quotes (concat fss))).
    { induction F2 as [|x y l m [A B] _ [IH1 IH2]]; [split; [apply covers_nil|intros; apply quotes_nil]|]. cbn [concat]. split.
      - rewrite flat_map_app. apply covers_app; auto.
      - intros T HT. rewrite class_quotes_app. apply quotes_app.
        + eapply quotes_weaken; [|exact B]. intros n. apply HT. now left.
        + apply IH2. intros kv n Hk. apply HT. now right. }
    destruct G as [G1 G2]. split; [exact G1|]. apply G2. intros kv n Hk Ht. exists kv; auto. }
  assert (CF : class_quotes cf = []) by (unfold class_quotes; now rewrite (config_no_fields _ _ _ _ _ _ H3)).
  split.
  - cbn [runs flat_map app]. apply covers_app.
    + intros n Hn. left. eapply given_rle; [eapply step_rle; exact S|]. now apply HG.
    + unfold class_doc. cbn [flat_map runs docstring loads app]. rewrite !flat_map_app, (proj1 PR). cbn [app].
      apply covers_app; [eapply covers_step; [exact S3|]; eapply covers_step; [exact S2|]; exact (proj1 D1)|].
      apply covers_app; [eapply covers_step; [exact S3|]; exact (proj1 D2)|exact C3].
  - unfold class_doc. match goal with |- context [class_quotes (?d :: ?l)] => change (class_quotes (d :: l)) with (class_quotes l) end.
    rewrite !class_quotes_app, (proj2 D1), (proj2 PR), CF, !app_nil_r. cbn [app]. eapply quotes_step; [exact S3|exact (proj2 D2)].
Qed.
End Classes.
