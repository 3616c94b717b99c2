(** Names looked up by the classes of selections: type_field_node. *)
From Verif Require Import Base PyAst Gql Config Stylers Registry Utils Recurse
  Spec_Types Spec_Refs Spec_Docs Spec_Imports Spec_Scope Spec_Scope2 P_Base P_Gql P_Monad P_Types P_Imports P_Recurse P_InlineProps P_Modelled P_Scope P_Scope2 P_Scope5.

Section Nodes.
Variables (st : list styler) (bi : list string).
Hypothesis Hbi : incl simple_types bi.
Variables (c : gconfig) (s : schema) (sc : dict string).
Hypothesis Hsc : forall n t, dget n sc = Some t -> has_dot t = false -> In t bi.
Variables (T okE okU okF : string -> Prop).
Hypothesis T_obj : forall b, In b (c_object_bases c) -> T (last_comp b).
Hypothesis T_field : c_create_catchall c = false -> T "Field".
Notation adv := (adv st T).
Notation rok := (rok st s sc T okE okU okF).
Notation K := (K bi T).
Notation cov := (cov bi T).
Notation sco := (sco bi T).

Record Q (n : string) (sels : list selection) : Prop := {
  q_enum : forall e, selects s n sels e -> is_enum s e -> okE e;
  q_union : forall f, in_union s n sels f -> okU f;
  q_spread : forall f, spread_in True sels f -> okF f }.
Definition N (g : fieldnode) (n : string) : Prop :=
  (is_enum s n -> okE n) /\ (composite s n -> forall sub, fn_sels g = Some sub -> Q n sub).
Lemma Q_field : forall n sels g fd, Q n sels -> In (SelField g) sels -> fn_name g <> "__typename" ->
  get_field_def s n (fn_name g) = Some fd -> N g (gty_name (fd_type fd)).
Proof.
  intros n sels g fd [A B C] Hg HN HF. split.
  - intros HE. apply A; [|exact HE]. eapply sl_here; eassumption.
  - intros HC sub HS. split.
    + intros e He. apply A. eapply sl_below; eassumption.
    + intros f Hf. apply B. eapply iu_below; eassumption.
    + intros f Hf. apply C. eapply si_field; eassumption.
Qed.
Lemma Q_inline : forall n sels cn ds sub, Q n sels -> In (SelInline (Some cn) ds sub) sels -> Q cn sub.
Proof.
  intros n sels cn ds sub [A B C] Hi. split.
  - intros e He. apply A. eapply sl_inline; eassumption.
  - intros f Hf. apply B. eapply iu_inline; eassumption.
  - intros f Hf. apply C. eapply si_inline; [exact I|eassumption|exact Hf].
Qed.
Lemma fields_def : forall n t fs f fd, get_type s n = Some t -> Gql.type_fields t = Some fs -> f <> "__typename" -> dget f fs = Some fd ->
  get_field_def s n f = Some fd.
Proof. intros n t fs f fd H1 H2 H3 H4. unfold get_field_def. destruct (String.eqb_spec f "__typename"); [contradiction|]. now rewrite H1, H2. Qed.

Definition Qt (tfn : typer) (g : fieldnode) : Prop := forall parent fd r cs body r', N g (gty_name (fd_type fd)) -> rok r ->
  tfn g parent fd r = (Ok (cs, body), r') -> adv r r' /\ sco r' cs /\ cov r' cs (flat_map runs body).

(** classes, base classes and fields collected so far *)
Definition acc_ok (r : reg) (cs : list stmt) (bases : list string) (body : list stmt) : Prop :=
  sco r cs /\ cov r [] bases /\ cov r cs (flat_map runs body).
Lemma acc_adv : forall r r' cs bs b, adv r r' -> acc_ok r cs bs b -> acc_ok r' cs bs b.
Proof.
  intros r r' cs bs b A (H1 & H2 & H3). split; [|split]; [eapply sco_adv|eapply cov_adv|eapply cov_adv]; eassumption.
Qed.
Lemma acc_base : forall r cs bs b k, T k -> acc_ok r cs bs b -> acc_ok r cs (bs ++ [k]) b.
Proof.
  intros r cs bs b k HT (H1 & H2 & H3). split; [exact H1|]. split; [|exact H3]. apply cov_app; [exact H2|].
  apply cov_cons; [now right|apply cov_nil].
Qed.
Lemma acc_field : forall r cs bs b cs' b', acc_ok r cs bs b -> sco r cs' -> cov r cs' (flat_map runs b') -> acc_ok r (cs ++ cs') bs (b ++ b').
Proof.
  intros r cs bs b cs' b' (H1 & H2 & H3) HS HC. split; [now apply sco_app|]. split; [exact H2|]. rewrite flat_map_app.
  apply cov_app; [now apply cov_left|now apply cov_right].
Qed.
Lemma names_loads : forall l, flat_map loads (map EName l) = l.
Proof. induction l; cbn; congruence. Qed.
Lemma cov_class : forall r cs nm bases body, cov r cs (flat_map loads bases) -> cov r cs (flat_map runs body) -> cov r cs (runs (SClass nm bases body [])).
Proof. intros r cs nm bases body H1 H2. change (cov r cs (flat_map loads bases ++ [] ++ flat_map runs body)). apply cov_app; assumption. Qed.

(** ** unions *)
Lemma inline_items : forall tfn cls on sub r acc r', (forall g, In (SelField g) sub -> Qt tfn g) -> Q on sub ->
  (forall f ds, In (SelSpread f ds) sub -> okU f) -> rok r ->
  mfold (inline_item s tfn cls on) sub ([], [], []) r = (Ok acc, r') ->
  adv r r' /\ acc_ok r' (fst (fst acc)) (snd (fst acc)) (snd acc).
Proof.
  intros tfn cls on sub r acc r' HT HQ HU HR H.
  eapply (mfold_ok _ (fun pre acc r1 => adv r r1 /\ acc_ok r1 (fst (fst acc)) (snd (fst acc)) (snd acc))) in H; [exact H| |].
  - split; [apply adv_refl|]. split; [apply sco_nil|]. split; apply cov_nil.
  - intros pre x post [[cs bs] b] r1 acc' r2 E (A & O) Hx. cbn [fst snd] in O.
    assert (HX : In x sub) by (rewrite E; apply in_or_app; right; now left).
    assert (R1 : rok r1) by (eapply rok_adv; eassumption). destruct x as [g|f ds|cond ds l]; cbn [inline_item] in Hx.
    + destruct (String.eqb_spec (fn_name g) "__typename") as [|HN]; [mr Hx; auto|].
      destruct (get_type s on) as [t|] eqn:ET; [|discriminate]. destruct t; try discriminate.
      mb Hx fd r3 H1. apply from_opt_ok in H1. destruct H1 as [HF ->]. mb Hx y r3 H1. mr Hx.
      destruct y as [cs' b']. destruct (HT g HX _ _ _ _ _ _ (Q_field _ _ _ _ HQ HX HN (fields_def _ _ _ _ _ ET eq_refl HN HF)) R1 H1) as (A' & S' & C').
      split; [eapply adv_trans; eassumption|]. cbn [fst snd]. apply acc_field; [eapply acc_adv; eassumption|assumption..].
    + mb Hx i r3 H1. unfold is_interface_fragment in H1. apply gets_ok in H1. destruct H1 as [-> ->].
      destruct (mem f (r_ifrags r1)); [discriminate|]. mb Hx k r3 H1. mr Hx.
      eapply inherit_adv in H1; [|exact R1|eapply q_spread; [exact HQ|eapply si_here; exact HX]|apply (ok_union _ _ _ _ _ _ _ _ R1); eapply HU; exact HX].
      destruct H1 as [-> HK]. split; [exact A|]. cbn [fst snd]. now apply acc_base.
    + mr Hx. auto.
Qed.
Definition names_ok (r : reg) (acc : list stmt * list string) : Prop := sco r (fst acc) /\ cov r (fst acc) (snd acc).
Lemma names_adv' : forall r r' acc, adv r r' -> names_ok r acc -> names_ok r' acc.
Proof. intros r r' acc A (H1 & H2). split; [eapply sco_adv|eapply cov_adv]; eassumption. Qed.
Lemma union_items : forall tfn parent n sels r acc r', union_type s n -> all_deep (Qt tfn) sels -> (forall l, sels = Some l -> Q n l) -> rok r ->
  walk (union_item c s tfn parent) sels ([], []) r = (Ok acc, r') -> adv r r' /\ names_ok r' acc.
Proof.
  intros tfn parent n sels r acc r' HU HT HQ HR H. destruct sels as [l|]; cbn [walk] in H.
  2:{ mr H. split; [apply adv_refl|]. split; [apply sco_nil|apply cov_nil]. }
  specialize (HQ l eq_refl). eapply (mfold_ok _ (fun pre acc r1 => adv r r1 /\ names_ok r1 acc)) in H; [exact H| |].
  - split; [apply adv_refl|]. split; [apply sco_nil|apply cov_nil].
  - intros pre x post [cs ns] r1 acc' r2 E (A & O1 & O2) Hx. cbn [fst snd] in O1, O2.
    assert (HX : In x l) by (rewrite E; apply in_or_app; right; now left).
    assert (R1 : rok r1) by (eapply rok_adv; eassumption). destruct (is_typename_field x); [mr Hx; split; [exact A|split; assumption]|].
    destruct x as [g|f ds|cond ds sub]; cbn [union_item] in Hx.
    + mr Hx. split; [exact A|split; assumption].
    + mb Hx k r3 H1. mr Hx.
      eapply inherit_adv in H1; [|exact R1|eapply q_spread; [exact HQ|eapply si_here; exact HX]|apply (ok_union _ _ _ _ _ _ _ _ R1), (q_union _ _ HQ); eapply iu_here; eassumption].
      destruct H1 as [-> HK]. split; [exact A|]. split; [exact O1|]. cbn [fst snd]. apply cov_app; [exact O2|]. apply cov_cons; [now right|apply cov_nil].
    + destruct cond as [on|]; [|discriminate]. mb Hx on' r3 H1. apply from_opt_ok in H1. destruct H1 as [[= <-] ->]. cbn zeta in Hx.
      mb Hx y r3 H1. destruct y as [[nested bases] fields].
      apply inline_items in H1; [|intros g Hg; exact (HT l _ eq_refl HX g Hg)|eapply Q_inline; eassumption|intros f ds' Hf; apply (q_union _ _ HQ); eapply iu_member; eassumption|exact R1].
      destruct H1 as (A1 & (P1 & P2 & P3)). cbn [fst snd] in P1, P2, P3. assert (R3 : rok r3) by (eapply rok_adv; eassumption).
      mb Hx body r4 H1. mb Hx add r5 H2. mb Hx cfg r6 H3. mr Hx.
      assert (B1 : adv r3 r4 /\ cov r4 nested (flat_map runs body)).
      { destruct bases; [|mr H1; split; [apply adv_refl|exact P3]]. mb H1 t r7 H4. mr H1.
        apply (typename_adv st bi Hbi c T) in H4 as (A4 & C4 & _). split; [exact A4|]. cbn [flat_map]. apply cov_app; [now apply cov_any|eapply cov_adv; eassumption]. }
      destruct B1 as (A4 & C4).
      assert (B2 : adv r4 r5 /\ cov r5 nested (flat_map loads add)).
      { destruct bases as [|b0 bs0].
        - apply (additional_adv st bi Hbi c T) in H2 as (A5 & C5). split; [exact A5|now apply cov_any].
        - mr H2. split; [apply adv_refl|]. rewrite names_loads. apply cov_any. eapply cov_adv; [exact A4|exact P2]. }
      destruct B2 as (A5 & C5). assert (R5 : rok r5) by (eapply rok_adv; [exact A5|]; eapply rok_adv; [exact A4|exact R3]).
      eapply config_adv in H3; [|exact Hbi|exact R5]. destruct H3 as (A6 & C6).
      assert (A35 : adv r3 r2) by (eapply adv_trans; [exact A4|]; eapply adv_trans; [exact A5|exact A6]).
      assert (A12 : adv r1 r2) by (eapply adv_trans; [exact A1|exact A35]).
      split; [eapply adv_trans; eassumption|]. cbn [fst snd]. set (cn := parent +s+ on +s+ "InlineFragment") in *.
      assert (BODY : cov r2 nested (flat_map runs (match body ++ cfg with [] => [SPass] | b => b end))).
      { assert (X : cov r2 nested (flat_map runs (body ++ cfg))).
        { rewrite flat_map_app. apply cov_app; [eapply cov_adv; [eapply adv_trans; [exact A5|exact A6]|exact C4]|now apply cov_any]. }
        destruct (body ++ cfg); [apply cov_nil|exact X]. }
      split.
      * cbn [fst]. apply sco_app; [eapply sco_adv; [exact A12|exact O1]|]. apply sco_snoc; [eapply sco_adv; [exact A35|exact P1]|].
        apply cov_class; [|exact BODY]. rewrite flat_map_app. apply cov_app; [eapply cov_adv; [exact A6|exact C5]|]. apply cov_any. now apply names_adv.
      * cbn [fst snd]. apply cov_app; [apply cov_left; eapply cov_adv; [exact A12|exact O2]|]. intros z [<-|[]]. right.
        rewrite !binds_app, !in_app_iff. right. right. now left.
Qed.
Lemma union_adv : forall tfn parent n sels o r cs e r', union_type s n -> all_deep (Qt tfn) sels -> (forall l, sels = Some l -> Q n l) -> rok r ->
  union_annotation c s tfn parent sels o r = (Ok (cs, e), r') -> adv r r' /\ sco r' cs /\ cov r' cs (loads e).
Proof.
  intros tfn parent n sels o r cs e r' HU HT HQ HR H. unfold union_annotation in H. mb H acc r1 H1. destruct acc as [cs0 ns].
  eapply union_items in H1; [|eassumption..]. destruct H1 as (A1 & O1 & O2). cbn [fst snd] in O1, O2.
  destruct ns as [|n1 [|n2 ns]]; [discriminate| |].
  - apply ret_ok in H. destruct H as [[= -> ->] <-]. split; [exact A1|]. split; [exact O1|exact O2].
  - mb H u r2 H2. mb H e' r3 H3. apply ret_ok in H. destruct H as [[= -> ->] <-].
    apply (import_adv st bi Hbi T) in H2. destruct H2 as (A2 & G2). eapply optional_adv with (cs := cs0) in H3; [|exact Hbi]. destruct H3 as (A3 & C3).
    assert (A23 : adv r1 r') by (eapply adv_trans; eassumption). split; [eapply adv_trans; eassumption|]. split; [eapply sco_adv; eassumption|].
    apply C3. cbn [union_of loads]. change (loads (union_of (map EName (n1 :: n2 :: ns)))) with ("Union" :: flat_map loads (map EName (n1 :: n2 :: ns))). rewrite names_loads. apply cov_cons; [left; exact G2|]. eapply cov_adv; [exact A2|exact O2].
Qed.

(** ** interfaces *)
Record ip_ok (r : reg) (p : iparts) : Prop := {
  io_classes : sco r (ip_classes p);
  io_fields : cov r (ip_classes p) (flat_map runs (ip_fields p));
  io_bases : forall i k, In k (dget_list i (ip_bases p)) -> T k;
  io_inline : forall i, cov r (ip_classes p) (flat_map runs (dget_list i (ip_inline p))) }.
Lemma ip_adv : forall r r' p, adv r r' -> ip_ok r p -> ip_ok r' p.
Proof. intros r r' p A [H1 H2 H3 H4]. split; [eapply sco_adv; eassumption|eapply cov_adv; eassumption|exact H3|]. intros i. eapply cov_adv; [exact A|apply H4]. Qed.
Lemma spread_adv : forall f b r b' r', rok r -> okF f -> (forall i k, In k (dget_list i b) -> T k) -> spread_bases f b r = (Ok b', r') ->
  r' = r /\ forall i k, In k (dget_list i b') -> T k.
Proof.
  intros f b r b' r' HR HF HB H. unfold spread_bases in H. mg H m. destruct (dget f (r_iffrag r)) as [impls|] eqn:EI.
  - mr H. split; [reflexivity|]. assert (HI : forall i k, In (i, k) impls -> T k) by (intros; eapply ok_impl; eassumption).
    clear EI. revert b HB. induction impls as [|[j x] impls IH]; intros b HB i k Hk; [eapply HB; exact Hk|]. cbn [fold_left fst snd] in Hk.
    eapply IH; [intros i' k' Hk'; eapply HI; right; exact Hk'| |exact Hk]. intros i' k' Hk'. rewrite dget_list_dextend in Hk'.
    destruct (String.eqb i' j); [|eapply HB; exact Hk']. apply in_app_or in Hk'. destruct Hk' as [Hk'|[<-|[]]]; [eapply HB; exact Hk'|]. eapply HI. now left.
  - mb H x r1 H1. unfold get_fragment_type in H1. mg H1 m. apply from_opt_ok in H1. destruct H1 as [_ ->]. mb H k r1 H1. mr H.
    eapply inherit_adv in H1; [|eassumption..]. destruct H1 as [-> HT]. split; [reflexivity|]. intros i k' Hk'. rewrite dget_list_dextend in Hk'.
    destruct (String.eqb i x); [|eapply HB; exact Hk']. apply in_app_or in Hk'. destruct Hk' as [Hk'|[<-|[]]]; [eapply HB; exact Hk'|exact HT].
Qed.
Lemma inline_fields_adv : forall tfn strict parent on sub r acc r', (forall g, In (SelField g) sub -> Qt tfn g) -> Q on sub -> rok r ->
  inline_fields s tfn strict parent on sub r = (Ok acc, r') -> adv r r' /\ acc_ok r' (fst acc) [] (snd acc).
Proof.
  intros tfn strict parent on sub r acc r' HT HQ HR H. unfold inline_fields in H.
  eapply (mfold_ok _ (fun pre acc r1 => adv r r1 /\ acc_ok r1 (fst acc) [] (snd acc))) in H; [exact H| |].
  - split; [apply adv_refl|]. split; [apply sco_nil|]. split; apply cov_nil.
  - intros pre x post [cs b] r1 acc' r2 E (A & O) Hx. cbn [fst snd] in O.
    assert (HX : In x sub) by (rewrite E; apply in_or_app; right; now left).
    assert (R1 : rok r1) by (eapply rok_adv; eassumption). destruct x as [g|f ds|cond ds l]; [|mr Hx; auto..].
    destruct (String.eqb_spec (fn_name g) "__typename") as [|HN]; [mr Hx; auto|].
    mb Hx fd r3 H1. apply from_opt_ok in H1. destruct H1 as [HF ->]. mb Hx y r3 H1. mr Hx. destruct y as [cs' b'].
    destruct (HT g HX _ _ _ _ _ _ (Q_field _ _ _ _ HQ HX HN HF) R1 H1) as (A' & S' & C').
    split; [eapply adv_trans; eassumption|]. cbn [fst snd]. apply acc_field; [eapply acc_adv; eassumption|assumption..].
Qed.
Lemma iface_items : forall tfn strict fields parent n d is sels p0 r p r', get_type s n = Some (TInterface d is fields) ->
  (forall x, In x sels -> deep (Qt tfn) x) -> Q n sels -> rok r -> ip_ok r p0 ->
  walk (iface_item s tfn strict fields parent) (Some sels) p0 r = (Ok p, r') -> adv r r' /\ ip_ok r' p.
Proof.
  intros tfn strict fields parent n d is sels p0 r p r' HN HT HQ HR H0 H. cbn [walk] in H.
  eapply (mfold_ok _ (fun pre p r1 => adv r r1 /\ ip_ok r1 p)) in H; [exact H| |].
  - split; [apply adv_refl|exact H0].
  - intros pre x post q r1 p' r2 E (A & O) Hx. assert (HX : In x sels) by (rewrite E; apply in_or_app; right; now left).
    assert (R1 : rok r1) by (eapply rok_adv; eassumption). destruct (is_typename_field x) eqn:TN; [mr Hx; auto|].
    destruct x as [g|f ds|cond ds sub]; cbn [iface_item] in Hx.
    + assert (GN : fn_name g <> "__typename") by (intros X; cbn in TN; rewrite X in TN; discriminate).
      mb Hx fd r3 H1. apply from_opt_ok in H1. destruct H1 as [HF ->]. mb Hx y r3 H1. mr Hx. destruct y as [cs' b'].
      destruct (HT _ HX _ _ _ _ _ _ (Q_field _ _ _ _ HQ HX GN (fields_def _ _ _ _ _ HN eq_refl GN HF)) R1 H1) as (A' & S' & C').
      split; [eapply adv_trans; eassumption|]. pose proof (ip_adv _ _ _ A' O) as [I1 I2 I3 I4]. split; cbn [ip_classes ip_fields ip_bases ip_inline fst snd].
      * now apply sco_app.
      * rewrite flat_map_app. apply cov_app; [now apply cov_left|now apply cov_right].
      * exact I3.
      * intros i. apply cov_left, I4.
    + mb Hx b r3 H1. mr Hx. eapply spread_adv in H1; [|exact R1|eapply q_spread; [exact HQ|eapply si_here; exact HX]|apply (io_bases _ _ O)].
      destruct H1 as [-> HB]. split; [exact A|]. destruct O as [I1 I2 I3 I4]. split; assumption.
    + destruct cond as [on|]; [|discriminate]. mb Hx on' r3 H1. apply from_opt_ok in H1. destruct H1 as [[= <-] ->]. mb Hx u r3 H1.
      assert (r3 = r1) as -> by (destruct (get_type s on) as [[]|], strict; try discriminate; apply ret_ok in H1; destruct H1; congruence).
      mb Hx y r3 H2. mr Hx. destruct y as [cs' b'].
      apply inline_fields_adv in H2; [|intros g Hg; exact (HT _ HX g Hg)|eapply Q_inline; eassumption|exact R1]. destruct H2 as (A' & S' & _ & C').
      cbn [fst snd] in *. split; [eapply adv_trans; eassumption|]. pose proof (ip_adv _ _ _ A' O) as [I1 I2 I3 I4]. split; cbn [ip_classes ip_fields ip_bases ip_inline fst snd].
      * now apply sco_app.
      * now apply cov_left.
      * exact I3.
      * intros i. rewrite dget_list_dextend. destruct (String.eqb i on); [|apply cov_left, I4]. rewrite flat_map_app. apply cov_app; [apply cov_left, I4|now apply cov_right].
Qed.
Lemma T_names : forall r cs l, (forall k, In k l -> T k) -> cov r cs (flat_map loads (map EName l)).
Proof. intros r cs l H. rewrite names_loads. intros n Hn. left; right; auto. Qed.
(** the class of an implementing type, next to the classes [cs] that include its mother *)
Lemma implementing_adv : forall mother cls p i r cs x r', In mother (binds cs) -> incl (binds (ip_classes p)) (binds cs) -> ip_ok r p ->
  implementing_class c s mother cls p i r = (Ok x, r') -> adv r r' /\ cov r' cs (runs x) /\ bound_by x = [cls] /\ given bi r' "Field".
Proof.
  intros mother cls p i r cs x r' HM HI HP H. unfold implementing_class in H. cbn zeta in H. mb H add r1 H1. mb H ib r2 H2. mb H t r3 H3. mr H.
  apply (additional_adv st bi Hbi c T) in H1 as (A1 & C1). apply (iface_bases_adv st bi Hbi c T) in H2 as (A2 & C2).
  apply (typename_adv st bi Hbi c T) in H3 as (A3 & C3 & G3). assert (A23 : adv r1 r') by (eapply adv_trans; eassumption).
  assert (A : adv r r') by (eapply adv_trans; eassumption). split; [exact A|]. split; [|split; [reflexivity|exact G3]]. apply cov_class.
  - rewrite !flat_map_app. apply cov_app; [apply T_names, (io_bases _ _ HP)|]. apply cov_app; [intros n [<-|[]]; now right|].
    apply cov_app; apply cov_any; [eapply cov_adv; [exact A23|exact C1]|eapply cov_adv; [exact A3|exact C2]].
  - cbn [app flat_map]. apply cov_app; [apply cov_nil|]. apply cov_app; [now apply cov_any|]. eapply cov_more; [exact HI|]. eapply cov_adv; [exact A|apply (io_inline _ _ HP)].
Qed.
Lemma implementing_all : forall mother cls p impls cs r xs r', In mother (binds cs) -> incl (binds (ip_classes p)) (binds cs) -> ip_ok r p ->
  mmap (fun i => implementing_class c s mother (cls i) p i) impls r = (Ok xs, r') ->
  adv r r' /\ (sco r cs -> sco r' (cs ++ xs)) /\ (forall i, In i impls -> In (cls i) (binds xs)) /\ (impls <> [] -> given bi r' "Field").
Proof.
  intros mother cls p impls. induction impls as [|i impls IH]; intros cs r xs r' HM HI HP H; cbn [mmap] in H.
  - mr H. split; [apply adv_refl|]. rewrite app_nil_r. split; [auto|]. split; [intros i []|congruence].
  - mb H x r1 H1. mb H xs' r2 H2. mr H. eapply implementing_adv with (cs := cs) in H1; [|eassumption..]. destruct H1 as (A1 & C1 & B1 & G1).
    assert (IX : incl (binds cs) (binds (cs ++ [x]))) by (rewrite binds_app; apply incl_appl, incl_refl).
    eapply IH with (cs := cs ++ [x]) in H2; [|apply IX, HM|eapply incl_tran; eassumption|eapply ip_adv; eassumption]. destruct H2 as (A2 & S2 & B2 & _).
    split; [eapply adv_trans; eassumption|]. split; [|split].
    + intros HS. change (x :: xs') with ([x] ++ xs'). rewrite app_assoc. apply S2. apply sco_snoc; [eapply sco_adv; eassumption|exact C1].
    + intros j [<-|Hj]; change (x :: xs') with ([x] ++ xs'); rewrite binds_app, in_app_iff; [left|right; auto]. cbn. rewrite B1. now left.
    + intros _. eapply given_rle; [eapply adv_rle; exact A2|exact G1].
Qed.
Lemma loads_annotated : forall l, loads (annotated_of l) = "Annotated" :: flat_map loads l.
Proof. reflexivity. Qed.
Lemma loads_union : forall l, loads (union_of l) = "Union" :: flat_map loads l.
Proof. reflexivity. Qed.
Lemma interface_adv : forall tfn parent target n d is fs sels o r cs e r', get_type s n = Some (TInterface d is fs) ->
  all_deep (Qt tfn) sels -> (forall l, sels = Some l -> Q n l) -> rok r ->
  interface_annotation c s tfn parent target n d fs sels o r = (Ok (cs, e), r') -> adv r r' /\ sco r' cs /\ cov r' cs (loads e).
Proof.
  intros tfn parent target n d is fs sels o r cs e r' HN HT HQ HR H. unfold interface_annotation in H. cbn zeta in H.
  set (base := parent +s+ py_capitalize target) in *. set (mother := base +s+ "Base") in *. set (impls := implementations s n) in *.
  mb H p r1 H1. assert (P0 : ip_ok r (IParts [] [doc_stmt d] [] [])).
  { split; [apply sco_nil|apply cov_nil|intros i k []|intros i; apply cov_nil]. }
  assert (B1 : adv r r1 /\ ip_ok r1 p).
  { destruct sels as [l|]; [|cbn in H1; mr H1; split; [apply adv_refl|exact P0]]. eapply iface_items; [exact HN| |apply HQ; reflexivity|exact HR|exact P0|exact H1].
    intros x Hx. exact (HT l x eq_refl Hx). }
  clear H1. destruct B1 as (A1 & P1). mb H add r2 H2. apply (additional_adv st bi Hbi c T) in H2 as (A2 & C2).
  mb H ib r3 H3. apply (iface_bases_adv st bi Hbi c T) in H3 as (A3 & C3). mb H cfg r4 H4.
  assert (R3 : rok r3) by (eapply rok_adv; [|exact HR]; eapply adv_trans; [exact A1|]; eapply adv_trans; eassumption).
  eapply config_adv in H4; [|exact Hbi|exact R3]. destruct H4 as (A4 & C4). mb H ics r5 H5.
  assert (A14 : adv r1 r4) by (eapply adv_trans; [exact A2|]; eapply adv_trans; eassumption). pose proof (ip_adv _ _ _ A14 P1) as P4.
  set (M := SClass mother (add ++ ib) (ip_fields p ++ cfg) []) in *.
  assert (MB : In mother (binds (ip_classes p ++ [M]))) by (rewrite binds_app, in_app_iff; right; now left).
  assert (MS : sco r4 (ip_classes p ++ [M])).
  { apply sco_snoc; [apply (io_classes _ _ P4)|]. apply cov_class.
    - rewrite flat_map_app. apply cov_app; apply cov_any; [up C2|up C3].
    - rewrite flat_map_app. apply cov_app; [apply (io_fields _ _ P4)|now apply cov_any]. }
  eapply implementing_all with (cs := ip_classes p ++ [M]) in H5; [|exact MB|rewrite binds_app; apply incl_appl, incl_refl|exact P4].
  destruct H5 as (A5 & S5 & B5 & G5). specialize (S5 MS). mb H u r6 H6. apply (import_adv st bi Hbi T) in H6. destruct H6 as (A6 & G6).
  mb H u' r7 H7. apply (import_adv st bi Hbi T) in H7. destruct H7 as (A7 & G7). mb H rest r8 H8.
  assert (U7 : K r7 "Union") by (left; exact G7). assert (N7 : K r7 "Annotated") by (left; eapply given_rle; [eapply adv_rle; exact A7|exact G6]).
  set (cs5 := (ip_classes p ++ [M]) ++ ics) in *.
  assert (S7 : sco r7 cs5) by (eapply sco_adv; [|exact S5]; eapply adv_trans; eassumption).
  assert (MEM : forall r' cs', K r' "Union" -> cov r' (cs5 ++ cs') (loads (union_of (map (fun i => EName (mother +s+ i)) impls)))).
  { intros r0 cs' HU. rewrite loads_union. apply cov_cons; [exact HU|]. rewrite <- (map_map (fun i => mother +s+ i) EName), names_loads. intros z Hz. apply in_map_iff in Hz.
    destruct Hz as (i & <- & Hi). right. unfold cs5. rewrite !binds_app, !in_app_iff. left. right. now apply B5. }
  assert (B8 : adv r7 r8 /\ sco r8 (cs5 ++ fst rest) /\ cov r8 (cs5 ++ fst rest) (loads (snd rest))).
  { destruct (c_create_catchall c) eqn:CC.
    - mb H8 ib' r9 H9. apply (iface_bases_adv st bi Hbi c T) in H9 as (A9 & C9). mb H8 t r10 H10. apply (generic_adv st bi Hbi c T) in H10 as (A10 & C10 & G10).
      mb H8 u'' r11 H11. apply (import_adv st bi Hbi T) in H11. destruct H11 as (A11 & G11). mr H8. cbn [fst snd].
      assert (A78 : adv r7 r8) by (eapply adv_trans; [exact A9|]; eapply adv_trans; eassumption). split; [exact A78|]. split.
      + apply sco_snoc; [eapply sco_adv; eassumption|]. apply cov_class.
        * cbn [flat_map]. apply cov_app; [|apply cov_any; eapply cov_adv; [|exact C9]; eapply adv_trans; eassumption]. intros z [<-|[]]. right. unfold cs5. rewrite binds_app, in_app_iff. now left.
        * cbn [flat_map]. rewrite app_nil_r. apply cov_app; [apply cov_nil|]. apply cov_any. eapply cov_adv; [exact A11|exact C10].
      + rewrite loads_union. apply cov_cons; [left; exact G11|]. cbn [flat_map]. apply cov_app.
        * rewrite loads_annotated. apply cov_cons; [eapply K_adv; eassumption|]. cbn [flat_map]. apply cov_app; [apply MEM; left; exact G11|]. rewrite app_nil_r.
          cbn. apply cov_cons; [|apply cov_nil]. left. eapply given_rle; [eapply adv_rle; exact A11|exact G10].
        * intros z [<-|[]]. right. rewrite binds_app, in_app_iff. right. now left.
    - mr H8. cbn [fst snd]. split; [apply adv_refl|]. rewrite app_nil_r. split; [exact S7|]. rewrite loads_annotated. apply cov_cons; [exact N7|]. cbn [flat_map]. apply cov_app.
      + rewrite <- (app_nil_r cs5). apply MEM. exact U7.
      + cbn. apply cov_cons; [right; apply T_field; exact eq_refl|apply cov_nil]. }
  destruct B8 as (A8 & S8 & C8). mb H e' r9 H9. eapply optional_adv with (cs := cs5 ++ fst rest) in H9; [|exact Hbi]. destruct H9 as (A9 & C9). mb H u'' r10 H10.
  apply ret_ok in H. destruct H as [[= -> ->] <-].
  assert (A10 : adv r9 r') by (destruct o; [mr H10; apply adv_refl|apply (import_adv st bi Hbi T) in H10; apply H10]).
  assert (A89 : adv r8 r') by (eapply adv_trans; eassumption).
  assert (EQ : ip_classes p ++ M :: ics ++ fst rest = cs5 ++ fst rest) by (unfold cs5; rewrite <- !app_assoc; reflexivity).
  split.
  - eapply adv_trans; [exact A1|]. eapply adv_trans; [exact A14|]. eapply adv_trans; [exact A5|]. eapply adv_trans; [exact A6|]. eapply adv_trans; [exact A7|]. eapply adv_trans; eassumption.
  - cbn [app]. rewrite EQ. split; [eapply sco_adv; eassumption|]. eapply cov_adv; [exact A10|]. apply C9, C8.
Qed.

(** ** objects *)
Lemma object_items : forall tfn n cls d is fs ds l body0 r acc r', get_type s n = Some (TObject d is fs ds) ->
  (forall x, In x l -> deep (Qt tfn) x) -> Q n l -> rok r -> cov r [] (flat_map runs body0) ->
  walk (object_item tfn n cls fs) (Some l) ([], [], body0) r = (Ok acc, r') ->
  adv r r' /\ acc_ok r' (fst (fst acc)) (snd (fst acc)) (snd acc).
Proof.
  intros tfn n cls d is fs ds l body0 r acc r' HN HT HQ HR H0 H. cbn [walk] in H.
  eapply (mfold_ok _ (fun pre acc r1 => adv r r1 /\ acc_ok r1 (fst (fst acc)) (snd (fst acc)) (snd acc))) in H; [exact H| |].
  - split; [apply adv_refl|]. split; [apply sco_nil|]. split; [apply cov_nil|exact H0].
  - intros pre x post [[cs bs] b] r1 acc' r2 E (A & O) Hx. cbn [fst snd] in O.
    assert (HX : In x l) by (rewrite E; apply in_or_app; right; now left).
    assert (R1 : rok r1) by (eapply rok_adv; eassumption). destruct (is_typename_field x); [mr Hx; auto|].
    destruct x as [g|f dd|cond dd sub]; cbn [object_item] in Hx; [| |discriminate].
    + destruct (String.eqb_spec (fn_name g) "__typename") as [|GN]; [mr Hx; auto|].
      mb Hx fd r3 H1. apply from_opt_ok in H1. destruct H1 as [HF ->]. mb Hx y r3 H1. mr Hx. destruct y as [cs' b'].
      destruct (HT _ HX _ _ _ _ _ _ (Q_field _ _ _ _ HQ HX GN (fields_def _ _ _ _ _ HN eq_refl GN HF)) R1 H1) as (A' & S' & C').
      split; [eapply adv_trans; eassumption|]. cbn [fst snd]. apply acc_field; [eapply acc_adv; eassumption|assumption..].
    + mb Hx i r3 H1. eapply impl_adv in H1; [|exact R1|exists d, is, fs, ds; exact HN]. destruct H1 as [-> HI]. mb Hx k r3 H1. mr Hx.
      assert (r2 = r1 /\ T k) as [-> HK].
      { destruct i as [k'|]; [apply ret_ok in H1; destruct H1 as [-> ->]; auto|]. eapply inherit_adv in H1; [exact H1|exact R1| |exact HI].
        eapply q_spread; [exact HQ|eapply si_here; exact HX]. }
      split; [exact A|]. cbn [fst snd]. now apply acc_base.
Qed.
Lemma object_adv : forall tfn parent target n d is fs ds sels o r cs e r', get_type s n = Some (TObject d is fs ds) ->
  all_deep (Qt tfn) sels -> (forall l, sels = Some l -> Q n l) -> rok r ->
  object_annotation c st tfn parent target n d fs sels o r = (Ok (cs, e), r') -> adv r r' /\ sco r' cs /\ cov r' cs (loads e).
Proof.
  intros tfn parent target n d is fs ds sels o r cs e r' HN HT HQ HR H. unfold object_annotation in H. cbn zeta in H.
  mb H t r1 H1. apply (typename_adv st bi Hbi c T) in H1 as (A1 & C1 & _). assert (R1 : rok r1) by (eapply rok_adv; eassumption).
  assert (SINGLE : forall f dd, option_map non_typename sels = Some [SelSpread f dd] ->
    (let* i := get_interface_fragment_implementation_or_none f n in
     let* e := match i with Some b => ret (EName b) | None => reference_fragment st f parent true end in
     let* e := optional_if o (ret e) in ret ([], e)) r1 = (Ok (cs, e), r') -> adv r r' /\ sco r' cs /\ cov r' cs (loads e)).
  { clear H. intros f dd ES H. destruct sels as [l|]; [|discriminate]. cbn in ES. injection ES as ES.
    assert (HX : In (SelSpread f dd) l) by (assert (X : In (SelSpread f dd) (non_typename l)) by (rewrite ES; now left); unfold non_typename in X; apply filter_In in X; apply X).
    mb H i r2 H2. eapply impl_adv in H2; [|exact R1|exists d, is, fs, ds; exact HN]. destruct H2 as [-> HI]. mb H e0 r2 H2.
    assert (adv r1 r2 /\ cov r2 [] (loads e0)) as (A2 & C2).
    { destruct i as [k|]; [mr H2; split; [apply adv_refl|apply cov_cons; [now right|apply cov_nil]]|].
      eapply fragment_adv in H2; [exact H2|exact R1| |exact HI]. eapply q_spread; [apply HQ; reflexivity|eapply si_here; exact HX]. }
    mb H e1 r3 H3. eapply optional_adv with (cs := []) in H3; [|exact Hbi]. destruct H3 as (A3 & C3). apply ret_ok in H. destruct H as [[= -> ->] <-].
    split; [adv_go|]. split; [apply sco_nil|auto]. }
  assert (REST : (let* x := walk (object_item tfn n (parent +s+ py_capitalize target) fs) sels ([], [], [doc_stmt d; t]) in
      let '(classes, bases, body) := x in
      let* add := match bases with [] => get_additional_bases_for_type c n | _ => ret (map EName bases) end in
      let* cfg := generate_pydantic_config (KT KObject) c None in
      let* e := optional_if o (ret (EName (parent +s+ py_capitalize target))) in
      ret (classes ++ [SClass (parent +s+ py_capitalize target) (add ++ names_of (c_object_bases c)) (body ++ cfg) []], e)) r1 = (Ok (cs, e), r') ->
      adv r r' /\ sco r' cs /\ cov r' cs (loads e)).
  { clear H SINGLE. intros H. set (cn := parent +s+ py_capitalize target) in *. mb H acc r2 H2. destruct acc as [[cs0 bs] body].
    assert (C0 : cov r1 [] (flat_map runs [doc_stmt d; t])) by (cbn [flat_map]; rewrite app_nil_r; apply cov_app; [apply cov_nil|exact C1]).
    assert (adv r1 r2 /\ acc_ok r2 cs0 bs body) as (A2 & (O1 & O2 & O3)).
    { destruct sels as [l|].
      - eapply object_items in H2; [|exact HN|intros x Hx; exact (HT l x eq_refl Hx)|apply HQ; reflexivity|exact R1|exact C0]. exact H2.
      - cbn [walk] in H2. apply ret_ok in H2. destruct H2 as [[= -> -> ->] <-]. split; [apply adv_refl|]. split; [apply sco_nil|]. split; [apply cov_nil|exact C0]. }
    mb H add r3 H3. assert (adv r2 r3 /\ cov r3 cs0 (flat_map loads add)) as (A3 & C3).
    { destruct bs as [|b0 bs0].
      - apply (additional_adv st bi Hbi c T) in H3 as (A3 & C3). split; [exact A3|now apply cov_any].
      - mr H3. split; [apply adv_refl|]. rewrite names_loads. now apply cov_any. }
    assert (R3 : rok r3) by (eapply rok_adv; [|exact R1]; adv_go). mb H cfg r4 H4. eapply config_adv in H4; [|exact Hbi|exact R3]. destruct H4 as (A4 & C4).
    mb H e0 r5 H5. eapply optional_adv with (cs := cs0 ++ [SClass cn (add ++ names_of (c_object_bases c)) (body ++ cfg) []]) in H5; [|exact Hbi]. destruct H5 as (A5 & C5).
    apply ret_ok in H. destruct H as [[= -> ->] <-]. split; [adv_go|]. split.
    - apply sco_snoc; [up O1|]. apply cov_class; rewrite flat_map_app; apply cov_app; [up C3|apply cov_any; now apply names_adv|up O3|apply cov_any; up C4].
    - apply C5. intros z [<-|[]]. right. rewrite binds_app, in_app_iff. right. now left. }
  destruct (option_map non_typename sels) as [[|[g|f dd|cond dd sub] [|y ys]]|] eqn:ES; try (apply REST; exact H).
  eapply SINGLE; [reflexivity|exact H].
Qed.

(** ** fields *)
Lemma named_adv : forall tfn parent target sels n o r cs e r', all_deep (Qt tfn) sels -> (is_enum s n -> okE n) ->
  (composite s n -> forall l, sels = Some l -> Q n l) -> rok r ->
  named_annotation c st s tfn parent target sels n o r = (Ok (cs, e), r') -> adv r r' /\ sco r' cs /\ cov r' cs (loads e).
Proof.
  intros tfn parent target sels n o r cs e r' HT HE HQ HR H. unfold named_annotation in H.
  destruct (get_type s n) as [t|] eqn:ET; [|discriminate].
  assert (OPT : forall m, (forall r e r', rok r -> m r = (Ok e, r') -> adv r r' /\ cov r' [] (loads e)) ->
     (let* e := optional_if o m in ret (@nil stmt, e)) r = (Ok (cs, e), r') -> adv r r' /\ sco r' cs /\ cov r' cs (loads e)).
  { clear H. intros m Hm H. mb H e0 r1 H1. apply ret_ok in H. destruct H as [[= -> ->] <-]. unfold optional_if in H1. mb H1 u r2 H2. mb H1 x r3 H3. mr H1.
    assert (adv r r2 /\ (o = true -> given bi r2 "Optional")) as (A2 & G2).
    { destruct o; [apply (import_adv st bi Hbi T) in H2; destruct H2; auto|mr H2; split; [apply adv_refl|discriminate]]. }
    apply Hm in H3; [|eapply rok_adv; eassumption]. destruct H3 as (A3 & C3). split; [adv_go|]. split; [apply sco_nil|].
    destruct o; [|exact C3]. cbn. apply cov_cons; [left; eapply given_rle; [eapply adv_rle; exact A3|auto]|exact C3]. }
  destruct t as [dd|dd vs|dd is fs ds|dd is fs|dd ms|dd fs ds]; try discriminate.
  - eapply OPT; [|exact H]. intros. eapply scalar_adv; eassumption.
  - eapply OPT; [|exact H]. intros. eapply enum_adv; [eassumption| |eassumption]. apply HE. exists dd, vs. exact ET.
  - eapply object_adv in H; [exact H|exact ET|exact HT| |exact HR]. apply HQ. eexists. split; [exact ET|exact I].
  - eapply interface_adv in H; [exact H|exact ET|exact HT| |exact HR]. apply HQ. eexists. split; [exact ET|exact I].
  - eapply union_adv in H; [exact H|exists dd, ms; exact ET|exact HT| |exact HR]. apply HQ. eexists. split; [exact ET|exact I].
Qed.
Lemma wrap_adv : forall named t o r cs e r', (forall o r cs e r', rok r -> named (gty_name t) o r = (Ok (cs, e), r') -> adv r r' /\ sco r' cs /\ cov r' cs (loads e)) ->
  rok r -> wrap_annotation c named t o r = (Ok (cs, e), r') -> adv r r' /\ sco r' cs /\ cov r' cs (loads e).
Proof.
  intros named t. induction t as [n|t IH|t IH]; intros o r cs e r' HN HR H; cbn [wrap_annotation gty_name] in H, HN.
  - eapply HN; eassumption.
  - mb H u r1 H1. apply (import_adv st bi Hbi T) in H1. destruct H1 as (A1 & G1). mb H u' r2 H2.
    assert (adv r1 r2 /\ (o = true -> given bi r2 "Optional")) as (A2 & G2).
    { destruct o; [apply (import_adv st bi Hbi T) in H2; destruct H2; auto|mr H2; split; [apply adv_refl|discriminate]]. }
    mb H y r3 H3. destruct y as [cs0 e0]. apply ret_ok in H. destruct H as [[= -> ->] <-].
    apply IH in H3; [|exact HN|eapply rok_adv; [|exact HR]; adv_go]. destruct H3 as (A3 & S3 & C3). split; [adv_go|]. split; [exact S3|].
    assert (L : cov r' cs0 (loads (if fz_enabled (c_freeze c) then tuple_of e0 else list_of e0))).
    { destruct (fz_enabled (c_freeze c)); cbn in *; (apply cov_cons; [left; eapply given_rle; [eapply adv_rle; eapply adv_trans; [exact A2|exact A3]|exact G1]|]); rewrite ?app_nil_r; exact C3. }
    cbn [snd]. destruct o; [|exact L]. cbn. apply cov_cons; [left; eapply given_rle; [eapply adv_rle; exact A3|auto]|exact L].
  - eapply IH; eassumption.
Qed.
Lemma node_adv : forall g, Qt (type_field_node c st s) g.
Proof.
  assert (STEP : forall a n ar ds sels, all_deep (Qt (type_field_node c st s)) sels -> Qt (type_field_node c st s) (FieldNode a n ar ds sels)).
  { intros a n ar ds sels HD parent fd r cs body r' [HE HQ] HR H. rewrite tfn_eq in H. cbn zeta in H. mb H y r1 H1. destruct y as [cs0 e0]. cbn [fst snd] in H.
    eapply wrap_adv in H1; [|intros o2 r2 cs2 e2 r2' HR2 H2; eapply named_adv; [exact HD|exact HE|exact HQ|exact HR2|exact H2]|exact HR]. destruct H1 as (A1 & S1 & C1).
    mb H b r2 H2. apply ret_ok in H. destruct H as [[= -> ->] <-].
    eapply field_adv with (cs := cs0) in H2; [|exact Hbi|eapply rok_adv; eassumption]. destruct H2 as (A2 & C2 & _). split; [adv_go|]. split; [up S1|auto]. }
  apply fieldnode_rect'.
  - intros. apply STEP. intros l x E. discriminate.
  - intros a n ar ds l HL. apply STEP. intros l' x [= <-] Hx. now apply HL.
Qed.
Lemma node_field : forall g parent fd r y r', N g (gty_name (fd_type fd)) -> rok r -> type_field_node c st s g parent fd r = (Ok y, r') ->
  is_nonnull (fd_type fd) = false -> given bi r' "Field".
Proof.
  intros [a n ar ds sels] parent fd r y r' [HE HQ] HR H HN. rewrite tfn_eq in H. cbn zeta in H. mb H z r1 H1. destruct z as [cs0 e0]. cbn [fst snd] in H.
  eapply wrap_adv in H1; [|intros o2 r2 cs2 e2 r2' HR2 H2; eapply named_adv; [|exact HE|exact HQ|exact HR2|exact H2]|exact HR].
  2:{ intros l x _ _. destruct x as [g|f dd|cond dd sub]; cbn; [apply node_adv|exact I|intros; apply node_adv]. }
  destruct H1 as (A1 & _ & _). mb H b r2 H2. apply ret_ok in H. destruct H as [_ <-].
  eapply field_adv with (cs := []) in H2; [|exact Hbi|eapply rok_adv; eassumption]. destruct H2 as (_ & _ & G). auto.
Qed.
End Nodes.
