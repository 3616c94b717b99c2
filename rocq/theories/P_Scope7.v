(** Names looked up by the classes of fragments. *)
From Verif Require Import Base PyAst Gql Config Stylers Registry Utils Documents Recurse Inline Fragments
  Spec_Types Spec_Refs Spec_Docs Spec_Imports Spec_Scope Spec_Scope2 P_Base P_Gql P_Monad P_Types P_Imports P_Recurse P_InlineProps P_Modelled P_Modelled2 P_Scope P_Scope2 P_Scope5 P_Scope6.

Section Frag.
Variables (st : list styler) (bi : list string).
Hypothesis Hbi : incl simple_types bi.
Variables (c : gconfig) (s : schema) (sc : dict string) (pc : frcfg).
Variable print_fragment : fragment -> string.
Variable add : string -> res string.
Hypothesis Hsc : forall n t, dget n sc = Some t -> has_dot t = false -> In t bi.
Variables (T okE okU okF : string -> Prop).
Hypothesis T_obj : forall b, In b (c_object_bases c) -> T (last_comp b).
Hypothesis T_field : c_create_catchall c = false -> T "Field".
Notation adv := (adv st T).
Notation rok := (rok st s sc T okE okU okF).
Notation K := (K bi T).
Notation cov := (cov bi T).
Notation sco := (sco bi T).
Notation Q := (Q s okE okU okF).
Notation tfn := (type_field_node c st s).
Notation Qt := (Qt st bi s sc T okE okU okF).
Notation ip_ok := (ip_ok bi T).
Notation acc_ok := (acc_ok bi T).

Lemma node : forall g, Qt tfn g.
Proof. apply node_adv; assumption. Qed.
Lemma nodes : forall x, deep (Qt tfn) x.
Proof. intros [g|f d|cond d l]; cbn; [apply node|exact I|intros; apply node]. Qed.
Lemma replace_adv : forall t r x r', replace_iteratively add t r = (Ok x, r') -> r' = r.
Proof. intros t r x r' H. pose proof (ev_ok _ _ _ _ _ _ (ev_replace [] add t) H) as E. inversion E; [reflexivity|contradiction]. Qed.
Lemma bases_names : forall l r es r', import_bases l r = (Ok es, r') -> forall b, In b l -> given bi r' (last_comp b).
Proof. intros l r es r' H b Hb. unfold import_bases in H. minv. eapply bases_given; eassumption. Qed.
Lemma fragment_bases_adv : forall b r es r', get_fragment_bases c pc b r = (Ok es, r') -> adv r r' /\ cov r' [] (flat_map loads es)
  /\ forall b, In b (c_object_bases c) -> given bi r' (last_comp b).
Proof.
  intros b r es r' H. unfold get_fragment_bases in H. mb H e1 r1 H1. apply (bases_adv st bi Hbi T) in H1 as (A1 & C1). mb H e2 r2 H2.
  assert (adv r1 r2 /\ cov r2 [] (flat_map loads e2)) as (A2 & C2).
  { destruct b; [now apply (bases_adv st bi Hbi T) in H2|mr H2; split; [apply adv_refl|apply cov_nil]]. }
  mb H e3 r3 H3. pose proof (bases_names _ _ _ _ H3) as G3. apply (bases_adv st bi Hbi T) in H3 as (A3 & C3). mr H. split; [adv_go|]. split; [|exact G3]. rewrite !flat_map_app.
  apply cov_app; [up C1|]. apply cov_app; [up C2|exact C3].
Qed.

(** ** on an interface *)
Lemma dset_names_In : forall (g : string -> string) l m j k, In (j, k) (fold_left (fun m i => dset i (g i) m) l m) -> In (j, k) m \/ exists i, In i l /\ k = g i.
Proof.
  intros g l. induction l as [|i l IH]; intros m j k H; cbn in H; [now left|]. apply IH in H. destruct H as [H|(i' & Hi & ->)]; [|right; exists i'; split; [now right|reflexivity]].
  assert (X : In (j, k) m \/ k = g i).
  { clear - H. induction m as [|[a b] m IHm]; cbn in H; [destruct H as [[= <- <-]|[]]; auto|]. destruct (String.eqb i a).
    - destruct H as [[= <- <-]|H]; [now right|left; now right].
    - destruct H as [[= <- <-]|H]; [left; now left|]. destruct (IHm H); [left; now right|now right]. }
  destruct X as [X| ->]; [now left|right; exists i; split; [now left|reflexivity]].
Qed.
Lemma interface_fragment_adv : forall f d is fs r out r', get_type s (fr_on f) = Some (TInterface d is fs) -> Q (fr_on f) (fr_sels f) -> rok r ->
  interface_fragment c st s pc f d fs r = (Ok out, r') ->
  exists ra m, adv r ra /\ r' = with_iffrag (dset (fr_name f) m (r_iffrag ra)) ra /\ sco ra out /\ (forall j k, In (j, k) m -> In k (binds out)) /\ given bi ra "Field".
Proof.
  intros f d is fs r out r' HN HQ HR H. unfold interface_fragment in H. cbn zeta in H.
  set (base := style_fragment_class st (fr_name f)) in *. set (mother := base +s+ "Base") in *. set (impls := implementations s (fr_on f)) in *.
  mb H ad r1 H1. apply (additional_adv st bi Hbi c T) in H1 as (A1 & C1). assert (R1 : rok r1) by (eapply rok_adv; eassumption).
  mb H p r2 H2. eapply (iface_items st bi s sc T okE okU okF) in H2; [|exact HN|intros x _; apply nodes|exact HQ|exact R1|].
  2:{ split; [apply sco_nil|apply cov_nil|intros i k []|intros i; apply cov_nil]. }
  destruct H2 as (A2 & P2). mb H ib r3 H3. apply (iface_bases_adv st bi Hbi c T) in H3 as (A3 & C3). mb H t r4 H4. apply (generic_adv st bi Hbi c T) in H4 as (A4 & C4 & G4).
  mb H ics r5 H5. assert (P4 : ip_ok r4 p) by (eapply ip_adv; [|exact P2]; adv_go).
  set (M := SClass mother (ad ++ ib) (ip_fields p) []) in *.
  set (Ca := SClass (base +s+ "Catch") [EName mother] ([docstring ("Catch all class for " +s+ mother); t] ++ ip_fields p) []) in *.
  assert (M0 : sco r4 (ip_classes p ++ [M])).
  { apply sco_snoc; [apply (io_classes _ _ _ _ P4)|]. apply cov_class; [|apply (io_fields _ _ _ _ P4)].
    rewrite flat_map_app. apply cov_app; apply cov_any; [up C1|up C3]. }
  assert (MB : In mother (binds (ip_classes p ++ [M]))) by (rewrite binds_app, in_app_iff; right; now left).
  assert (M1 : sco r4 ((ip_classes p ++ [M]) ++ [Ca])).
  { apply sco_snoc; [exact M0|]. apply cov_class.
    - intros z [<-|[]]. now right.
    - cbn [app flat_map]. apply cov_app; [apply cov_nil|]. apply cov_app; [now apply cov_any|]. apply cov_left, (io_fields _ _ _ _ P4). }
  assert (I1 : incl (binds (ip_classes p ++ [M])) (binds ((ip_classes p ++ [M]) ++ [Ca]))) by (rewrite (binds_app (_ ++ _)); apply incl_appl, incl_refl).
  eapply (implementing_all st bi Hbi c s T) with (cs := (ip_classes p ++ [M]) ++ [Ca]) in H5; [|apply I1, MB| |exact P4].
  2:{ eapply incl_tran; [|exact I1]. rewrite binds_app. apply incl_appl, incl_refl. }
  destruct H5 as (A5 & S5 & B5 & _). specialize (S5 M1). mb H u r6 H6. unfold register_interface_fragment_implementations in H6.
  apply modify_ok in H6. destruct H6 as [_ ->]. apply ret_ok in H. destruct H as [-> ->].
  exists r5, (fold_left (fun m i => dset i (base +s+ i) m) impls []). split; [adv_go|]. split; [reflexivity|].
  assert (EQ : ip_classes p ++ [M; Ca] ++ ics = ((ip_classes p ++ [M]) ++ [Ca]) ++ ics) by (rewrite <- !app_assoc; reflexivity).
  rewrite EQ. split; [exact S5|]. split.
  - intros j k Hk. apply dset_names_In in Hk. destruct Hk as [[]|(i & Hi & ->)]. rewrite binds_app, in_app_iff. right. now apply B5.
  - eapply given_rle; [eapply adv_rle; exact A5|exact G4].
Qed.

(** ** on an object *)
Lemma object_fragment_adv : forall f cls d r out r', object_type s (fr_on f) -> Q (fr_on f) (fr_sels f) -> rok r ->
  object_fragment c st s pc print_fragment add f cls d r = (Ok out, r') -> adv r r' /\ sco r' out /\ In cls (binds out) /\ given bi r' "Field"
  /\ forall b, In b (c_object_bases c) -> given bi r' (last_comp b).
Proof.
  intros f cls d r out r' HO HQ HR H. unfold object_fragment in H. mb H ad r1 H1. apply (additional_adv st bi Hbi c T) in H1 as (A1 & C1).
  mb H t r2 H2. apply (typename_adv st bi Hbi c T) in H2 as (A2 & C2 & G2). assert (R2 : rok r2) by (eapply rok_adv; [|exact HR]; adv_go). mb H acc r3 H3.
  eapply (mfold_ok _ (fun pre acc r' => adv r2 r' /\ sco r' (fst (fst acc)) /\ cov r' [] (flat_map loads (snd (fst acc))) /\ cov r' (fst (fst acc)) (flat_map runs (snd acc)))) in H3.
  2:{ split; [apply adv_refl|]. split; [apply sco_nil|]. split; [up C1|]. cbn [fst snd flat_map]. apply cov_app; [apply cov_nil|]. rewrite app_nil_r. exact C2. }
  2:{ intros pre x post [[cs bs] b] ra acc' rb E (A & O1 & O2 & O3) Hx. cbn [fst snd] in O1, O2, O3.
      assert (HX : In x (fr_sels f)) by (rewrite E; apply in_or_app; right; now left).
      assert (Ra : rok ra) by (eapply rok_adv; eassumption). destruct x as [g|g ds|cond ds sub]; cbn [object_fragment_item] in Hx.
      - destruct (String.eqb_spec (fn_name g) "__typename") as [|GN]; [mr Hx; auto|]. mb Hx fd rc Hc. apply from_opt_ok in Hc. destruct Hc as [HF ->]. mb Hx y rc Hc. mr Hx. destruct y as [cs' b'].
        destruct (node g _ _ _ _ _ _ (Q_field _ _ _ _ _ _ _ _ HQ HX GN HF) Ra Hc) as (A' & S' & C').
        split; [adv_go|]. cbn [fst snd]. split; [apply sco_app; [up O1|exact S']|]. split; [up O2|]. rewrite flat_map_app. apply cov_app; [apply cov_left; up O3|now apply cov_right].
      - mb Hx m rc Hc. apply gets_ok in Hc. destruct Hc as [-> ->]. mb Hx k rc Hc. mr Hx.
        assert (rb = ra /\ T k) as [-> HK].
        { destruct (dget g (r_iffrag ra)) as [impls|] eqn:EI.
          - apply from_opt_ok in Hc. destruct Hc as [Hk ->]. split; [reflexivity|]. eapply ok_impl; [exact Ra|exact EI|]. apply dget_Some_In. exact Hk.
          - eapply inherit_adv in Hc; [exact Hc|exact Ra| |exact EI]. eapply q_spread; [exact HQ|eapply si_here; exact HX]. }
        split; [exact A|]. cbn [fst snd]. split; [exact O1|]. split; [|exact O3]. cbn [flat_map loads app]. apply cov_cons; [now right|exact O2].
      - mr Hx. auto. }
  destruct acc as [[cs bs] b]. destruct H3 as (A3 & O1 & O2 & O3). cbn [fst snd] in O1, O2, O3. mb H meta r4 H4.
  assert (r4 = r3 /\ flat_map runs meta = []) as [-> HM].
  { unfold fragment_meta in H4. destruct (fr_meta pc); [|apply ret_ok in H4; destruct H4 as [-> ->]; auto]. mb H4 doc r5 H5. apply replace_adv in H5. subst r5.
    apply ret_ok in H4. destruct H4 as [-> ->]. split; reflexivity. }
  mb H fb r5 H5. apply fragment_bases_adv in H5 as (A5 & C5 & GB). mb H cfg r6 H6. assert (R5 : rok r5) by (eapply rok_adv; [|exact R2]; adv_go).
  eapply config_adv in H6; [|exact Hbi|exact R5]. destruct H6 as (A6 & C6). mr H. split; [adv_go|]. split; [|split; [|split]].
  - apply sco_snoc; [up O1|]. apply cov_class.
    + rewrite flat_map_app. apply cov_app; apply cov_any; [up O2|up C5].
    + rewrite !flat_map_app, HM, app_nil_r. apply cov_app; [up O3|apply cov_any; up C6].
  - rewrite binds_app, in_app_iff. right. now left.
  - assert (A' : adv r2 r') by adv_go. eapply given_rle; [eapply adv_rle; exact A'|exact G2].
  - intros b0 Hb. eapply given_rle; [eapply adv_rle; exact A6|auto].
  Unshelve. exact st.
Qed.

(** ** on a union *)
Lemma union_fragment_adv : forall f d ms r out r', union_type s (fr_on f) -> Q (fr_on f) (fr_sels f) -> rok r ->
  (forall cn ds sub g ds', In (SelInline (Some cn) ds sub) (fr_sels f) -> In (SelSpread g ds') sub -> style_fragment_class st g = g) ->
  union_fragment c st s pc f d ms r = (Ok out, r') ->
  exists ra m, adv r ra /\ adv (with_ufrag (dset (fr_name f) m (r_ufrag ra)) ra) r' /\ sco r' out /\ (forall j k, In (j, k) m -> In k (binds out))
    /\ In (style_fragment_class st (fr_name f)) (binds out).
Proof.
  intros f d ms r out r' HU HQ HR HNm H. unfold union_fragment in H. cbn zeta in H. set (base := style_fragment_class st (fr_name f)) in *.
  mb H ad r1 H1. apply (additional_adv st bi Hbi c T) in H1 as (A1 & _). assert (R1 : rok r1) by (eapply rok_adv; eassumption).
  mb H p r2 H2. cbn [walk] in H2. eapply (mfold_ok _ (fun pre p r' => adv r1 r' /\ ip_ok r' p)) in H2.
  2:{ split; [apply adv_refl|]. split; [apply sco_nil|apply cov_nil|intros i k []|intros i; apply cov_nil]. }
  2:{ intros pre x post q ra p' rb E (A & O) Hx. assert (HX : In x (fr_sels f)) by (rewrite E; apply in_or_app; right; now left).
      assert (Ra : rok ra) by (eapply rok_adv; eassumption). destruct (is_typename_field x) eqn:TN; [mr Hx; auto|].
      destruct x as [g|g ds|cond ds sub]; cbn [union_fragment_item] in Hx; [discriminate| |].
      - mb Hx m rc Hc. unfold get_union_fragment_members in Hc. mg Hc mm. apply from_opt_ok in Hc. destruct Hc as [EM ->]. apply ret_ok in Hx. destruct Hx as [-> ->].
        split; [exact A|]. destruct O as [I1 I2 I3 I4]. split; cbn [ip_classes ip_fields ip_bases ip_inline]; [exact I1|apply cov_nil| |exact I4].
        assert (HI : forall i k, In (i, k) m -> T k) by (intros; eapply ok_ufrag; eassumption).
        clear EM. revert I3. generalize (ip_bases q). induction m as [|[j x] m IH]; intros b HB i k Hk; [eapply HB; exact Hk|]. cbn [fold_left fst snd] in Hk.
        eapply IH; [intros i' k' Hk'; eapply HI; right; exact Hk'| |exact Hk]. intros i' k' Hk'. rewrite dget_list_dextend in Hk'.
        destruct (String.eqb i' j); [|eapply HB; exact Hk']. apply in_app_or in Hk'. destruct Hk' as [Hk'|[<-|[]]]; [eapply HB; exact Hk'|]. eapply HI. now left.
      - destruct cond as [on|]; [|discriminate]. mb Hx on' rc Hc. apply from_opt_ok in Hc. destruct Hc as [[= <-] ->]. mb Hx y rc Hc.
        eapply (mfold_ok _ (fun pre acc r' => adv ra r' /\ acc_ok r' (fst (fst acc)) [] (snd acc) /\ forall k, In k (snd (fst acc)) -> T k)) in Hc.
        2:{ split; [apply adv_refl|]. split; [|intros k []]. split; [apply sco_nil|]. split; apply cov_nil. }
        2:{ intros pre' x post' [[cs bs] b] ra' acc' rb' E' (A' & O' & B') Hx'. cbn [fst snd] in O', B'. assert (HX' : In x sub) by (rewrite E'; apply in_or_app; right; now left).
            assert (Ra' : rok ra') by (eapply rok_adv; eassumption). destruct x as [g|g ds'|cond' ds' sub']; cbn [union_inline] in Hx'.
            - destruct (String.eqb_spec (fn_name g) "__typename") as [|GN]; [mr Hx'; auto|]. mb Hx' t rc' Hc'. apply from_opt_ok in Hc'. destruct Hc' as [_ ->].
              mb Hx' fd rc' Hc'. apply from_opt_ok in Hc'. destruct Hc' as [HF ->]. mb Hx' y' rc' Hc'. mr Hx'. destruct y' as [cs' b'].
              destruct (node g _ _ _ _ _ _ (Q_field _ _ _ _ _ _ _ _ (Q_inline _ _ _ _ _ _ _ _ _ HQ HX) HX' GN HF) Ra' Hc') as (A'' & S'' & C'').
              split; [adv_go|]. cbn [fst snd]. split; [|exact B']. eapply acc_field; [eapply acc_adv; eassumption|assumption..].
            - apply ret_ok in Hx'. destruct Hx' as [-> ->]. split; [exact A'|]. cbn [fst snd]. split; [exact O'|]. intros k Hk. apply in_app_or in Hk. destruct Hk as [Hk|[<-|[]]]; [auto|].
              rewrite <- (HNm _ _ _ _ _ HX HX'). apply (ok_frag _ _ _ _ _ _ _ _ Ra').
              + eapply q_spread; [exact HQ|]. eapply si_inline; [exact I|exact HX|]. eapply si_here; exact HX'.
              + apply (ok_union _ _ _ _ _ _ _ _ Ra'), (q_union _ _ _ _ _ _ HQ). eapply iu_member; eassumption.
            - mr Hx'. auto. }
        destruct y as [[cs bs] b]. destruct Hc as (A' & (O1 & _ & O3) & B'). cbn [fst snd] in O1, O3, B'. mr Hx. split; [adv_go|].
        assert (Ob : ip_ok rb q) by (eapply ip_adv; eassumption). destruct Ob as [I1 I2 I3 I4]. split; cbn [ip_classes ip_fields ip_bases ip_inline]; [now apply sco_app|apply cov_nil| |].
        + intros i k Hk. rewrite dget_list_dextend in Hk. destruct (String.eqb i on); [|eapply I3; exact Hk]. apply in_app_or in Hk. destruct Hk as [Hk|Hk]; [eapply I3; exact Hk|auto].
        + intros i. rewrite dget_list_dextend. destruct (String.eqb i on); [|apply cov_left, I4]. rewrite flat_map_app. apply cov_app; [apply cov_left, I4|now apply cov_right]. }
  destruct H2 as (A2 & P2). mb H xs r3 H3. mb H u r4 H4. apply modify_ok in H4. destruct H4 as [_ ->]. mb H u' r5 H5. apply (import_adv st bi Hbi T) in H5 as (A5 & G5). mr H.
  assert (L : forall ls r xs r', ip_ok r p ->
      mmap (fun i => let* fb := get_fragment_bases c pc false in let* t := generate_typename_field c i in
         ret (SClass (base +s+ i) (map EName (dget_list i (ip_bases p)) ++ fb) (t :: dget_list i (ip_inline p)) [])) ls r = (Ok xs, r') ->
      adv r r' /\ (forall x n, In x xs -> In n (runs x) -> K r' n \/ In n (binds (ip_classes p))) /\ binds xs = map (fun i => base +s+ i) ls).
  { clear H3. induction ls as [|i ls IH]; intros ra ys rb HP H; cbn [mmap] in H.
    - mr H. split; [apply adv_refl|]. split; [intros x n []|reflexivity].
    - mb H y rc Hc. mb H ys' rd Hd. mr H. mb Hc fb re He. apply fragment_bases_adv in He as (Ae & Ce & _). mb Hc t rf Hf. apply (typename_adv st bi Hbi c T) in Hf as (Af & Cf & _). mr Hc.
      destruct (IH _ _ _ (ip_adv _ _ _ _ _ _ (adv_trans _ _ _ _ _ Ae Af) HP) Hd) as (A' & C' & B'). split; [adv_go|]. split.
      + intros x n [<-|Hx] Hn; [|eapply C'; eassumption]. revert n Hn. change (cov rb (ip_classes p) (runs (SClass (base +s+ i) (map EName (dget_list i (ip_bases p)) ++ fb) (t :: dget_list i (ip_inline p)) []))).
        apply cov_class.
        * rewrite flat_map_app. apply cov_app; [apply T_names, (io_bases _ _ _ _ HP)|apply cov_any; up Ce].
        * cbn [flat_map]. apply cov_app; [apply cov_any; up Cf|]. pose proof (io_inline _ _ _ _ HP i) as Ci. up Ci.
      + cbn [map binds flat_map bound_by app]. f_equal. exact B'. }
  destruct (L _ _ _ _ P2 H3) as (A3 & C3 & B3).
  set (m := fold_left (fun m i => dset i (base +s+ i) m) ms []) in *. exists r3, m. split; [adv_go|]. split; [exact A5|].
  assert (G35 : forall n, K r3 n -> K r' n).
  { intros n [Hn|Hn]; [left|now right]. eapply given_rle; [eapply adv_rle; exact A5|]. exact Hn. }
  assert (S3 : sco r' (ip_classes p ++ xs)).
  { apply scoped_app. split.
    - eapply scoped_mono; [exact G35|]. pose proof (io_classes _ _ _ _ P2) as S2. change (sco r3 (ip_classes p)). up S2.
    - assert (X : forall ys (E : string -> Prop), (forall x n, In x ys -> In n (runs x) -> E n) -> scoped E ys).
      { clear. induction ys as [|y ys IH]; intros E HX; [exact I|]. split; [intros n; apply HX; now left|]. apply IH. intros x n Hx Hn. left. eapply HX; [right; exact Hx|exact Hn]. }
      apply X. intros x n Hx Hn. destruct (C3 x n Hx Hn) as [Y|Y]; [left; now apply G35|now right]. }
  assert (BI : forall i, In i ms -> In (base +s+ i) (binds xs)) by (intros i Hi; rewrite B3; apply in_map_iff; eauto).
  set (U := SAssign (EName base) (union_of (map (fun i => EName (base +s+ i)) ms))) in *.
  assert (S4 : sco r' ((ip_classes p ++ xs) ++ [U])).
  { apply sco_snoc; [exact S3|]. cbn [runs U]. rewrite loads_union. apply cov_cons; [left; exact G5|]. rewrite <- (map_map (fun i => base +s+ i) EName), names_loads.
    intros z Hz. apply in_map_iff in Hz. destruct Hz as (i & <- & Hi). right. rewrite binds_app, in_app_iff. right. now apply BI. }
  set (dc := if truthy d && fr_add_documentation pc then [docstring (opt_str d)] else []) in *.
  assert (EQ : ip_classes p ++ xs ++ [U] ++ dc = ((ip_classes p ++ xs) ++ [U]) ++ dc) by (rewrite <- !app_assoc; reflexivity). rewrite EQ. split; [|split].
  - apply sco_app; [exact S4|]. unfold dc. destruct (truthy d && fr_add_documentation pc); [|exact I]. split; [intros n []|exact I].
  - intros j k Hk. unfold m in Hk. apply dset_names_In in Hk. destruct Hk as [[]|(i & Hi & ->)]. rewrite !binds_app, !in_app_iff. left. left. right. now apply BI.
  - rewrite !binds_app, !in_app_iff. left. right. now left.
Qed.
End Frag.
