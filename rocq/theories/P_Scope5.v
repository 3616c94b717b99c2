(** Names looked up by the classes of selections. *)
From Verif Require Import Base PyAst Gql Config Stylers Registry Utils Recurse
  Spec_Types Spec_Refs Spec_Docs Spec_Imports Spec_Scope Spec_Scope2 P_Base P_Gql P_Monad P_Types P_Imports P_Recurse P_InlineProps P_Modelled2 P_Scope P_Scope2.

Ltac mb H x r Hx := apply bind_ok in H; destruct H as (x & r & Hx & H).
Ltac mr H := apply ret_ok in H; destruct H as [-> <-].
Ltac mg H m := apply bind_ok in H; let r := fresh in let G := fresh in destruct H as (m & r & G & H); apply gets_ok in G; destruct G as [-> ->].

Section Sel.
Variables (st : list styler) (bi : list string).
Hypothesis Hbi : incl simple_types bi.
Variables (c : gconfig) (s : schema) (sc : dict string).
Hypothesis Hsc : forall n t, dget n sc = Some t -> has_dot t = false -> In t bi.
(** [T]: the names bound before *)
Variable T : string -> Prop.
Hypothesis T_obj : forall b, In b (c_object_bases c) -> T (last_comp b).
Hypothesis T_field : c_create_catchall c = false -> T "Field".

Definition K (r : reg) (n : string) : Prop := given bi r n \/ T n.
Record adv (r r' : reg) : Prop := Adv {
  adv_ev : evolve st Ksel r r';
  adv_fwd : forall n, In n (r_fwd r') -> In n (r_fwd r) \/ T n }.
Lemma adv_refl : forall r, adv r r.
Proof. intros r. split; [apply ev_refl|auto]. Qed.
Lemma adv_trans : forall a b d, adv a b -> adv b d -> adv a d.
Proof.
  intros a b d [E1 F1] [E2 F2]. split; [eapply evolve_trans; eassumption|]. intros n Hn. destruct (F2 n Hn) as [H|H]; auto.
Qed.
Lemma adv_rle : forall r r', adv r r' -> rle r r'.
Proof. intros r r' [E _]. eapply evolve_rle; exact E. Qed.
Lemma quiet_adv : forall {A} (m : M A) r a r', ev st [KImp; KBui] m -> m r = (Ok a, r') -> adv r r'.
Proof.
  intros A m r a r' HE H. pose proof (ev_ok _ _ _ _ _ _ HE H) as E. split.
  - eapply evolve_incl; [|exact E]. intros k; cbn; tauto.
  - assert (F : r_fwd r' = r_fwd r) by (eapply frame_fwd; [|exact E]; cbn; intuition discriminate). rewrite F; auto.
Qed.
Lemma K_adv : forall r r' n, adv r r' -> K r n -> K r' n.
Proof. intros r r' n A [H|H]; [left; eapply given_rle; [apply adv_rle; exact A|exact H]|now right]. Qed.

(** ** lists of names, next to the classes [cs] made so far *)
Definition cov (r : reg) (cs : list stmt) (l : list string) : Prop := forall n, In n l -> K r n \/ In n (binds cs).
Definition sco (r : reg) (cs : list stmt) : Prop := scoped (K r) cs.
Lemma cov_nil : forall r cs, cov r cs [].
Proof. intros r cs n []. Qed.
Lemma cov_cons : forall r cs n l, K r n -> cov r cs l -> cov r cs (n :: l).
Proof. intros r cs n l H H' x [<-|Hx]; auto. Qed.
Lemma cov_app : forall r cs a b, cov r cs a -> cov r cs b -> cov r cs (a ++ b).
Proof. intros r cs a b H H' n Hn. apply in_app_or in Hn. destruct Hn; auto. Qed.
Lemma cov_flat : forall {A} r cs (f : A -> list string) l, (forall x, In x l -> cov r cs (f x)) -> cov r cs (flat_map f l).
Proof. intros A r cs f l H n Hn. apply in_flat_map in Hn. destruct Hn as (x & Hx & Hn). eapply H; eassumption. Qed.
Lemma cov_more : forall r cs cs' l, incl (binds cs) (binds cs') -> cov r cs l -> cov r cs' l.
Proof. intros r cs cs' l HI H n Hn. destruct (H n Hn); auto. Qed.
Lemma cov_adv : forall r r' cs l, adv r r' -> cov r cs l -> cov r' cs l.
Proof. intros r r' cs l A H n Hn. destruct (H n Hn) as [X|X]; [left; eapply K_adv; eassumption|now right]. Qed.
Lemma cov_left : forall r a b l, cov r a l -> cov r (a ++ b) l.
Proof. intros r a b l. apply cov_more. rewrite binds_app. apply incl_appl, incl_refl. Qed.
Lemma cov_right : forall r a b l, cov r b l -> cov r (a ++ b) l.
Proof. intros r a b l. apply cov_more. rewrite binds_app. apply incl_appr, incl_refl. Qed.
Lemma cov_any : forall r cs l, cov r [] l -> cov r cs l.
Proof. intros r cs l. apply cov_more. intros x []. Qed.
Lemma sco_nil : forall r, sco r [].
Proof. intros; exact I. Qed.
Lemma sco_adv : forall r r' cs, adv r r' -> sco r cs -> sco r' cs.
Proof. intros r r' cs A. apply scoped_mono. intros n. now apply K_adv. Qed.
Lemma sco_app : forall r a b, sco r a -> sco r b -> sco r (a ++ b).
Proof. intros r a b HA HB. apply scoped_app. split; [exact HA|]. eapply scoped_mono; [|exact HB]. auto. Qed.
Lemma sco_snoc : forall r a x, sco r a -> cov r a (runs x) -> sco r (a ++ [x]).
Proof. intros r a x HA HX. apply scoped_snoc; [exact HA|exact HX]. Qed.

(** ** steps that only collect imports and helpers *)
Lemma step_fwd_adv : forall p r r', step st p r r' -> r_fwd r' = r_fwd r -> adv r r'.
Proof. intros p r r' [E F] H. split; [eapply evolve_incl; [|exact E]; intros k; cbn; tauto|]. rewrite H; auto. Qed.
Lemma import_adv : forall n r u r', register_import n r = (Ok u, r') -> adv r r' /\ given bi r' (last_comp n).
Proof. intros n r u r' H. split; [eapply quiet_adv; [|exact H]; ev_leaf|]. eapply import_given; eassumption. Qed.
Lemma bases_adv : forall l r es r', import_bases l r = (Ok es, r') -> adv r r' /\ cov r' [] (flat_map loads es).
Proof.
  intros l r es r' H. split; [eapply quiet_adv; [|exact H]; unfold import_bases; ev_tac|]. unfold import_bases in H. minv.
  intros n Hn. left. left. apply in_flat_map in Hn. destruct Hn as (e & He & Hn). apply in_map_iff in He. destruct He as (b & <- & Hb).
  destruct Hn as [<-|[]]. eapply bases_given; eassumption.
Qed.
Lemma additional_adv : forall n r es r', get_additional_bases_for_type c n r = (Ok es, r') -> adv r r' /\ cov r' [] (flat_map loads es).
Proof.
  intros n r es r' H. unfold get_additional_bases_for_type in H. destruct (dget n (c_additional_bases c)); [now apply (bases_adv l)|].
  minv. split; [apply adv_refl|apply cov_nil].
Qed.
Lemma iface_bases_adv : forall r es r', get_interface_bases c r = (Ok es, r') -> adv r r' /\ cov r' [] (flat_map loads es).
Proof. intros r es r' H. unfold get_interface_bases in H. destruct (c_interface_bases c) as [[|b l]|]; eapply bases_adv; exact H. Qed.
Lemma names_adv : forall r, cov r [] (flat_map loads (names_of (c_object_bases c))).
Proof.
  intros r n Hn. left; right. apply in_flat_map in Hn. destruct Hn as (e & He & Hn). apply in_map_iff in He. destruct He as (b & <- & Hb).
  destruct Hn as [<-|[]]. auto.
Qed.
Lemma kws_loads : forall l, (forall kv, In kv l -> loads (snd kv) = []) -> loads (field_call l) = ["Field"].
Proof.
  intros l H. cbn. f_equal. induction l as [|kv l IH]; [reflexivity|]. cbn. rewrite (H kv (or_introl eq_refl)). cbn.
  apply IH. intros x Hx. apply H. now right.
Qed.
Lemma exclude_loads : forall kv, In kv (exclude_kw c) -> loads (snd kv) = [].
Proof. intros kv H. unfold exclude_kw in H. destruct (c_exclude_typenames c); [destruct H as [<-|[]]; reflexivity|contradiction]. Qed.
Lemma K_bi : forall r n, In n simple_types -> K r n.
Proof. intros r n H. left; left. auto. Qed.
Lemma typename_adv : forall n r t r', generate_typename_field c n r = (Ok t, r') -> adv r r' /\ cov r' [] (runs t) /\ given bi r' "Field".
Proof.
  intros n r t r' H. split; [eapply quiet_adv; [|exact H]; unfold generate_typename_field; ev_tac|]. unfold generate_typename_field in H. minv.
  apply import_adv in H0 as (A0 & G0). apply import_adv in H1 as (A1 & G1). apply import_adv in H2 as (A2 & G2).
  match goal with |- _ /\ given bi ?x _ => assert (G : given bi x "Field") by (eapply given_rle; [apply adv_rle; eapply adv_trans; [exact A1|exact A2]|exact G0]) end.
  split; [|exact G]. cbn [runs]. apply cov_app.
  - cbn. apply cov_cons; [now left|apply cov_nil].
  - cbn [opt_loads]. rewrite kws_loads; [apply cov_cons; [now left|apply cov_nil]|].
    intros kv Hk. apply in_app_or in Hk. destruct Hk as [[<-|[<-|[]]]|Hk]; [reflexivity..|now apply exclude_loads].
Qed.
Lemma generic_adv : forall r t r', generate_generic_typename_field c r = (Ok t, r') -> adv r r' /\ cov r' [] (runs t) /\ given bi r' "Field".
Proof.
  intros r t r' H. split; [eapply quiet_adv; [|exact H]; unfold generate_generic_typename_field; ev_tac|]. unfold generate_generic_typename_field in H. minv.
  apply import_adv in H0 as (A0 & G0). apply import_adv in H1 as (A1 & G1). apply import_adv in H2 as (A2 & G2).
  match goal with |- _ /\ given bi ?x _ => assert (G : given bi x "Field") by (eapply given_rle; [apply adv_rle; eapply adv_trans; [exact A1|exact A2]|exact G0]) end.
  split; [|exact G]. cbn [runs]. apply cov_app.
  - cbn. apply cov_cons; [apply K_bi; cbn; tauto|apply cov_nil].
  - cbn [opt_loads]. rewrite kws_loads; [apply cov_cons; [now left|apply cov_nil]|].
    intros kv Hk. apply in_app_or in Hk. destruct Hk as [[<-|[]]|Hk]; [reflexivity..|now apply exclude_loads].
Qed.
Lemma optional_adv : forall b e r e' r' cs, optional_if b (ret e) r = (Ok e', r') -> adv r r' /\ (cov r cs (loads e) -> cov r' cs (loads e')).
Proof.
  intros b e r e' r' cs H. unfold optional_if in H. destruct b; minv.
  - apply import_adv in H0 as (A & G). split; [exact A|]. intros HC. cbn. apply cov_cons; [now left|]. eapply cov_adv; eassumption.
  - split; [apply adv_refl|auto].
Qed.

(** ** the state.  [okE]: enums with a class; [okU]: fragments with a class of their own; [okF]: fragments that
    have been generated *)
Variables (okE okU okF : string -> Prop).
Record rok (r : reg) : Prop := Rok {
  ok_styled : names_styled st r;
  ok_scalars : r_scalars r = sc;
  ok_reg : forall n, registered r n -> T n;
  ok_enum : forall e, okE e -> mem e built_in_keys = false /\ dmem e (r_enums r) = true /\ T (style_enum_class st e);
  ok_frag : forall f, okF f -> dmem f (r_frags r) = true /\ (dget f (r_iffrag r) = None -> T (style_fragment_class st f));
  ok_impl : forall f m i k, dget f (r_iffrag r) = Some m -> In (i, k) m -> T k;
  ok_iface : forall f m, dget f (r_iffrag r) = Some m -> exists t, dget f (r_fragtypes r) = Some t /\ interface_type s t;
  ok_union : forall f, okU f -> dget f (r_iffrag r) = None;
  ok_ufrag : forall f m i k, dget f (r_ufrag r) = Some m -> In (i, k) m -> T k }.

Lemma rok_adv : forall r r', adv r r' -> rok r -> rok r'.
Proof.
  intros r r' [E _] [A1 A2 A3 A4 A5 A6 A7 A8 A9].
  assert (r_inputs r' = r_inputs r) as F1 by (eapply frame_inputs; [|exact E]; cbn; intuition discriminate).
  assert (r_enums r' = r_enums r) as F2 by (eapply frame_enums; [|exact E]; cbn; intuition discriminate).
  assert (r_scalars r' = r_scalars r) as F3 by (eapply frame_scalars; [|exact E]; cbn; intuition discriminate).
  assert (r_frags r' = r_frags r) as F4 by (eapply frame_frags; [|exact E]; cbn; intuition discriminate).
  assert (r_iffrag r' = r_iffrag r) as F5 by (eapply frame_iffrag; [|exact E]; cbn; intuition discriminate).
  assert (r_fragtypes r' = r_fragtypes r) as F6 by (eapply frame_fragtypes; [|exact E]; cbn; intuition discriminate).
  assert (r_ufrag r' = r_ufrag r) as F7 by (eapply frame_ufrag; [|exact E]; cbn; intuition discriminate).
  split; rewrite ?F2, ?F3, ?F4, ?F5, ?F6, ?F7; auto.
  - eapply names_styled_evolve; eassumption.
  - intros n. unfold registered. rewrite F1, F2. apply A3.
Qed.
Lemma covers_cov : forall r p l, rok r -> covers bi r p l -> cov r [] l.
Proof. intros r p l HR H n Hn. left. destruct (H n Hn) as [X|[_ X]]; [now left|right; now apply (ok_reg _ HR)]. Qed.
Lemma config_adv : forall k tn r cf r', rok r -> generate_pydantic_config k c tn r = (Ok cf, r') -> adv r r' /\ cov r' [] (flat_map runs cf).
Proof.
  intros k tn r cf r' HR H. assert (A : adv r r') by (eapply quiet_adv; [|exact H]; unfold generate_pydantic_config, generate_config_dict; ev_tac).
  split; [exact A|]. eapply covers_cov; [eapply rok_adv; eassumption|]. eapply (config_scope st bi Hbi c k tn ""); eassumption.
Qed.
Lemma metadata_adv : forall e d dep r e' r' cs, rok r -> annotate_field_metadata c e (option_map estr d) dep r = (Ok e', r') ->
  adv r r' /\ (cov r cs (loads e) -> cov r' cs (loads e')).
Proof.
  intros e d dep r e' r' cs HR H. assert (A : adv r r') by (eapply quiet_adv; [|exact H]; ev_leaf). split; [exact A|]. intros HC.
  destruct (metadata_scope st (bi ++ loads e) (incl_appl _ Hbi) c e d dep "" _ _ _ H) as (_ & M & _).
  intros n Hn. destruct (M) with (n := n) as [G|[_ G]]; [|exact Hn| |left; right; apply (ok_reg _ (rok_adv _ _ A HR)), G].
  - intros m Hm. left. left. apply in_or_app. now right.
  - destruct G as [G|G]; [|left; left; now right]. apply in_app_or in G. destruct G as [G|G]; [left; left; now left|].
    eapply cov_adv; [exact A|exact HC|exact G].
Qed.
Lemma field_adv : forall target fd a r body r' cs, rok r -> field_statements c st target fd a r = (Ok body, r') ->
  adv r r' /\ (cov r cs (loads a) -> cov r' cs (flat_map runs body)) /\ (is_nonnull (fd_type fd) = false -> given bi r' "Field").
Proof.
  intros target fd a r body r' cs HR H. unfold field_statements in H. cbn zeta in H. mb H a' r0 H0. mb H u r1 H1. mr H.
  apply (metadata_adv a None (fd_depr fd) _ _ _ cs HR) in H0 as (A0 & C0).
  set (kws := if String.eqb target (generate_node_name st target) then if is_nonnull (fd_type fd) then [] else [("default", enone)]
              else (if is_nonnull (fd_type fd) then [] else [("default", enone)]) ++ [("alias", estr target)]) in *.
  assert (KL : forall kv, In kv kws -> loads (snd kv) = []).
  { intros kv. unfold kws. destruct (String.eqb _ _), (is_nonnull _); cbn; intuition subst; reflexivity. }
  assert (A1 : adv r0 r' /\ (kws <> [] -> given bi r' "Field")).
  { destruct kws; minv; [split; [apply adv_refl|congruence]|]. apply import_adv in H1 as (A1 & G1). split; [exact A1|intros _; exact G1]. }
  destruct A1 as (A1 & G1). split; [eapply adv_trans; eassumption|]. split.
  2:{ intros HN. apply G1. unfold kws. rewrite HN. destruct (String.eqb _ _); discriminate. }
  intros HC. cbn [flat_map]. apply cov_app.
  - cbn [runs]. apply cov_app; [eapply cov_adv; [exact A1|auto]|]. destruct kws as [|kv kws']; [apply cov_nil|]. cbn [opt_loads].
    rewrite kws_loads by exact KL. apply cov_cons; [left; apply G1; discriminate|apply cov_nil].
  - destruct (compose_field_documentation _ _ _ _); apply cov_nil.
Qed.

(** ** references *)
Lemma scalar_adv : forall n r e r', rok r -> reference_scalar n r = (Ok e, r') -> adv r r' /\ cov r' [] (loads e).
Proof.
  intros n r e r' HR H. assert (A : adv r r') by (eapply quiet_adv; [|exact H]; ev_leaf). split; [exact A|].
  eapply covers_cov; [eapply rok_adv; eassumption|]. eapply (scalar_scope st bi Hbi sc Hsc n ""); [|exact H].
  split; [apply (ok_styled _ HR)|apply (ok_scalars _ HR)].
Qed.
Lemma forward_adv : forall p r u r', T p -> add_forward p r = (Ok u, r') -> adv r r'.
Proof.
  intros p r u r' HT H. unfold add_forward in H. minv. split; [eapply evolve_one with (k := KFwd); [cbn; tauto|constructor]|].
  cbn. intros n Hn. apply sadd_In in Hn. destruct Hn as [ -> |Hn]; auto.
Qed.
Lemma enum_adv : forall n p r e r', rok r -> okE n -> reference_enum st n p true r = (Ok e, r') -> adv r r' /\ cov r' [] (loads e).
Proof.
  intros n p r e r' HR HE H. destruct (ok_enum _ HR n HE) as (B & D & HT). unfold reference_enum in H. rewrite B in H. cbn zeta in H. minv.
  rewrite D in H. cbn [negb orb] in H. destruct (String.eqb_spec p (style_enum_class st n)) as [-> |Hp]; minv.
  - split; [eapply forward_adv; eassumption|apply cov_nil].
  - split; [apply adv_refl|]. apply cov_cons; [now right|apply cov_nil].
Qed.
Lemma inherit_adv : forall f r k r', rok r -> okF f -> dget f (r_iffrag r) = None -> inherit_fragment f r = (Ok k, r') -> r' = r /\ T k.
Proof.
  intros f r k r' HR HC HI H. unfold inherit_fragment in H. minv. split; [reflexivity|]. destruct (ok_styled _ HR) as (_ & _ & _ & HS).
  rewrite (HS _ _ H). now apply (ok_frag _ HR).
Qed.
Lemma impl_adv : forall f n r o r', rok r -> object_type s n -> get_interface_fragment_implementation_or_none f n r = (Ok o, r') ->
  r' = r /\ match o with Some k => T k | None => dget f (r_iffrag r) = None end.
Proof.
  intros f n r o r' HR HO H. unfold get_interface_fragment_implementation_or_none in H. minv.
  destruct (dget f (r_iffrag r)) as [m|] eqn:EI; [|minv; auto]. destruct (dget n m) as [k|] eqn:EM; minv.
  - split; [reflexivity|]. eapply ok_impl; [exact HR|exact EI|]. apply dget_Some_In. exact EM.
  - destruct (ok_iface _ HR f m EI) as (t & Et & (d & is & fs & HT)). rewrite Et in H.
    destruct (String.eqb_spec t n) as [Etn|]; [subst n|discriminate]. exfalso. destruct HO as (d' & is' & fs' & ds' & HO). congruence.
Qed.
Lemma fragment_adv : forall f p r e r', rok r -> okF f -> dget f (r_iffrag r) = None ->
  reference_fragment st f p true r = (Ok e, r') -> adv r r' /\ cov r' [] (loads e).
Proof.
  intros f p r e r' HR HC HI H. destruct (ok_frag _ HR f HC) as (HM & TF). specialize (TF HI).
  unfold reference_fragment, reference_generic in H. cbn zeta in H. minv. rewrite HM in H. cbn [negb orb] in H.
  destruct (String.eqb_spec p (style_fragment_class st f)) as [-> |Hp]; minv.
  - split; [eapply forward_adv; eassumption|apply cov_nil].
  - split; [apply adv_refl|]. apply cov_cons; [now right|apply cov_nil].
Qed.
End Sel.
Ltac adv_go := first [eassumption | apply adv_refl | match goal with A : adv _ _ ?a ?b |- adv _ _ ?a ?d => eapply adv_trans; [exact A|adv_go] end].
Ltac up C := first [eapply cov_adv; [|exact C]; adv_go | eapply sco_adv; [|exact C]; adv_go].
