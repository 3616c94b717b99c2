(** Names looked up by the classes of fragments and operations: the plugins. *)
From Verif Require Import Base PyAst Gql Config Stylers Registry Utils Documents Recurse Inline Fragments Operations
  Spec_Types Spec_Refs Spec_Docs Spec_Imports Spec_Scope Spec_Scope2 Spec_Mro Spec_Valid Spec_ValidDoc
  P_Base P_Gql P_Monad P_Types P_Imports P_Topo P_Recurse P_InlineProps P_Modelled P_Modelled2 P_Total7 P_Scope P_Scope2 P_Scope5 P_Scope6 P_Scope7.
From Coq Require Import Permutation.
Arguments register_import : simpl never.
Arguments add_forward : simpl never.
Arguments register_builtin : simpl never.

Lemma mconcat_steps : forall {A B} (f : A -> M (list B)) (P : list A -> list B -> reg -> Prop) l r ys r',
  mconcat f l r = (Ok ys, r') -> P [] [] r ->
  (forall pre x post ys r1 y r2, l = pre ++ x :: post -> P pre ys r1 -> f x r1 = (Ok y, r2) -> P (pre ++ [x]) (ys ++ y) r2) -> P l ys r'.
Proof.
  intros A B f P l r ys r' H H0 HS. apply mconcat_ok in H. destruct H as (yss & H & ->).
  assert (L : forall post pre acc r1 zs, l = pre ++ post -> P pre acc r1 -> mmap f post r1 = (Ok zs, r') -> P l (acc ++ concat zs) r').
  { induction post as [|x post IH]; intros pre acc r1 zs E HP HM; cbn [mmap] in HM.
    - apply ret_ok in HM. destruct HM as [-> ->]. rewrite app_nil_r in E. subst. cbn. now rewrite app_nil_r.
    - mb HM y r2 Hy. mb HM ys r3 Hys. mr HM. cbn [concat]. rewrite app_assoc. eapply (IH (pre ++ [x])); [now rewrite <- app_assoc| |exact Hys]. eapply HS; eassumption. }
  apply (L l [] [] r yss eq_refl H0 H).
Qed.
Lemma in_fragments : forall d f, In f (fragments_of d) -> In (DFrag f) d.
Proof. intros d f H. unfold fragments_of in H. apply in_flat_map in H. destruct H as ([o|g] & Hx & H); [contradiction|]. destruct H as [<-|[]]. exact Hx. Qed.
Lemma fragments_in : forall d f, In (DFrag f) d -> In f (fragments_of d).
Proof. intros d f H. unfold fragments_of. apply in_flat_map. exists (DFrag f). split; [exact H|now left]. Qed.
Lemma in_operations : forall d f, In f (operations_of d) -> In (DOp f) d.
Proof. intros d f H. unfold operations_of in H. apply in_flat_map in H. destruct H as ([o|g] & Hx & H); [|contradiction]. destruct H as [<-|[]]. exact Hx. Qed.
Lemma operations_in : forall d f, In (DOp f) d -> In f (operations_of d).
Proof. intros d f H. unfold operations_of. apply in_flat_map. exists (DOp f). split; [exact H|now left]. Qed.

Section Plugins.
Variables (st : list styler) (bi : list string).
Hypothesis Hbi : incl simple_types bi.
Variables (c : gconfig) (s : schema) (sc : dict string).
Hypothesis Hsc : forall n t, dget n sc = Some t -> has_dot t = false -> In t bi.
Variable d : document.
Hypothesis VD : valid_document s d.
Hypothesis Hin : forall f n, In f (fragments_of d) -> spread_in True (fr_sels f) n -> spread_in False (fr_sels f) n.
Hypothesis HU : unions_plain s d.
Hypothesis HM : members_named s d (style_fragment_class st).
(** the names imported at the end *)
Variable X : string -> Prop.
Hypothesis X_obj : forall b, In b (c_object_bases c) -> X (last_comp b).
Hypothesis X_field : c_create_catchall c = false -> X "Field".
(** the enums of the enum plugin *)
Variable E0 : dict string.
Definition okE (e : string) : Prop := mem e built_in_keys = false /\ dmem e E0 = true.
Hypothesis HE : forall e, Spec_Refs.is_enum s e -> document_selects s d e -> okE e.
Definition okU (f : string) : Prop := document_in_union s d f.

Record G (tree : list stmt) (done : list string) (r : reg) : Prop := {
  g_styled : names_styled st r;
  g_scalars : r_scalars r = sc;
  g_enums : r_enums r = E0;
  g_scope : scoped (fun n => given bi r n \/ X n) tree;
  g_reg : forall n, registered r n -> In n (binds tree);
  g_fwd : forall n, In n (r_fwd r) -> X n \/ In n (binds tree);
  g_frag : forall f, In f done -> dmem f (r_frags r) = true /\ (dget f (r_iffrag r) = None -> In (style_fragment_class st f) (binds tree));
  g_impl : forall f m i k, dget f (r_iffrag r) = Some m -> In (i, k) m -> In k (binds tree);
  g_iface : forall f m, dget f (r_iffrag r) = Some m -> In f done /\ exists fr, In fr (fragments_of d) /\ fr_name fr = f
              /\ interface_type s (fr_on fr) /\ dget f (r_fragtypes r) = Some (fr_on fr);
  g_ufrag : forall f m i k, dget f (r_ufrag r) = Some m -> In (i, k) m -> In k (binds tree) }.
Definition Tt (tree : list stmt) (n : string) : Prop := X n \/ In n (binds tree).
Notation rok tree done := (rok st s sc (Tt tree) okE okU (fun f => In f done)).

Lemma G_rok : forall tree done r, G tree done r -> rok tree done r.
Proof.
  intros tree done r [A1 A2 A3 A4 A5 A6 A7 A8 A9 A10]. split; auto.
  - intros n Hn. right. auto.
  - intros e (B & D). rewrite A3. split; [exact B|]. split; [exact D|]. right. apply A5. right. exists e.
    unfold dmem in D. rewrite A3. destruct (dget e E0) as [k|] eqn:EK; [|discriminate]. f_equal. destruct A1 as (_ & A1 & _). rewrite <- A3 in EK. symmetry. now apply A1 in EK.
  - intros f Hf. destruct (A7 f Hf) as (B & D). split; [exact B|]. intros HN. right. auto.
  - intros f m i k H1 H2. right. eauto.
  - intros f m H1. destruct (A9 f m H1) as (_ & fr & _ & _ & HI & HT). eauto.
  - intros f Hf. destruct (dget f (r_iffrag r)) as [m|] eqn:EI; [|reflexivity]. exfalso. destruct (A9 f m EI) as (_ & fr & Hfr & <- & HI & _).
    apply (HU fr); [now apply in_fragments|exact Hf|exact HI].
  - intros f m i k H1 H2. right. eauto.
Qed.

(** the tables of fragments stay *)
Record same (r r' : reg) : Prop := {
  s_styled : names_styled st r -> names_styled st r';
  s_scalars : r_scalars r' = r_scalars r; s_enums : r_enums r' = r_enums r; s_inputs : r_inputs r' = r_inputs r;
  s_rle : rle r r' }.
Lemma same_trans : forall a b e, same a b -> same b e -> same a e.
Proof. intros a b e [A1 A2 A3 A4 A5] [B1 B2 B3 B4 B5]. split; try congruence; [auto|]. eapply rle_trans; eassumption. Qed.
Lemma evolve_same : forall k r r', ~ In KSca k -> ~ In KEnu k -> ~ In KInp k -> evolve st k r r' -> same r r'.
Proof.
  intros k r r' H1 H2 H3 E. split; [intros HS; eapply names_styled_evolve; eassumption|eapply frame_scalars|eapply frame_enums|eapply frame_inputs|eapply evolve_rle]; eassumption.
Qed.

Lemma G_next : forall tree done r out done' r', G tree done r ->
  names_styled st r' -> r_scalars r' = r_scalars r -> r_enums r' = r_enums r -> r_inputs r' = r_inputs r -> rle r r' ->
  r_frags r' = r_frags r -> r_fragtypes r' = r_fragtypes r ->
  (forall n, In n (r_fwd r') -> In n (r_fwd r) \/ Tt tree n) ->
  scoped (K bi (Tt tree) r') out -> incl done done' ->
  (forall f, In f done' -> In f done \/ (dmem f (r_frags r') = true /\ (dget f (r_iffrag r') = None -> In (style_fragment_class st f) (binds out)))) ->
  (forall f, dget f (r_iffrag r') = None -> dget f (r_iffrag r) = None) ->
  (forall f m, dget f (r_iffrag r') = Some m -> dget f (r_iffrag r) = Some m \/ (In f done' /\ (exists fr, In fr (fragments_of d) /\ fr_name fr = f
     /\ interface_type s (fr_on fr) /\ dget f (r_fragtypes r') = Some (fr_on fr)) /\ forall i k, In (i, k) m -> In k (binds out))) ->
  (forall f m, dget f (r_ufrag r') = Some m -> dget f (r_ufrag r) = Some m \/ forall i k, In (i, k) m -> In k (binds out)) ->
  G (tree ++ out) done' r'.
Proof.
  intros tree done r out done' r' [A1 A2 A3 A4 A5 A6 A7 A8 A9 A10] B1 B2 B3 B4 B5 B6 B7 B8 B9 B10 B11 B12 B13 B14.
  assert (GV : forall n, given bi r n \/ X n -> given bi r' n \/ X n) by (intros n [H|H]; [left; eapply given_rle; eassumption|now right]).
  split; rewrite ?B2, ?B3; auto.
  - apply scoped_app. split; [eapply scoped_mono; [exact GV|exact A4]|]. eapply scoped_mono; [|exact B9]. intros n [H|[H|H]]; auto.
  - intros n. unfold registered. rewrite B3, B4. intros H. rewrite binds_app. apply in_or_app. left. apply A5. exact H.
  - intros n Hn. rewrite binds_app, in_app_iff. destruct (B8 n Hn) as [H|[H|H]]; auto. apply A6 in H. tauto.
  - intros f Hf. rewrite binds_app, in_app_iff. destruct (B11 f Hf) as [H|(H & H')]; [|tauto]. destruct (A7 f H) as (H1 & H2). rewrite B6. split; [exact H1|]. auto.
  - intros f m i k H1 H2. rewrite binds_app, in_app_iff. destruct (B13 f m H1) as [H|(_ & _ & H)]; eauto.
  - intros f m H1. destruct (B13 f m H1) as [H|(H & H' & _)]; [|auto]. destruct (A9 f m H) as (H2 & fr & H3). rewrite B7. split; [auto|]. exists fr. tauto.
  - intros f m i k H1 H2. rewrite binds_app, in_app_iff. destruct (B14 f m H1) as [H|H]; eauto.
Qed.
(** the same for a part that leaves the tables of fragments alone *)
Lemma G_evolve : forall tree done r out r' k, G tree done r -> evolve st k r r' ->
  ~ In KSca k -> ~ In KEnu k -> ~ In KInp k -> ~ In KFra k -> ~ In KFty k -> ~ In KIff k -> ~ In KUff k ->
  (forall n, In n (r_fwd r') -> In n (r_fwd r) \/ Tt tree n) -> scoped (K bi (Tt tree) r') out -> G (tree ++ out) done r'.
Proof.
  intros tree done r out r' k HG HV N1 N2 N3 N4 N5 N6 N7 HF HS.
  pose proof (frame_iffrag _ _ _ _ N6 HV) as FI. pose proof (frame_ufrag _ _ _ _ N7 HV) as FU. pose proof (frame_frags _ _ _ _ N4 HV) as FF. pose proof (frame_fragtypes _ _ _ _ N5 HV) as FT.
  eapply G_next; [exact HG|eapply names_styled_evolve; [exact HV|apply HG]|eapply frame_scalars; eassumption|eapply frame_enums; eassumption|eapply frame_inputs; eassumption
    |eapply evolve_rle; eassumption|exact FF|exact FT|exact HF|exact HS|apply incl_refl|auto| | |]; rewrite ?FI, ?FU; auto.
Qed.
Variable pc : frcfg.
Variable print_fragment : fragment -> string.
Variable add : string -> res string.
Variable l : list fragment.
Hypothesis El : ordered_fragments d = Ok l.
Lemma perm : Permutation l (fragments_of d).
Proof. destruct (ordering_C01 d (vd_fragments s d VD)) as (l' & E & P). rewrite El in E. injection E as <-. exact P. Qed.
Lemma outside : forall a b, depends_trans True d a b -> depends_trans False d a b.
Proof.
  intros a b H. induction H as [a b (f & Hf & E & Sp)|]; [|eapply t_trans; eassumption]. apply t_step. exists f. split; [exact Hf|]. split; [exact E|]. now apply Hin.
Qed.
Lemma earlier : forall pre f post n, l = pre ++ f :: post -> spread_in True (fr_sels f) n -> In n (map fr_name pre).
Proof.
  intros pre f post n E H. eapply before_prefix.
  - rewrite <- E. eapply Permutation_NoDup; [apply Permutation_map; symmetry; apply perm|apply (vd_fragments s d VD)].
  - rewrite <- E. eapply ordering_C02; eauto using outside; [apply (vd_fragments s d VD)|eapply P_Total7.known; eassumption|apply (vd_acyclic s d VD)|].
    apply outside, t_step. exists f. split; [|auto]. eapply Permutation_in; [apply perm|]. rewrite E. apply in_elt.
Qed.
Definition imported (r : reg) (f : fragment) : Prop :=
  (object_type s (fr_on f) \/ interface_type s (fr_on f) -> given bi r "Field") /\ (object_type s (fr_on f) -> forall b, In b (c_object_bases c) -> given bi r (last_comp b)).
Lemma fragment_step : forall pre f post tree r out r', l = pre ++ f :: post -> G tree (map fr_name pre) r ->
  generate_fragment c st s pc print_fragment add f r = (Ok out, r') -> G (tree ++ out) (map fr_name (pre ++ [f])) r' /\ rle r r' /\ imported r' f.
Proof.
  intros pre f post tree r out r' E HG H. unfold generate_fragment in H. mb H t r0 H0. apply from_opt_ok in H0. destruct H0 as [ET ->].
  mb H name r1 H1. mb H u r2 H2. mb H u' r3 H3.
  assert (V3 : evolve st [KFra; KDoc; KFty] r r3).
  { eapply evolve_trans; [eapply evolve_incl; [|eapply ev_ok; [apply ev_generate_fragment_class|exact H1]]; intros k; cbn; tauto|].
    eapply evolve_trans; [eapply evolve_incl; [|eapply ev_ok; [apply ev_register_fragment_document|exact H2]]; intros k; cbn; tauto|].
    eapply evolve_incl; [|eapply ev_ok; [apply ev_register_fragment_type|exact H3]]. intros k; cbn; tauto. }
  unfold generate_fragment_class in H1. apply generate_in_spec in H1. destruct H1 as (NF & -> & ->).
  unfold register_fragment_document in H2. mg H2 m. mb H2 u0 r4 H4. apply massert_ok in H4. destruct H4 as [_ ->]. apply modify_ok in H2. destruct H2 as [_ ->].
  unfold register_fragment_type in H3. apply modify_ok in H3. destruct H3 as [_ ->].
  match type of H with _ ?r = _ => set (r3 := r) in * end.
  assert (Hf : In f (fragments_of d)) by (eapply Permutation_in; [apply perm|]; rewrite E; apply in_elt).
  assert (ND : ~ In (fr_name f) (map fr_name pre)).
  { intros HX. destruct (g_frag _ _ _ HG _ HX) as (HX' & _). unfold dmem in HX'. rewrite NF in HX'. discriminate. }
  assert (G3 : G tree (map fr_name pre) r3).
  { destruct HG as [A1 A2 A3 A4 A5 A6 A7 A8 A9 A10]. split; auto.
    - eapply names_styled_evolve; eassumption.
    - intros g Hg. destruct (A7 g Hg) as (B1 & B2). split; [|exact B2]. cbn. unfold dmem in *. rewrite dget_dset. destruct (String.eqb g (fr_name f)); [reflexivity|exact B1].
    - intros g m' Hg. destruct (A9 g m' Hg) as (B1 & fr & B2 & B3 & B4 & B5). split; [exact B1|]. exists fr. split; [exact B2|]. split; [exact B3|]. split; [exact B4|].
      cbn. rewrite dget_dset. destruct (String.eqb_spec g (fr_name f)) as [Eg|]; [|exact B5]. exfalso. apply ND. rewrite <- Eg. exact B1. }
  assert (R3 : rok tree (map fr_name pre) r3) by (apply G_rok; exact G3).
  assert (NI : dget (fr_name f) (r_iffrag r3) = None).
  { destruct (dget (fr_name f) (r_iffrag r3)) as [m'|] eqn:EI; [|reflexivity]. exfalso. apply ND, (g_iface _ _ _ G3 _ _ EI). }
  assert (DF : dmem (fr_name f) (r_frags r3) = true) by (cbn; unfold dmem; rewrite dget_dset, String.eqb_refl; reflexivity).
  assert (FTY : dget (fr_name f) (r_fragtypes r3) = Some (fr_on f)) by (cbn; rewrite dget_dset, String.eqb_refl; reflexivity).
  assert (HQ : Q s okE okU (fun g => In g (map fr_name pre)) (fr_on f) (fr_sels f)).
  { split.
    - intros e He HN. apply HE; [exact HN|]. right. exists f. split; [now apply in_fragments|exact He].
    - intros g Hg. right. exists f. split; [now apply in_fragments|exact Hg].
    - intros g Hg. eapply earlier; eassumption. }
  assert (L3 : rle r r3) by (eapply evolve_rle; exact V3).
  assert (TO : forall b, In b (c_object_bases c) -> Tt tree (last_comp b)) by (intros b Hb; left; auto).
  assert (TF : c_create_catchall c = false -> Tt tree "Field") by (intros Hb; left; auto).
  clearbody r3. clear V3.
  assert (IN : forall g, In g (map fr_name (pre ++ [f])) -> In g (map fr_name pre) \/ g = fr_name f).
  { intros g. rewrite map_app, in_app_iff. intros [Hg|[Hg|[]]]; auto. }
  assert (II : incl (map fr_name pre) (map fr_name (pre ++ [f]))) by (rewrite map_app; apply incl_appl, incl_refl).
  assert (FR : forall rx ry, adv st (Tt tree) rx ry -> names_styled st rx -> names_styled st ry /\ r_scalars ry = r_scalars rx /\ r_enums ry = r_enums rx /\ r_inputs ry = r_inputs rx /\ rle rx ry
     /\ r_frags ry = r_frags rx /\ r_fragtypes ry = r_fragtypes rx /\ (forall n, In n (r_fwd ry) -> In n (r_fwd rx) \/ Tt tree n) /\ r_iffrag ry = r_iffrag rx /\ r_ufrag ry = r_ufrag rx).
  { intros rx ry [AE AF] HN. split; [eapply names_styled_evolve; eassumption|].
    split; [eapply frame_scalars; [|exact AE]; cbn; intuition discriminate|]. split; [eapply frame_enums; [|exact AE]; cbn; intuition discriminate|].
    split; [eapply frame_inputs; [|exact AE]; cbn; intuition discriminate|]. split; [eapply evolve_rle; exact AE|]. split; [eapply frame_frags; [|exact AE]; cbn; intuition discriminate|].
    split; [eapply frame_fragtypes; [|exact AE]; cbn; intuition discriminate|]. split; [exact AF|].
    split; [eapply frame_iffrag; [|exact AE]; cbn; intuition discriminate|eapply frame_ufrag; [|exact AE]; cbn; intuition discriminate]. }
  destruct t as [| |dd is fs ds|dd is fs|dd ms|]; try discriminate.
  - assert (HO : object_type s (fr_on f)) by (red; eauto). apply (object_fragment_adv st bi Hbi c s sc pc print_fragment add Hsc (Tt tree) okE okU (fun g => In g (map fr_name pre)) TO TF) in H; auto.
    destruct H as (A & S & B & GF & GB). destruct (FR _ _ A (g_styled _ _ _ G3)) as (F1 & F2 & F3 & F4 & F5 & F6 & F7 & F8 & F9 & F10).
    split; [|split; [eapply rle_trans; eassumption|split; auto]].
    eapply G_next; [exact G3|assumption..| | | |]; rewrite ?F9, ?F10; auto. intros g Hg. destruct (IN g Hg) as [Hg'| ->]; [now left|right]. rewrite F6. auto.
  - apply (interface_fragment_adv st bi Hbi c s sc pc Hsc (Tt tree) okE okU (fun g => In g (map fr_name pre)) TO TF) with (is := is) in H; auto.
    destruct H as (ra & m' & A & -> & S & B & GF). destruct (FR _ _ A (g_styled _ _ _ G3)) as (F1 & F2 & F3 & F4 & F5 & F6 & F7 & F8 & F9 & F10).
    assert (LE : rle r3 (with_iffrag (dset (fr_name f) m' (r_iffrag ra)) ra)) by (destruct F5; split; assumption).
    split; [|split; [eapply rle_trans; eassumption|split; [intros _; exact GF|]]].
    2:{ intros (d1 & d2 & d3 & d4 & HO). congruence. }
    eapply G_next; [exact G3|assumption..| | | |]; cbn; rewrite ?F10; auto.
    + intros g Hg. destruct (IN g Hg) as [Hg'| ->]; [now left|right]. rewrite F6. split; [exact DF|]. rewrite dget_dset, String.eqb_refl. discriminate.
    + intros g. rewrite dget_dset. destruct (String.eqb g (fr_name f)); [discriminate|]. now rewrite F9.
    + intros g m. rewrite dget_dset. destruct (String.eqb_spec g (fr_name f)) as [Eg|]; [intros [= <-]; right|rewrite F9; now left].
      split; [rewrite Eg, map_app; apply in_or_app; right; now left|]. split; [|exact B]. exists f. rewrite F7, Eg. repeat split; auto. red; eauto.
  - assert (HUT : union_type s (fr_on f)) by (red; eauto). apply (union_fragment_adv st bi Hbi c s sc pc Hsc (Tt tree) okE okU (fun g => In g (map fr_name pre)) TO TF) in H; auto.
    2:{ intros cn ds sub g ds' H5 H6. eapply HM; [apply in_fragments; exact Hf|exact HUT|exact H5|exact H6]. }
    destruct H as (ra & m' & A & A' & S & B & BC). destruct (FR _ _ A (g_styled _ _ _ G3)) as (F1 & F2 & F3 & F4 & F5 & F6 & F7 & F8 & F9 & F10).
    destruct (FR _ _ A' F1) as (D1 & D2 & D3 & D4 & D5 & D6 & D7 & D8 & D9 & D10). cbn in D2, D3, D4, D6, D7, D8, D9, D10.
    assert (LE : rle r3 r').
    { eapply rle_trans; [exact F5|]. eapply rle_trans; [|exact D5]. split; cbn; try apply incl_refl; apply dle_refl. }
    split; [|split; [eapply rle_trans; eassumption|split]].
    2:{ intros [(d1 & d2 & d3 & d4 & HO)|(d1 & d2 & d3 & HO)]; congruence. }
    2:{ intros (d1 & d2 & d3 & d4 & HO); congruence. }
    eapply G_next; [exact G3|exact D1|congruence|congruence|congruence|exact LE|congruence|congruence| |exact S|exact II| | | |]; rewrite ?D9, ?F9, ?D10; auto.
    + intros n Hn. destruct (D8 n Hn) as [Hn'|Hn']; auto.
    + intros g Hg. destruct (IN g Hg) as [Hg'| ->]; [now left|right]. rewrite D6, F6. auto.
    + intros g m. rewrite dget_dset. destruct (String.eqb_spec g (fr_name f)); [intros [= <-]; now right|]. rewrite F10. auto.
Qed.
Lemma imported_rle : forall r r' f, rle r r' -> imported r f -> imported r' f.
Proof. intros r r' f HL (H1 & H2). split; intros; eapply given_rle; eauto. Qed.
Lemma fragments_step : forall tree r out r', G tree [] r -> fragments_plugin c st s pc print_fragment add d r = (Ok out, r') ->
  G (tree ++ out) (map fr_name l) r' /\ rle r r' /\ forall f, In f l -> imported r' f.
Proof.
  intros tree r out r' HG H. unfold fragments_plugin in H. rewrite El in H. mb H l' r0 H0. apply lift_ok in H0. destruct H0 as [[= <-] ->].
  eapply (mconcat_steps _ (fun pre ys r' => G (tree ++ ys) (map fr_name pre) r' /\ rle r r' /\ forall f, In f pre -> imported r' f)) in H; [exact H| |].
  - rewrite app_nil_r. split; [exact HG|]. split; [apply rle_refl|intros f []].
  - intros pre f post ys r1 y r2 E (A & L & I') Hx. destruct (fragment_step _ _ _ _ _ _ _ E A Hx) as (A' & L' & I2). rewrite app_assoc. split; [exact A'|]. split; [eapply rle_trans; eassumption|].
    intros g Hg. apply in_app_or in Hg. destruct Hg as [Hg|[<-|[]]]; [eapply imported_rle; [exact L'|auto]|exact I2].
Qed.

(** ** operations *)
Variable oc : ocfg.
Variable print_operation : operation -> string.
Variable doc_of : operation -> option string.
Hypothesis HV : o_create_arguments oc = true -> forall o v, In (DOp o) d -> In v (op_vars o) -> mem (gty_name (v_type v)) built_in_keys = false.
Hypothesis HVF : o_create_arguments oc = true -> forall o v, In (DOp o) d -> In v (op_vars o) -> is_nonnull (v_type v) = false \/ v_default v <> None -> X "Field".
Hypothesis HS : ~ Spec_Refs.is_enum s "String".
Section Op.
Variable tree : list stmt.
Variable done : list string.
Notation adv := (adv st (Tt tree)).
Notation cov := (cov bi (Tt tree)).
Notation sco := (sco bi (Tt tree)).
Notation rok := (rok tree done).
Lemma cov_rle : forall r r' cs ns, rle r r' -> cov r cs ns -> cov r' cs ns.
Proof. intros r r' cs ns L H n Hn. destruct (H n Hn) as [[Y|Y]|Y]; [left; left; eapply given_rle; eassumption|left; now right|now right]. Qed.
Lemma sco_rle : forall r r' cs, rle r r' -> sco r cs -> sco r' cs.
Proof. intros r r' cs L H. eapply scoped_mono; [|exact H]. intros n [Y|Y]; [left; eapply given_rle; eassumption|now right]. Qed.
Lemma any_input_adv : forall n r e r', mem n built_in_keys = false -> rok r -> reference_any_input st n "" r = (Ok e, r') -> adv r r' /\ cov r' [] (loads e).
Proof.
  intros n r e r' HB HR H. unfold reference_any_input in H. unfold try_except at 1 in H. destruct (reference_scalar n r) as [[x|x] r1] eqn:E1.
  { injection H as -> ->. eapply scalar_adv; eassumption. }
  assert (r1 = r) as ->.
  { unfold reference_scalar, bind, gets in E1. destruct (dget n (r_scalars r)) as [t|]; [|unfold raise in E1; congruence].
    unfold register_import, modify, ret in E1. destruct (has_dot t), (mem t py_noimport); discriminate. }
  destruct (is_cls NoScalarFoundC x); [|discriminate]. clear E1 x. unfold try_except at 1 in H. destruct (reference_inputtype st n "" false r) as [[x|x] r1] eqn:E1.
  { injection H as -> ->. unfold reference_inputtype in E1. mg E1 m. destruct (dget n (r_inputs r)) as [k|] eqn:EK; [|discriminate].
    destruct (String.eqb "" (style_inputtype_class st n)); [discriminate|]. mr E1. split; [apply adv_refl|]. apply cov_cons; [|apply cov_nil].
    right. apply (ok_reg _ _ _ _ _ _ _ _ HR). left. eauto. }
  assert (r1 = r) as ->.
  { unfold reference_inputtype, bind, gets in E1. destruct (dget n (r_inputs r)); [destruct (String.eqb _ _)|]; unfold ret, raise in E1; congruence. }
  destruct (is_cls NoInputTypeFoundC x); [|discriminate]. clear E1 x. unfold try_except at 1 in H. destruct (reference_enum st n "" false r) as [[x|x] r1] eqn:E1.
  2:{ destruct (is_cls NoEnumFoundC x); discriminate. }
  injection H as -> ->. unfold reference_enum in E1. rewrite HB in E1. cbn zeta in E1. mg E1 m.
  destruct (negb (dmem n (r_enums r))) eqn:D; [discriminate|]. cbn [orb] in E1. destruct (String.eqb "" (style_enum_class st n)); [discriminate|]. mr E1. split; [apply adv_refl|].
  apply cov_cons; [|apply cov_nil]. right. apply (ok_reg _ _ _ _ _ _ _ _ HR). right. exists n. apply negb_false_iff in D. unfold dmem in D.
  destruct (dget n (r_enums r')) as [k|] eqn:EK; [|discriminate]. f_equal. destruct (ok_styled _ _ _ _ _ _ _ _ HR) as (_ & HN & _). now apply HN.
Qed.
Lemma annotation_adv : forall t o r e r', mem (gty_name t) built_in_keys = false -> rok r -> recurse_type_annotation st None t o r = (Ok e, r') -> adv r r' /\ cov r' [] (loads e).
Proof.
  intros t. induction t as [n|t IH|t IH]; intros o r e r' HB HR H; cbn [recurse_type_annotation] in H.
  - mb H x r1 H1. apply any_input_adv in H1; [|exact HB|exact HR]. destruct H1 as (A1 & C1). unfold opt_wrap in H. destruct o; [|mr H; auto].
    mb H u r2 H2. apply (import_adv st bi Hbi (Tt tree)) in H2 as (A2 & G2). mr H. split; [adv_go|]. cbn. apply cov_cons; [now left|up C1].
  - destruct o.
    + mb H u r1 H1. apply (import_adv st bi Hbi (Tt tree)) in H1 as (A1 & G1). mb H u' r2 H2. apply (import_adv st bi Hbi (Tt tree)) in H2 as (A2 & G2). mb H x r3 H3.
      apply IH in H3; [|exact HB|eapply rok_adv; [|exact HR]; adv_go]. destruct H3 as (A3 & C3). mr H. split; [adv_go|]. cbn.
      apply cov_cons; [left; eapply given_rle; [eapply adv_rle; exact A3|exact G2]|]. apply cov_cons; [|exact C3].
      left. eapply given_rle; [eapply adv_rle; exact A3|]. eapply given_rle; [eapply adv_rle; exact A2|exact G1].
    + mb H u r1 H1. apply (import_adv st bi Hbi (Tt tree)) in H1 as (A1 & G1). mb H x r3 H3.
      apply IH in H3; [|exact HB|eapply rok_adv; [|exact HR]; adv_go]. destruct H3 as (A3 & C3). mr H. split; [adv_go|]. cbn.
      apply cov_cons; [left; eapply given_rle; [eapply adv_rle; exact A3|exact G1]|exact C3].
  - eapply IH; eassumption.
Qed.
Lemma argument_adv : forall o v r x r', In (DOp o) d -> In v (op_vars o) -> o_create_arguments oc = true -> rok r -> argument_field c st v r = (Ok x, r') -> adv r r' /\ cov r' [] (runs x).
Proof.
  intros o v r x r' Ho Hv HC HR H. unfold argument_field in H. cbn zeta in H. set (opt := negb (is_nonnull (v_type v)) || match v_default v with Some _ => true | None => false end) in *.
  mb H a r1 H1. apply annotation_adv in H1; [|eapply HV; eassumption|exact HR]. destruct H1 as (A1 & C1). mb H a2 r2 H2.
  assert (adv r1 r2 /\ cov r2 [] (loads a2)) as (A2 & C2).
  { destruct (opt && is_nonnull (v_type v)); [|mr H2; split; [apply adv_refl|exact C1]]. mb H2 u ra Ha. apply (import_adv st bi Hbi (Tt tree)) in Ha as (Aa & Ga). mr H2.
    split; [exact Aa|]. cbn. apply cov_cons; [now left|up C1]. }
  mb H dv r3 H3. assert (r3 = r2) as ->.
  { destruct (v_default v); [|apply ret_ok in H3; tauto]. mb H3 y ra Ha. apply lift_ok in Ha. destruct Ha as [_ ->]. apply ret_ok in H3. tauto. }
  mb H a3 r4 H4. assert (ED : match dv with Some PNone | None => None | Some x => Some (estr (str_of_pyval x)) end = option_map estr (match dv with Some PNone | None => None | Some x => Some (str_of_pyval x) end)).
  { destruct dv as [[]|]; reflexivity. }
  rewrite ED in H4. apply (metadata_adv st bi Hbi c s sc (Tt tree) okE okU (fun f => In f done) _ _ _ _ _ _ []) in H4; [|eapply rok_adv; [|exact HR]; adv_go]. destruct H4 as (A4 & C4). specialize (C4 C2).
  mb H u r5 H5. mr H. set (nm := generate_parameter_name st (v_name v)) in *.
  assert (adv r4 r' /\ (String.eqb (v_name v) nm = false -> given bi r' "Field")) as (A5 & G5).
  { destruct (String.eqb (v_name v) nm); [mr H5; split; [apply adv_refl|discriminate]|]. apply (import_adv st bi Hbi (Tt tree)) in H5 as (A & G5). auto. }
  split; [adv_go|]. cbn [runs]. apply cov_app; [up C4|].
  set (kws := (if String.eqb (v_name v) nm then [] else [("alias", estr (v_name v))]) ++ (if opt then [("default", enone)] else [])).
  assert (KL : forall kv, In kv kws -> loads (snd kv) = []).
  { intros kv. unfold kws. destruct (String.eqb _ _), opt; cbn; intuition subst; reflexivity. }
  destruct kws as [|kw kws'] eqn:EK; [apply cov_nil|]. cbn [opt_loads]. rewrite kws_loads by exact KL. apply cov_cons; [|apply cov_nil].
  destruct (String.eqb (v_name v) nm) eqn:EN; [|left; auto]. destruct opt eqn:EO; [|unfold kws in EK; discriminate].
  right. left. eapply HVF; [exact HC|exact Ho|exact Hv|]. unfold opt in EO. destruct (is_nonnull (v_type v)); [right|now left]. cbn in EO. destruct (v_default v); [discriminate|discriminate EO].
Qed.
Lemma arguments_adv : forall o n r x r', In (DOp o) d -> rok r -> arguments_class c st oc o n r = (Ok x, r') -> adv r r' /\ cov r' [] (flat_map runs x).
Proof.
  intros o n r x r' Ho HR H. unfold arguments_class in H. destruct (Bool.bool_dec (o_create_arguments oc) true) as [EC|EC]; [rewrite EC in H|apply Bool.not_true_is_false in EC; rewrite EC in H; mr H; split; [apply adv_refl|apply cov_nil]].
  mb H fs r1 H1. assert (adv r r1 /\ cov r1 [] (flat_map runs fs)) as (A1 & C1).
  { assert (L : forall vs r fs r', incl vs (op_vars o) -> rok r -> mmap (argument_field c st) vs r = (Ok fs, r') -> adv r r' /\ cov r' [] (flat_map runs fs)).
    { clear r HR H H1 r1 fs r' x. induction vs as [|v vs IH]; intros r fs r' HI HR H; cbn [mmap] in H; [mr H; split; [apply adv_refl|apply cov_nil]|].
      mb H y r1 H1. apply (argument_adv o) in H1; auto; [|apply HI; now left]. destruct H1 as (A1 & C1). mb H ys r2 H2. mr H.
      apply IH in H2; [|intros z Hz; apply HI; now right|eapply rok_adv; eassumption]. destruct H2 as (A2 & C2). split; [adv_go|]. cbn [flat_map]. apply cov_app; [up C1|exact C2]. }
    eapply L; [apply incl_refl|exact HR|exact H1]. }
  mb H cfg r2 H2. unfold generate_arguments_config in H2. mb H2 u ra Ha. apply (import_adv st bi Hbi (Tt tree)) in Ha as (Aa & Ga). mr H2.
  mb H bs r3 H3. unfold bases_or_default in H3. apply (bases_adv st bi Hbi (Tt tree)) in H3 as (A3 & C3). mr H. split; [adv_go|].
  change (cov r' [] (runs (SClass "Arguments" bs (docstring ("Arguments for " +s+ n +s+ " ") :: fs ++
     [SAssign (EName "model_config") (ECall (EName "ConfigDict") [] [(Some "populate_by_name", match oc_allow_population_by_field_name (c_options c) with Some b => EConst (CBool b) | None => enone end)])]) []) ++ [])).
  rewrite app_nil_r. apply cov_class; [exact C3|]. cbn [flat_map]. apply cov_app; [apply cov_nil|]. rewrite flat_map_app. apply cov_app; [up C1|].
  cbn [flat_map runs loads app]. apply cov_cons; [left; eapply given_rle; [eapply adv_rle; exact A3|exact Ga]|]. destruct (oc_allow_population_by_field_name (c_options c)); apply cov_nil.
Qed.
End Op.

Definition kind_bases (o : operation) : list string :=
  match op_kind o with OpQuery => o_query_bases oc | OpMutation => o_mutation_bases oc | OpSubscription => o_subscription_bases oc end.
Definition op_imported (r : reg) (o : operation) : Prop :=
  ((exists root f fd, root_type s (op_kind o) = Some root /\ In (SelField f) (op_sels o) /\ get_field_def s root (fn_name f) = Some fd
      /\ is_nonnull (fd_type fd) = false) -> given bi r "Field")
  /\ (kind_bases o = [] -> forall b, In b (c_object_bases c) -> given bi r (last_comp b)).
Lemma op_imported_rle : forall r r' o, rle r r' -> op_imported r o -> op_imported r' o.
Proof. intros r r' o HL (H1 & H2). split; intros; eapply given_rle; eauto. Qed.
Lemma class_step : forall o n r cb r', operation_class c st oc o n r = (Ok cb, r') ->
  evolve st Kop r r' /\ r_fwd r' = r_fwd r /\ (forall x, In x (flat_map loads (snd cb)) -> given bi r' x) /\ (kind_bases o = [] -> forall b, In b (c_object_bases c) -> given bi r' (last_comp b)).
Proof.
  intros o n r cb r' H.
  assert (V : evolve st [KQry; KMut; KSub; KImp; KBui] r r') by (eapply ev_ok; [|exact H]; unfold operation_class, bases_or_default; ev_go).
  split; [eapply evolve_incl; [|exact V]; intros k; cbn; tauto|]. split; [eapply frame_fwd; [|exact V]; cbn; intuition discriminate|].
  assert (L : exists bs r1 es, import_bases (match bs with [] => c_object_bases c | _ => bs end) r1 = (Ok es, r') /\ snd cb = es /\ bs = kind_bases o).
  { unfold operation_class, bases_or_default, kind_bases in *. destruct (op_kind o); mb H k r1 H1; mb H es r2 H2; mr H; eauto 8. }
  destruct L as (bs & r1 & es & HI & -> & ->). split.
  - intros x Hx. destruct (bases_adv st bi Hbi (fun _ => False) _ _ _ _ HI) as (_ & C). destruct (C x Hx) as [[Y|Y]|Y]; [exact Y|contradiction..].
  - intros E b Hb. rewrite E in HI. eapply bases_names; eassumption.
Qed.
Lemma all_fragments : forall n f, the_fragment d n = Some f -> In n (map fr_name l).
Proof. intros n f H. apply the_fragment_in in H. destruct H as (H & <-). apply in_map. eapply Permutation_in; [symmetry; apply perm|exact H]. Qed.
Lemma operation_step : forall o tree r out r', In (DOp o) d -> G tree (map fr_name l) r ->
  generate_operation c st s oc print_operation add doc_of o r = (Ok out, r') -> G (tree ++ out) (map fr_name l) r' /\ rle r r' /\ op_imported r' o.
Proof.
  intros o tree r out r' Ho HG H. unfold generate_operation in H. mb H name r0 H0. apply from_opt_ok in H0. destruct H0 as [_ ->].
  mb H cb r1 H1. apply class_step in H1. destruct H1 as (V1 & F1 & C1 & B1). mb H root r2 H2. apply from_opt_ok in H2. destruct H2 as [ER ->]. cbn zeta in H.
  assert (FK : forall rx ry, evolve st Kop rx ry -> (forall n, In n (r_fwd ry) -> In n (r_fwd rx) \/ Tt tree n) -> G tree (map fr_name l) rx -> G tree (map fr_name l) ry).
  { intros rx ry V FF GX. rewrite <- (app_nil_r tree). eapply G_evolve with (k := Kop); [exact GX|exact V| | | | | | | |exact FF|exact I]; cbn; intuition discriminate. }
  assert (G1 : G tree (map fr_name l) r1) by (eapply FK; [exact V1|rewrite F1; auto|exact HG]).
  assert (TO : forall b, In b (c_object_bases c) -> Tt tree (last_comp b)) by (intros b Hb; left; auto).
  assert (TF : c_create_catchall c = false -> Tt tree "Field") by (intros Hb; left; auto).
  destruct (vd_roots s d VD o (operations_in d o Ho)) as (root' & ER' & _ & VS). rewrite ER in ER'. injection ER' as <-.
  assert (HQ : Q s okE okU (fun g => In g (map fr_name l)) root (op_sels o)).
  { split.
    - intros e He HN. apply HE; [exact HN|]. left. exists o, root. auto.
    - intros g Hg. left. exists o, root. auto.
    - intros g Hg. destruct (valid_spreads s d _ _ Hg _ VS) as (fr & Hfr). eapply all_fragments; exact Hfr. }
  mb H y r3 H3.
  eapply (mfold_ok _ (fun pre acc r' => adv st (Tt tree) r1 r' /\ sco bi (Tt tree) r' (fst acc) /\ cov bi (Tt tree) r' (fst acc) (flat_map runs (concat (snd acc)))
     /\ forall g fd, In (SelField g) pre -> get_field_def s root (fn_name g) = Some fd -> is_nonnull (fd_type fd) = false -> given bi r' "Field")) in H3.
  2:{ split; [apply adv_refl|]. split; [exact I|]. split; [apply cov_nil|intros g fd []]. }
  2:{ intros pre x post [cs bs] ra acc' rb E (A & O1 & O2 & O3) Hx. cbn [fst snd] in O1, O2.
      assert (HX : In x (op_sels o)) by (rewrite E; apply in_or_app; right; now left).
      assert (Ra : rok tree (map fr_name l) ra) by (eapply rok_adv; [exact A|apply G_rok; exact G1]).
      destruct x as [g|g ds|cond ds sub]; cbn [root_item] in Hx; try discriminate. mb Hx fd rc Hc. apply from_opt_ok in Hc. destruct Hc as [HF ->]. mb Hx z rc Hc. mr Hx. destruct z as [cs' b'].
      assert (HN : N s okE okU (fun g => In g (map fr_name l)) g (gty_name (fd_type fd))).
      { destruct (String.eqb_spec (fn_name g) "__typename") as [EN|EN]; [|eapply Q_field; eassumption].
        rewrite forallb_forall in VS. specialize (VS _ HX). cbn [valid_sel] in VS. unfold get_field_def in HF. rewrite EN in HF, VS. rewrite String.eqb_refl in HF, VS. injection HF as <-. cbn.
        split; [intros HX'; contradiction|]. intros _ sub Hs. rewrite Hs in VS. discriminate. }
      destruct (node_adv st bi Hbi c s sc Hsc (Tt tree) okE okU _ TO TF g _ _ _ _ _ _ HN Ra Hc) as (A' & S' & C'). cbn [fst snd].
      split; [adv_go|]. split; [apply sco_app; [up O1|exact S']|]. split.
      - rewrite concat_app, flat_map_app. apply cov_app; [apply cov_left; up O2|]. cbn [concat]. rewrite app_nil_r. now apply cov_right.
      - intros g' fd' Hg' HF' HN'. apply in_app_or in Hg'. destruct Hg' as [Hg'|[[= ->]|[]]].
        + eapply given_rle; [eapply adv_rle; exact A'|eauto].
        + rewrite HF in HF'. injection HF' as <-. eapply (node_field st bi Hbi c s sc Hsc (Tt tree) okE okU _ TO TF); eassumption. }
  destruct y as [cs bs]. cbn [fst snd] in H, H3. destruct H3 as (A3 & O1 & O2 & O3).
  assert (G3 : G tree (map fr_name l) r3).
  { destruct A3 as [V3 FW3]. eapply FK; [eapply evolve_incl; [|exact V3]; intros k; cbn; tauto|exact FW3|exact G1]. }
  mb H u r4 H4. assert (evolve st Kop r3 r4 /\ r_fwd r4 = r_fwd r3) as (V4 & F4).
  { assert (V : evolve st [KSin] r3 r4) by (eapply ev_ok; [|exact H4]; ev_go).
    split; [eapply evolve_incl; [|exact V]; intros k; cbn; tauto|eapply frame_fwd; [|exact V]; cbn; intuition discriminate]. }
  assert (G4 : G tree (map fr_name l) r4) by (eapply FK; [exact V4|rewrite F4; auto|exact G3]).
  mb H doc r5 H5. apply replace_adv in H5. subst r5. assert (R4 : rok tree (map fr_name l) r4) by (apply G_rok; exact G4).
  mb H args r6 H6. apply (arguments_adv tree (map fr_name l)) in H6; [|exact Ho|exact R4]. destruct H6 as (A6 & C6).
  mb H cfg r7 H7. eapply config_adv in H7; [|exact Hbi|eapply rok_adv; eassumption]. destruct H7 as (A7 & C7). mr H.
  assert (A47 : adv st (Tt tree) r4 r') by adv_go.
  assert (L17 : rle r1 r'). { eapply rle_trans; [eapply adv_rle; exact A3|]. eapply rle_trans; [eapply evolve_rle; exact V4|eapply adv_rle; exact A47]. }
  assert (L37 : rle r3 r'). { eapply rle_trans; [eapply evolve_rle; exact V4|eapply adv_rle; exact A47]. }
  split; [|split].
  - destruct A47 as [V47 F47]. eapply G_evolve with (k := Ksel); [exact G4|exact V47| | | | | | | |exact F47|]; try (cbn; intuition discriminate).
    apply sco_snoc; [eapply sco_rle; eassumption|]. apply cov_class.
    + intros n Hn. left. left. eapply given_rle; [exact L17|auto].
    + rewrite !flat_map_app. apply cov_app; [apply cov_nil|]. apply cov_app; [eapply cov_rle; eassumption|]. apply cov_app; [apply cov_any; up C6|].
      apply cov_app; [|apply cov_any; up C7]. destruct (truthy (o_domain oc)); apply cov_nil.
  - eapply rle_trans; [eapply evolve_rle; exact V1|exact L17].
  - split.
    + intros (root' & f & fd & Er & Hf & HF & HN). rewrite ER in Er. injection Er as <-. eapply given_rle; [exact L37|]. eauto.
    + intros E b Hb. eapply given_rle; [exact L17|auto].
  Unshelve. all: try exact st; try exact (Tt tree).
Qed.
Lemma operations_step : forall tree r out r', G tree (map fr_name l) r -> operations_plugin c st s oc print_operation add doc_of d r = (Ok out, r') ->
  G (tree ++ out) (map fr_name l) r' /\ rle r r' /\ forall o, In (DOp o) d -> op_imported r' o.
Proof.
  intros tree r out r' HG H. unfold operations_plugin in H.
  eapply (mconcat_steps _ (fun pre ys r' => G (tree ++ ys) (map fr_name l) r' /\ rle r r' /\ forall o, In o pre -> op_imported r' o)) in H.
  - destruct H as (A & L & I'). split; [exact A|]. split; [exact L|]. intros o Ho. apply I', operations_in, Ho.
  - rewrite app_nil_r. split; [exact HG|]. split; [apply rle_refl|intros f []].
  - intros pre o post ys r1 y r2 E (A & L & I') Hx. destruct (operation_step _ _ _ _ _ (in_operations d o (ltac:(rewrite E; apply in_elt))) A Hx) as (A' & L' & I2).
    rewrite app_assoc. split; [exact A'|]. split; [eapply rle_trans; eassumption|].
    intros g Hg. apply in_app_or in Hg. destruct Hg as [Hg|[<-|[]]]; [eapply op_imported_rle; [exact L'|auto]|exact I2].
Qed.
End Plugins.
