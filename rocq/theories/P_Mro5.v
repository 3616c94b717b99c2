(** The classes of fragments and operations can be created. *)
From Coq Require Import Permutation.
From Verif Require Import Base PyAst Gql Config Stylers Registry Utils Documents Inline Recurse Fragments Operations Objects Spec_Fields Spec_Mro Spec_Mro2
  P_Base P_Gql P_Monad P_Recurse P_Post P_Fields P_Inputs P_Classes P_Topo P_Mro P_Mro2 P_Mro3 P_Mro4.

Lemma part_trans : forall d f g h, part_of d f g -> part_of d g h -> part_of d f h.
Proof. intros d f g h H1 H2. induction H2; [exact H1|eapply part_spread; eassumption]. Qed.
Lemma In_dset : forall {A} k (v : A) d i w, In (i, w) (dset k v d) -> (i = k /\ w = v) \/ In (i, w) d.
Proof.
  intros A k v d i w. induction d as [|[a b] d IH]; cbn; [intros [[= <- <-]|[]]; auto|]. destruct (String.eqb_spec k a) as [->|]; cbn.
  - intros [[= <- <-]|H]; auto.
  - intros [H|H]; [auto|]. destruct (IH H); auto.
Qed.
Lemma impl_table : forall (g : string -> string) is m, NoDup (dkeys m) -> (forall i k, In (i, k) m -> k = g i) ->
  NoDup (dkeys (fold_left (fun m i => dset i (g i) m) is m)) /\
  forall i k, In (i, k) (fold_left (fun m i => dset i (g i) m) is m) -> k = g i /\ (In i is \/ In (i, k) m).
Proof.
  intros g is. induction is as [|x is IH]; intros m N H; cbn [fold_left]; [split; [exact N|]; intros i k J; split; [eauto|now right]|].
  destruct (IH (dset x (g x) m)) as [N' H'].
  - now apply NoDup_dset.
  - intros i k J. apply In_dset in J as [[-> ->]|J]; [reflexivity|eauto].
  - split; [exact N'|]. intros i k J. apply H' in J as [E [J|J]]; (split; [exact E|]); [left; now right|].
    apply In_dset in J as [[-> ->]|J]; [left; now left|now right].
Qed.
Lemma unique_part : forall (frs : list (string * list stmt)) p q y, NoDup (module_names (List.concat (map snd frs))) -> In p frs -> In q frs ->
  In y (module_names (snd p)) -> In y (module_names (snd q)) -> p = q.
Proof.
  induction frs as [|a frs IH]; intros p q y N Hp Hq Yp Yq; [contradiction|]. cbn in N. rewrite module_names_app in N.
  assert (R : forall b, In b frs -> In y (module_names (snd b)) -> In y (module_names (List.concat (map snd frs)))).
  { intros b Hb Yb. clear - Hb Yb. induction frs as [|x frs IH]; [contradiction|]. cbn. rewrite module_names_app. apply in_app_iff. destruct Hb as [->|Hb]; auto. }
  destruct Hp as [->|Hp], Hq as [->|Hq]; [reflexivity| | |].
  - exfalso. exact (NoDup_app_d _ _ _ N Yp (R _ Hq Yq)).
  - exfalso. exact (NoDup_app_d _ _ _ N Yq (R _ Hp Yp)).
  - apply NoDup_app_r in N. eapply IH; eassumption.
Qed.
Lemma part_names : forall (frs : list (string * list stmt)) g l y, In (g, l) frs -> In y (module_names l) -> In y (module_names (List.concat (map snd frs))).
Proof. intros frs g l y Hb Yb. induction frs as [|x frs IH]; [contradiction|]. cbn. rewrite module_names_app. apply in_app_iff. destruct Hb as [->|Hb]; auto. Qed.
Lemma M_scope : forall sc B M, bases_order sc B = Some M -> NoDup M /\ forall x, In x M -> exists k o, In (k, o) sc /\ In x o.
Proof.
  intros sc B M H. unfold bases_order in H. destruct (orders sc B) as [ms|] eqn:O; [|discriminate]. apply merge_sound in H as (N & _ & I). split; [exact N|].
  assert (S : forall l, In l ms -> exists k h t, l = h :: t /\ In (k, l) sc).
  { apply orders_in in O. clear - O. induction O as [|e m b ms (n & h & k & -> & D & ->) F IH]; [contradiction|]. intros l [<-|Hl]; [|auto]. exists n, h, k. split; [reflexivity|now apply dget_Some_In]. }
  intros x Hx. apply I in Hx as (l & Hl & Hx). apply in_app_iff in Hl as [Hl|[<-|[]]].
  - destruct (S l Hl) as (k & _ & _ & _ & Hk). eauto.
  - unfold heads in Hx. apply in_map_iff in Hx as (l & <- & Hl). destruct (S l Hl) as (k & h & t & -> & Hk). exists k, (h :: t). split; [exact Hk|now left].
Qed.
Lemma all_new_l : forall sc a b, all_new sc (a ++ b) -> all_new sc a.
Proof. intros sc a b [N H]. rewrite module_names_app in *. split; [now apply NoDup_app_l in N|]. intros n Hn. apply H. apply in_app_iff. now left. Qed.
Lemma in_fragments : forall d x, In x (fragments_of d) <-> In (DFrag x) d.
Proof.
  intros d x. unfold fragments_of. induction d as [|a d IH]; [reflexivity|]. cbn. rewrite in_app_iff, IH. destruct a; cbn; intuition congruence.
Qed.
Lemma in_operations : forall d o, In o (operations_of d) -> In (DOp o) d.
Proof.
  intros d o. unfold operations_of. induction d as [|a d IH]; [auto|]. cbn. rewrite in_app_iff. destruct a; cbn; intuition congruence.
Qed.

Section Plugins.
Variable c : gconfig.
Variable st : list styler.
Variable s : schema.
Variable d : document.
Variable sc0 : scope.
Variable M : list string.
Variable pc : frcfg.
Variable pf : fragment -> string.
Variable addt : string -> res string.
Hypothesis VS : valid_unions s.
Hypothesis HA : c_additional_bases c = [].
Hypothesis HO : U sc0 M (names_of (c_object_bases c)).
Hypothesis HI : U sc0 M (names_of (match c_interface_bases c with Some (b :: bs) => b :: bs | _ => c_object_bases c end)).
Hypothesis HF1 : U sc0 M (names_of (fr_bases pc ++ fr_object_bases pc ++ c_object_bases c)).
Hypothesis HF2 : U sc0 M (names_of (fr_bases pc ++ c_object_bases c)).
Hypothesis HD : document_fits s d.

Definition owns (frs : list (string * list stmt)) (f y : string) : Prop := exists g l, In (g, l) frs /\ part_of d f g /\ In y (class_names l).
Definition good (frs : list (string * list stmt)) (sc : scope) (f k : string) : Prop :=
  exists ch, dget k sc = Some (k :: ch ++ M) /\ NoDup (k :: ch) /\ forall y, In y (k :: ch) -> owns frs f y.
Definition table (G : string -> string -> Prop) (f : string) (impls : dict string) : Prop := NoDup (dkeys impls) /\ forall i k, In (i, k) impls -> G f k.
Record tables (G : string -> string -> Prop) (r : reg) : Prop := {
  tI : forall f impls, dget f (r_iffrag r) = Some impls -> table G f impls;
  tE : forall f, dget f (r_iffrag r) <> None -> exists x, In (DFrag x) d /\ fr_name x = f /\ is_iface s (fr_on x) = true;
  tX : forall f x, dget f (r_fragtypes r) = Some x -> on_types d (String.eqb x) [f];
  tO : forall f k, dget f (r_frags r) = Some k -> dget f (r_iffrag r) = None -> on_types d (fun n => negb (is_union s n)) [f] -> G f k;
  tO' : forall f k, dget f (r_frags r) = Some k -> on_types d (is_object s) [f] -> G f k;
  tU : forall f impls, dget f (r_ufrag r) = Some impls -> table G f impls }.
Record state (frs : list (string * list stmt)) (rest : list stmt) (sc : scope) (r : reg) : Prop := {
  sD : declare_all (List.concat (map snd frs) ++ rest) sc0 = Some sc;
  sK : forall y, ~ In y (module_names (List.concat (map snd frs) ++ rest)) -> dget y sc = dget y sc0;
  sT : tables (good frs sc) r }.
Lemma fragment_one : forall x y, In (DFrag x) d -> In (DFrag y) d -> fr_name x = fr_name y -> x = y.
Proof.
  intros x y Hx Hy E. destruct HD as [N _]. apply in_fragments in Hx, Hy. revert N Hx Hy. generalize (fragments_of d). clear - E. induction l as [|a l IH]; intros N Hx Hy; [contradiction|].
  cbn in N. inversion N; subst. destruct Hx as [->|Hx], Hy as [->|Hy]; auto.
  - exfalso. apply H1. rewrite E. now apply in_map.
  - exfalso. apply H1. rewrite <- E. now apply in_map.
Qed.
Lemma on_one : forall x p, In (DFrag x) d -> on_types d p [fr_name x] <-> p (fr_on x) = true.
Proof. intros x p Hx. split; [intros H; apply H; [exact Hx|now left]|]. intros H y Hy [E|[]]. now rewrite <- (fragment_one _ _ Hx Hy E). Qed.

(** one step of either plugin *)
Lemma step_run : forall frs rest sc r l, state frs rest sc r -> all_new sc0 ((List.concat (map snd frs) ++ rest) ++ l) -> emits d sc0 M (good frs sc) l ->
  exists sc', declare_all l sc = Some sc' /\ (forall y, ~ In y (module_names l) -> dget y sc' = dget y sc)
    /\ forall k S, fragment_class_in d sc0 M (good frs sc) S l k ->
         exists ch, dget k sc' = Some (k :: ch ++ M) /\ NoDup (k :: ch) /\ forall y, In y (k :: ch) -> In y (class_names l) \/ exists f, In f S /\ owns frs f y.
Proof.
  intros frs rest sc r l [D K T] [N New] E. rewrite module_names_app in N, New. set (T0 := module_names (List.concat (map snd frs) ++ rest)) in *.
  destruct (M_scope _ _ _ HO) as [NM IM].
  assert (NT : forall y, In y T0 \/ In y (module_names l) -> ~ In y (dkeys sc0) /\ ~ In y M).
  { intros y Hy. apply in_app_iff in Hy. apply New in Hy as [Hy Hz]. split; [exact Hy|]. intros J. apply IM in J as (k & o & Ho & J). exact (Hz _ _ Ho J). }
  assert (OT : forall f y, owns frs f y -> In y T0).
  { intros f y (g & l' & Hl & _ & Hy). unfold T0. rewrite module_names_app. apply in_app_iff. left. eapply part_names; [exact Hl|now apply class_module]. }
  destruct (emit_run d sc0 M (good frs sc) (owns frs) T0 sc) with (l := l) as (sc' & D' & K' & _ & Go).
  - intros y Hy. apply K. intros J. apply (proj1 (NT y (or_introl J))). exact Hy.
  - intros f k (ch & A & B & C). exists ch. split; [exact A|]. split; [exact B|]. intros y Hy. specialize (C y Hy). split; [eauto|exact C].
  - intros f g y A (g1 & l1 & H1 & P1 & Y1) (g2 & l2 & H2 & P2 & Y2). assert (E12 : (g1, l1) = (g2, l2)).
    { eapply (unique_part frs _ _ y); [|exact H1|exact H2|now apply class_module|now apply class_module]. apply NoDup_app_l in N. unfold T0 in N. rewrite module_names_app in N. now apply NoDup_app_l in N. }
    injection E12 as <- <-. exact (A _ P1 P2).
  - intros y Hy. now apply NT; left.
  - exact NM.
  - exact E.
  - exact N.
  - intros n Hn. now apply NT; right.
  - exists sc'. split; [exact D'|]. split; [exact K'|]. intros k S (pre & bases & body & dec & post & El & Hb).
    destruct (Go _ _ _ _ _ _ _ El Hb) as (ch & A & B & C). exists ch. split; [exact A|]. split; [exact B|]. intros y Hy. destruct (C y Hy) as [H|[_ H]]; auto.
Qed.
Lemma good_keep : forall frs frs' sc sc' f k, good frs sc f k -> incl frs frs' -> dget k sc' = dget k sc -> good frs' sc' f k.
Proof.
  intros frs frs' sc sc' f k (ch & A & B & C) I E. exists ch. rewrite E. split; [exact A|]. split; [exact B|]. intros y Hy. destruct (C y Hy) as (g & l & H & P). exists g, l. split; [now apply I|exact P].
Qed.
Lemma good_name : forall frs sc f k, good frs sc f k -> In k (module_names (List.concat (map snd frs))).
Proof. intros frs sc f k (ch & _ & _ & C). destruct (C k (or_introl eq_refl)) as (g & l & H & _ & Hk). eapply part_names; [exact H|now apply class_module]. Qed.

Lemma fragment_step : forall frs sc x r l r', state frs [] sc r -> In (DFrag x) d -> generate_fragment c st s pc pf addt x r = (Ok l, r') ->
  all_new sc0 (List.concat (map snd frs) ++ l) -> exists sc', state (frs ++ [(fr_name x, l)]) [] sc' r'.
Proof.
  intros frs sc x r l r' S Hx H New. pose proof S as [D K [TI TE TX TO TO' TU]]. unfold generate_fragment in H.
  apply bind_ok in H as (t & ra & Ha & H). apply from_opt_ok in Ha as [Ht ->]. apply bind_ok in H as (name & rb & Hb & H). apply generate_in_spec in Hb as (Hnone & -> & ->).
  apply bind_ok in H as (u1 & rc & Hc & H). apply bind_ok in H as (u2 & rd & Hd & H).
  set (cls := style_fragment_class st (fr_name x)) in *.
  assert (R : r_frags rd = dset (fr_name x) cls (r_frags r) /\ r_iffrag rd = r_iffrag r /\ r_ufrag rd = r_ufrag r /\ r_fragtypes rd = dset (fr_name x) (fr_on x) (r_fragtypes r)).
  { unfold register_fragment_document in Hc. minv. unfold register_fragment_type in Hd. minv. cbn. auto. }
  clear Hc Hd. destruct R as (R1 & R2 & R3 & R4). destruct HD as (_ & HFr & _). destruct (HFr x Hx) as [HF3 HF4].
  set (Ban := fun g => g = fr_name x). set (G := good frs sc).
  assert (HB : below s d Ban (fr_on x) (Some (fr_sels x))).
  { intros l0 [= <-] m k O. destruct (HF3 m k O) as [A B]. split; [exact A|]. intros f Hf ->. exact (B Hf). }
  assert (HI' : forall f impls, ~ Ban f -> dget f (r_iffrag rd) = Some impls -> table G f impls) by (intros f impls _; rewrite R2; apply TI).
  assert (HE' : forall f, dget f (r_iffrag rd) <> None -> exists x, In (DFrag x) d /\ fr_name x = f /\ is_iface s (fr_on x) = true) by (intros f; rewrite R2; apply TE).
  assert (HX' : forall f y, dget f (r_fragtypes rd) = Some y -> on_types d (String.eqb y) [f]).
  { intros f y. rewrite R4, dget_dset. destruct (String.eqb_spec f (fr_name x)) as [->|]; [|apply TX]. intros [= <-]. apply on_one; [exact Hx|apply String.eqb_refl]. }
  assert (HO1 : forall f k, ~ Ban f -> dget f (r_frags rd) = Some k -> dget f (r_iffrag rd) = None -> on_types d (fun n => negb (is_union s n)) [f] -> G f k).
  { intros f k NB. rewrite R1, R2, dget_dset. destruct (String.eqb_spec f (fr_name x)) as [->|]; [now elim NB|]. apply TO. }
  assert (HO2 : forall f k, ~ Ban f -> dget f (r_frags rd) = Some k -> on_types d (is_object s) [f] -> G f k).
  { intros f k NB. rewrite R1, dget_dset. destruct (String.eqb_spec f (fr_name x)) as [->|]; [now elim NB|]. apply TO'. }
  assert (HU' : forall f impls, ~ Ban f -> dget f (r_ufrag rd) = Some impls -> table G f impls) by (intros f impls _; rewrite R3; apply TU).
  assert (FIN : forall r', emits d sc0 M G l ->
    r_frags r' = r_frags rd -> r_fragtypes r' = r_fragtypes rd ->
    (forall frs' sc', (forall k, fragment_class_in d sc0 M G (spreads (fr_sels x)) l k -> good frs' sc' (fr_name x) k) ->
       (forall impls, dget (fr_name x) (r_iffrag r') = Some impls -> is_iface s (fr_on x) = true -> table (good frs' sc') (fr_name x) impls)
       /\ (forall impls, dget (fr_name x) (r_ufrag r') = Some impls -> is_union s (fr_on x) = true -> table (good frs' sc') (fr_name x) impls)
       /\ (is_object s (fr_on x) = true -> good frs' sc' (fr_name x) cls)) ->
    (forall f, f <> fr_name x -> dget f (r_iffrag r') = dget f (r_iffrag rd) /\ dget f (r_ufrag r') = dget f (r_ufrag rd)) ->
    (is_iface s (fr_on x) = false -> r_iffrag r' = r_iffrag rd) -> (is_iface s (fr_on x) = true -> dget (fr_name x) (r_iffrag r') <> None) ->
    (is_union s (fr_on x) = false -> r_ufrag r' = r_ufrag rd) ->
    is_iface s (fr_on x) = true \/ is_union s (fr_on x) = true \/ is_object s (fr_on x) = true ->
    exists sc', state (frs ++ [(fr_name x, l)]) [] sc' r').
  { clear r' H. intros r' EM F1 F2 FK FO FI1 FI2 FU1 KIND.
    destruct (step_run frs [] sc r l S) as (sc' & D' & K' & Go); [now rewrite app_nil_r|exact EM|]. exists sc'.
    assert (EC : List.concat (map snd (frs ++ [(fr_name x, l)])) = List.concat (map snd frs) ++ l) by (rewrite map_app, concat_app; cbn; now rewrite app_nil_r).
    assert (GK : forall f k, G f k -> good (frs ++ [(fr_name x, l)]) sc' f k).
    { intros f k Hk. eapply good_keep; [exact Hk|intros z Hz; apply in_app_iff; now left|]. apply K'. intros J. destruct New as [N _]. rewrite module_names_app in N. exact (NoDup_app_d _ _ _ N (good_name _ _ _ _ Hk) J). }
    assert (TK : forall f impls, table G f impls -> table (good (frs ++ [(fr_name x, l)]) sc') f impls) by (intros f impls [A B]; split; [exact A|]; intros i k Hk; apply GK; eauto).
    destruct (FK (frs ++ [(fr_name x, l)]) sc') as (FK1 & FK2 & FK3).
    { intros k Hk. destruct (Go k _ Hk) as (ch & A & B & C). exists ch. split; [exact A|]. split; [exact B|]. intros y Hy. destruct (C y Hy) as [J|(g & Hg & g' & l' & Hl & P & J)].
      - exists (fr_name x), l. split; [apply in_app_iff; right; now left|]. split; [apply part_self|exact J].
      - exists g', l'. split; [apply in_app_iff; now left|]. split; [|exact J]. eapply part_trans; [|exact P]. eapply part_spread; [apply part_self|exact Hx|exact Hg]. }
    split.
    - rewrite app_nil_r, EC, declare_all_app. rewrite app_nil_r in D. now rewrite D.
    - intros y. rewrite app_nil_r, EC, module_names_app, in_app_iff. intros J. rewrite K' by tauto. apply K. rewrite app_nil_r. tauto.
    - assert (XI : forall f, dget f (r_iffrag r') = None -> dget f (r_iffrag rd) = None \/ f = fr_name x).
      { intros f Hf. destruct (String.eqb_spec f (fr_name x)) as [->|Ne]; [now right|left]. destruct (FO f Ne) as [<- _]. exact Hf. }
      split.
      + intros f impls Hf. destruct (String.eqb_spec f (fr_name x)) as [->|Ne].
        * destruct (is_iface s (fr_on x)) eqn:Ei; [now apply FK1|]. rewrite FI1, R2 in Hf by reflexivity. apply TK. now apply TI.
        * apply TK. apply HI'; [exact Ne|]. destruct (FO f Ne) as [<- _]. exact Hf.
      + intros f Hf. destruct (String.eqb_spec f (fr_name x)) as [->|Ne].
        * destruct (is_iface s (fr_on x)) eqn:Ei; [exists x; auto|]. rewrite FI1 in Hf by reflexivity. now apply HE'.
        * apply HE'. destruct (FO f Ne) as [<- _]. exact Hf.
      + intros f y. rewrite F2. apply HX'.
      + intros f k. rewrite F1. intros Hf Hn Ho. destruct (String.eqb_spec f (fr_name x)) as [->|Ne].
        * destruct KIND as [Ei|[Eu|Eo]]; [now elim (FI2 Ei)| |].
          -- apply on_one in Ho; [|exact Hx]. rewrite Eu in Ho. discriminate.
          -- rewrite R1, dget_dset, String.eqb_refl in Hf. injection Hf as <-. auto.
        * apply GK. apply HO1; auto. destruct (FO f Ne) as [<- _]. exact Hn.
      + intros f k. rewrite F1. intros Hf Ho. destruct (String.eqb_spec f (fr_name x)) as [->|Ne].
        * apply on_one in Ho; [|exact Hx]. rewrite R1, dget_dset, String.eqb_refl in Hf. injection Hf as <-. auto.
        * apply GK. apply HO2; auto.
      + intros f impls Hf. destruct (String.eqb_spec f (fr_name x)) as [->|Ne].
        * destruct (is_union s (fr_on x)) eqn:Eu; [now apply FK2|]. rewrite FU1, R3 in Hf by reflexivity. apply TK. now apply TU.
        * apply TK. apply HU'; [exact Ne|]. destruct (FO f Ne) as [_ <-]. exact Hf. }
  destruct VS as [HK HV].
  destruct t as [dd|dd vs|dd is0 fs0 dirs|dd is0 fs0|dd ms|dd fs0 dirs]; try (cbn in H; discriminate).
  - assert (Eo : is_object s (fr_on x) = true) by (unfold is_object; now rewrite Ht). assert (Ei : is_iface s (fr_on x) = false) by (unfold is_iface; now rewrite Ht). assert (Eu : is_union s (fr_on x) = false) by (unfold is_union; now rewrite Ht).
    eapply (pg_object_fragment c st s d sc0 M G Ban rd HK HA HO HI HI' HE' HX' HO1 HO2 pc pf addt HF1 HF2) in H; [|exact HB|exact Ht|exact Eo|apply gsame_refl].
    destruct H as [(E1 & E2 & E3 & E4) [EM FC]]. apply FIN; auto; rewrite ?E2, ?E4, ?E3, ?E1; auto.
    + intros frs' sc' HG. split; [|split]; [congruence..|auto].
    + congruence.
  - assert (Eo : is_object s (fr_on x) = false) by (unfold is_object; now rewrite Ht). assert (Ei : is_iface s (fr_on x) = true) by (unfold is_iface; now rewrite Ht). assert (Eu : is_union s (fr_on x) = false) by (unfold is_union; now rewrite Ht).
    eapply (interface_fragment_ok c st s d sc0 M G Ban rd HK HA HO HI HI' HE' HX' HO1 HO2) in H; [|exact HB|exact Ht|apply gsame_refl].
    destruct H as (EM & FC & E1 & E2 & E3 & E4). apply FIN; auto; rewrite ?E3, ?E4.
    + intros frs' sc' HG. split; [|split]; [|congruence..]. intros impls Hi _. rewrite dget_dset, String.eqb_refl in Hi. injection Hi as <-.
      destruct (impl_table (fun i => cls +s+ i) (implementations s (fr_on x)) []) as [A B]; [constructor|contradiction|]. split; [exact A|]. intros i k Hk. apply B in Hk as [-> [Hi|[]]]. auto.
    + intros f Ne. rewrite dget_dset. destruct (String.eqb_spec f (fr_name x)); [contradiction|auto].
    + congruence.
    + intros _. rewrite dget_dset, String.eqb_refl. discriminate.
  - assert (Eo : is_object s (fr_on x) = false) by (unfold is_object; now rewrite Ht). assert (Ei : is_iface s (fr_on x) = false) by (unfold is_iface; now rewrite Ht). assert (Eu : is_union s (fr_on x) = true) by (unfold is_union; now rewrite Ht).
    destruct (HF4 Eu) as [HF5 HF6].
    eapply (union_fragment_ok c st s d sc0 M G Ban rd HK HA HO HI HI' HE' HX' HO1 HO2 HU' pc pf addt HF1 HF2) in H; [|exact HB|intros i Hi; eapply HV; eassumption|exact HF5|exact HF6|apply gsame_refl].
    destruct H as (EM & FC & E1 & E2 & E3 & E4). apply FIN; auto; rewrite ?E3, ?E4.
    + intros frs' sc' HG. split; [congruence|split; [|congruence]]. intros impls Hi _. rewrite dget_dset, String.eqb_refl in Hi. injection Hi as <-.
      destruct (impl_table (fun i => cls +s+ i) ms []) as [A B]; [constructor|contradiction|]. split; [exact A|]. intros i k Hk. apply B in Hk as [-> [Hi|[]]]. auto.
    + intros f Ne. rewrite dget_dset. destruct (String.eqb_spec f (fr_name x)); [contradiction|auto].
    + congruence.
    + congruence.
Qed.
Theorem fragments_run : forall r l r', r_frags r = [] -> r_iffrag r = [] -> r_ufrag r = [] -> r_fragtypes r = [] -> fragments_plugin c st s pc pf addt d r = (Ok l, r') -> all_new sc0 l ->
  exists frs sc, l = List.concat (map snd frs) /\ state frs [] sc r'.
Proof.
  intros r l r' R1 R2 R3 R4 H New. unfold fragments_plugin in H. apply bind_ok in H as (fs & ra & Hl & H). unfold lift in Hl. injection Hl as Hl ->.
  assert (Hin : incl fs (fragments_of d)). { destruct (ordering_C01 d (proj1 HD)) as (l0 & E & P). rewrite E in Hl. injection Hl as <-. intros y Hy. now apply (Permutation_in _ P). }
  revert New. apply (mconcat_fold _ (fun acc rr => all_new sc0 acc -> exists frs sc, acc = List.concat (map snd frs) /\ state frs [] sc rr) _ _ _ _ H).
  - intros _. exists [], sc0. split; [reflexivity|]. split; [reflexivity|auto|]. split; rewrite ?R1, ?R2, ?R3, ?R4; try discriminate. cbn. congruence.
  - intros x acc rb y rc Hx IH Hy New. destruct (IH (all_new_l _ _ _ New)) as (frs & sc & -> & S). apply Hin, in_fragments in Hx.
    destruct (fragment_step _ _ _ _ _ _ S Hx Hy New) as (sc' & S'). exists (frs ++ [(fr_name x, y)]), sc'. split; [|exact S']. rewrite map_app, concat_app. cbn. now rewrite app_nil_r.
Qed.
Variable oc : ocfg.
Variable po : operation -> string.
Variable doc_of : operation -> option string.
Hypothesis HQ : forall b, In b [o_query_bases oc; o_mutation_bases oc; o_subscription_bases oc; o_arguments_bases oc] -> bases_order sc0 (names_of (with_default c b)) <> None.
Lemma operation_step : forall frs rest sc o r l r', state frs rest sc r -> In (DOp o) d -> generate_operation c st s oc po addt doc_of o r = (Ok l, r') ->
  all_new sc0 ((List.concat (map snd frs) ++ rest) ++ l) -> exists sc', state frs (rest ++ l) sc' r'.
Proof.
  intros frs rest sc o r l r' S Ho H New. pose proof S as [D K [TI TE TX TO TO' TU]]. destruct HD as (_ & _ & HDo).
  assert (HB : forall root, root_type s (op_kind o) = Some root -> below s d (fun _ => False) root (Some (op_sels o))).
  { intros root Hr l0 [= <-] m k O. split; [eapply HDo; eassumption|auto]. }
  apply (pg_operation c st s d sc0 M (good frs sc) (fun _ => False) r (proj1 VS) HA HO HI (fun f i _ => TI f i) TE TX (fun f k _ => TO f k) (fun f k _ => TO' f k) addt oc po doc_of HQ o HB) in H; [|apply gsame_refl].
  destruct H as [(E1 & E2 & E3 & E4) EM]. destruct (step_run _ _ _ _ _ S New EM) as (sc' & D' & K' & _). exists sc'. rewrite app_assoc in *.
  assert (GK : forall f k, good frs sc f k -> good frs sc' f k).
  { intros f k Hk. eapply good_keep; [exact Hk|apply incl_refl|]. apply K'. intros J. destruct New as [N _]. rewrite !module_names_app in N. apply NoDup_app_d with (x := k) in N; [contradiction|apply in_app_iff; left; eapply good_name; exact Hk]. }
  split.
  - rewrite app_assoc, declare_all_app, D. exact D'.
  - intros y. rewrite app_assoc, module_names_app, in_app_iff. intros J. rewrite K' by tauto. apply K. tauto.
  - split; rewrite ?E1, ?E2, ?E3, ?E4; auto.
    + intros f impls Hf. destruct (TI f impls Hf) as [A B]. split; [exact A|eauto].
    + intros f impls Hf. destruct (TU f impls Hf) as [A B]. split; [exact A|eauto].
Qed.
Theorem operations_run : forall frs sc r l r', state frs [] sc r -> operations_plugin c st s oc po addt doc_of d r = (Ok l, r') -> all_new sc0 (List.concat (map snd frs) ++ l) ->
  exists sc', declare_all (List.concat (map snd frs) ++ l) sc0 = Some sc'.
Proof.
  intros frs sc r l r' S H New. unfold operations_plugin in H. cut (exists sc', state frs l sc' r'); [intros (sc' & [D _ _]); eauto|]. revert New.
  apply (mconcat_fold _ (fun acc rr => all_new sc0 (List.concat (map snd frs) ++ acc) -> exists sc', state frs acc sc' rr) _ _ _ _ H); [eauto|].
  intros o acc rb y rc Hx IH Hy New. rewrite app_assoc in New. destruct (IH (all_new_l _ _ _ New)) as (sc1 & S1). apply in_operations in Hx. eapply operation_step; eassumption.
Qed.
End Plugins.

Theorem selections_C44 : forall c st s d sc pc pf addt oc po doc_of r lf r1 lo r2, valid_unions s -> document_fits s d -> c_additional_bases c = [] ->
  one_order sc [c_object_bases c; match c_interface_bases c with Some (b :: bs) => b :: bs | _ => c_object_bases c end;
                fr_bases pc ++ fr_object_bases pc ++ c_object_bases c; fr_bases pc ++ c_object_bases c] ->
  (forall b, In b [o_query_bases oc; o_mutation_bases oc; o_subscription_bases oc; o_arguments_bases oc] ->
     bases_order sc (base_names (match b with [] => c_object_bases c | _ => b end)) <> None) ->
  r_frags r = [] -> r_iffrag r = [] -> r_ufrag r = [] -> r_fragtypes r = [] ->
  fragments_plugin c st s pc pf addt d r = (Ok lf, r1) -> operations_plugin c st s oc po addt doc_of d r1 = (Ok lo, r2) -> all_new sc (lf ++ lo) -> constructible sc (lf ++ lo).
Proof.
  intros c st s d sc pc pf addt oc po doc_of r lf r1 lo r2 VS HD HA (M & HM) HQ R1 R2 R3 R4 H1 H2 New.
  assert (HO : U sc M (names_of (c_object_bases c))) by (apply HM; cbn; auto).
  assert (HI : U sc M (names_of (match c_interface_bases c with Some (b :: bs) => b :: bs | _ => c_object_bases c end))) by (apply HM; cbn; auto).
  assert (HF1 : U sc M (names_of (fr_bases pc ++ fr_object_bases pc ++ c_object_bases c))) by (apply HM; cbn; auto).
  assert (HF2 : U sc M (names_of (fr_bases pc ++ c_object_bases c))) by (apply HM; cbn; auto).
  destruct (fragments_run c st s d sc M pc pf addt VS HA HO HI HF1 HF2 HD _ _ _ R1 R2 R3 R4 H1 (all_new_l _ _ _ New)) as (frs & sc1 & -> & S).
  edestruct (operations_run c st s d sc M) as (sc2 & D); try eassumption. unfold constructible. rewrite D. discriminate.
Qed.
