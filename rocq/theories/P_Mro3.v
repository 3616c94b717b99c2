(** Classes whose bases are classes of fragments. *)
From Coq Require Import Lia.
From Verif Require Import Base PyAst Gql Config Stylers Registry Utils Recurse Objects Spec_Fields Spec_Mro Spec_Mro2 P_Base P_Monad P_Fields P_Mro.

(** ** Merging orders that end alike *)
Definition own (p : string * list string) : list string := fst p :: snd p.
Lemma nodup_split : forall (a b a' b' : list string) x, NoDup (a ++ x :: b) -> a ++ x :: b = a' ++ x :: b' -> a = a' /\ b = b'.
Proof.
  induction a as [|y a IH]; intros b a' b' x N E; destruct a' as [|z a']; cbn in *.
  - injection E as ->. auto.
  - injection E as <- ->. inversion N; subst. exfalso. apply H1. apply in_elt.
  - injection E as -> <-. inversion N; subst. exfalso. apply H1. apply in_elt.
  - injection E as <- E. inversion N; subst. destruct (IH _ _ _ _ H2 E) as [-> ->]. auto.
Qed.
(** [x] is before everything in [m] *)
Lemma sub_before : forall c m1 m k a b, sub (c ++ m1 :: m) k -> NoDup k -> k = a ++ m1 :: b -> sub c a /\ sub m b.
Proof.
  intros c m1 m k a b S N E. apply sub_split in S as (k1 & k2 & -> & S1 & S2).
  assert (G : forall k2, sub (m1 :: m) k2 -> exists p q, k2 = p ++ m1 :: q /\ sub m q).
  { clear. intros k2. induction k2 as [|x k2 IH]; intros S; [inversion S|]. inversion S; subst; [exists [], k2; auto|].
    destruct (IH H1) as (p & q & -> & Sq). exists (x :: p), q. auto. }
  apply G in S2 as (p & q & -> & Sq). rewrite app_assoc in E, N. destruct (nodup_split _ _ _ _ _ N E) as [<- <-]. split; [|exact Sq].
  clear - S1. rewrite <- (app_nil_r c). apply sub_app; [exact S1|constructor].
Qed.
Lemma sub_eq : forall m b, sub m b -> NoDup b -> incl b m -> b = m.
Proof.
  intros m b S. induction S as [k|x l k S IH|x l k S IH]; intros N I.
  - destruct k as [|y k]; [reflexivity|]. exfalso. apply (I y). now left.
  - inversion N; subst. f_equal. apply IH; [assumption|]. intros y Hy. destruct (I y (or_intror Hy)) as [->|H]; [contradiction|exact H].
  - exfalso. inversion N; subst. apply H1. eapply sub_in; [exact S|]. apply I. now left.
Qed.
Lemma ends_with : forall (cs : list (list string)) M k, NoDup k -> cs <> [] -> Forall (fun c => sub (c ++ M) k) cs -> (forall x, In x k -> In x (List.concat cs) \/ In x M) ->
  (forall x, In x (List.concat cs) -> ~ In x M) -> exists ch, k = ch ++ M /\ incl ch (List.concat cs).
Proof.
  intros cs [|m1 M] k N Ne F U D.
  - exists k. rewrite app_nil_r. split; [reflexivity|]. intros x Hx. destruct (U x Hx); [assumption|contradiction].
  - assert (Hm : In m1 k). { destruct cs as [|c cs]; [congruence|]. inversion F; subst. eapply sub_in; [eassumption|]. apply in_elt. }
    apply in_split in Hm as (a & b & ->). exists a.
    assert (SB : Forall (fun c => sub c a /\ sub M b) cs) by (eapply Forall_impl; [|exact F]; intros c S; eapply sub_before; [exact S|exact N|reflexivity]).
    assert (Sb : sub M b) by (destruct cs; [congruence|]; inversion SB; tauto).
    assert (Na : forall x, In x a -> ~ In x (m1 :: b)). { intros x Ia Ib. clear - N Ia Ib. induction a as [|y a IH]; [contradiction|]. inversion N; subst. destruct Ia as [->|Ia]; [|auto]. apply H1. apply in_app_iff. now right. }
    assert (Ca : incl a (List.concat cs)). { intros x Hx. destruct (U x) as [H|H]; [apply in_app_iff; now left|exact H|]. exfalso. apply (Na x Hx). destruct H as [->|H]; [now left|right; eapply sub_in; eassumption]. }
    split; [|exact Ca]. f_equal. f_equal. apply sub_eq; [exact Sb| |].
    + apply NoDup_remove_1 in N. clear - N. induction a; [exact N|]. inversion N; auto.
    + intros x Hx. destruct (U x) as [H|H]; [apply in_app_iff; right; now right| |].
      * exfalso. apply in_concat in H as (c & Hc & Hxc). rewrite Forall_forall in SB. destruct (SB c Hc) as [Sc _]. apply (Na x); [eapply sub_in; eassumption|now right].
      * destruct H as [->|H]; [|exact H]. exfalso. apply NoDup_remove_2 in N. apply N. apply in_app_iff. now right.
Qed.
Lemma NoDup_app_l : forall (a b : list string), NoDup (a ++ b) -> NoDup a.
Proof. induction a as [|x a IH]; intros b N; [constructor|]. inversion N; subst. constructor; [|eauto]. intros I. apply H1. apply in_app_iff. now left. Qed.
Lemma NoDup_app_d : forall (a b : list string) x, NoDup (a ++ b) -> In x a -> ~ In x b.
Proof. induction a as [|y a IH]; intros b x N I; [contradiction|]. inversion N; subst. destruct I as [->|I]; [|eauto]. intros J. apply H1. apply in_app_iff. now right. Qed.
Lemma NoDup_app_r : forall (a b : list string), NoDup (a ++ b) -> NoDup b.
Proof. induction a as [|y a IH]; intros b N; [exact N|]. inversion N; auto. Qed.
Lemma NoDup_app_i : forall (a b : list string), NoDup a -> NoDup b -> (forall x, In x a -> ~ In x b) -> NoDup (a ++ b).
Proof.
  induction a as [|x a IH]; intros b Na Nb D; [exact Nb|]. inversion Na; subst. cbn. constructor.
  - intros I. apply in_app_iff in I as [I|I]; [contradiction|]. apply (D x); [now left|exact I].
  - apply IH; [assumption..|]. intros y Hy. apply D. now right.
Qed.
Lemma merge_chains : forall ps M mb, ps <> [] -> NoDup (List.concat (map own ps) ++ M) -> Forall (fun l => sub l M) mb -> sub (heads mb) M ->
  exists ch, c3_merge (map (fun p => own p ++ M) ps ++ mb ++ [map fst ps ++ heads mb]) = Some (ch ++ M) /\ NoDup ch /\ incl ch (List.concat (map own ps)).
Proof.
  intros ps M mb Ne N F Hh. set (K := List.concat (map own ps) ++ M).
  assert (FK : Forall (fun l => sub l K) (map (fun p => own p ++ M) ps ++ mb ++ [map fst ps ++ heads mb])).
  { apply Forall_app. split; [|apply Forall_app; split].
    - apply Forall_forall. intros l Hl. apply in_map_iff in Hl as (p & <- & Hp). apply sub_app; [|apply sub_refl].
      apply in_split in Hp as (a & b & ->). rewrite map_app, concat_app. apply sub_skips. cbn [map List.concat]. rewrite <- (app_nil_r (own p)) at 1. apply sub_app; [apply sub_refl|constructor].
    - eapply Forall_impl; [|exact F]. intros l S. now apply sub_skips.
    - constructor; [|constructor]. apply sub_app; [|exact Hh]. clear. induction ps as [|p ps IH]; [constructor|]. cbn. constructor. now apply sub_skips. }
  destruct (c3_merge _) as [k|] eqn:E; [|exfalso; eapply merge_total; eassumption].
  apply merge_sound in E as (Nk & Fk & U). destruct (ends_with (map own ps) M k) as (ch & -> & I).
  - exact Nk.
  - destruct ps; [congruence|discriminate].
  - apply Forall_app in Fk as [Fk _]. apply Forall_forall. intros c Hc. apply in_map_iff in Hc as (p & <- & Hp). rewrite Forall_forall in Fk. apply Fk. apply in_map_iff. eauto.
  - intros x Hx. apply U in Hx as (l & Hl & Hx). rewrite Forall_forall in FK. specialize (FK l Hl). apply (sub_in _ _ _ FK) in Hx. now apply in_app_iff in Hx.
  - intros x Hx. now apply (NoDup_app_d _ _ _ N).
  - exists ch. split; [reflexivity|]. split; [now apply NoDup_app_l in Nk|exact I].
Qed.

(** ** Modules *)
Lemma module_names_app : forall a b, module_names (a ++ b) = module_names a ++ module_names b.
Proof. intros. unfold module_names. apply flat_map_app. Qed.
Lemma class_module : forall l n, In n (class_names l) -> In n (module_names l).
Proof. intros l n H. unfold class_names in H. apply in_flat_map in H as (x & Hx & Hn). apply in_flat_map. exists x. split; [exact Hx|]. destruct x; try contradiction. exact Hn. Qed.
Lemma declare_other : forall m sc sc' y, declare m sc = Some sc' -> ~ In y (module_names [m]) -> dget y sc' = dget y sc.
Proof.
  intros m sc sc' y H N. cbn in N. rewrite app_nil_r in N. destruct m; try (injection H as <-; reflexivity).
  - cbn in H. destruct target; try (injection H as <-; reflexivity). cbn in N.
    assert (Hy : exists v, sc' = dset id v sc) by (destruct value; injection H as <-; eauto). destruct Hy as (v & ->). rewrite dget_dset. destruct (String.eqb_spec y id); [subst; tauto|reflexivity].
  - rewrite declare_class in H. destruct (declare_all body sc); [|discriminate]. destruct (bases_order sc bases); [|discriminate]. injection H as <-.
    rewrite dget_dset. destruct (String.eqb_spec y name); [subst; cbn in N; tauto|reflexivity].
Qed.
Lemma orders_same : forall sc sc' bases ms, orders sc bases = Some ms -> (forall y, In y (dkeys sc) -> dget y sc' = dget y sc) -> orders sc' bases = Some ms.
Proof.
  intros sc sc' bases ms H E. apply orders_of. apply orders_in in H. induction H as [|e m b ms (n & h & k & -> & D & ->) F IH]; constructor; [|exact IH].
  exists n, h, k. repeat split. rewrite E; [exact D|]. apply dget_Some_In in D. apply in_map_iff. exists (n, h :: k). auto.
Qed.

Lemma exists_last' : forall {A} (l : list A), l = [] \/ exists l0 x, l = l0 ++ [x].
Proof. intros A l. induction l as [|x l _] using rev_ind; [now left|right; eauto]. Qed.

Section Emit.
Variable d : document.
Variable sc0 : scope.
Variable M : list string.
(** [G f k]: [k] is a class of the fragment [f] *)
Variable G : string -> string -> Prop.
Definition U (B : list expr) : Prop := bases_order sc0 B = Some M.
Definition silent (m : stmt) : Prop := match m with SAnn _ _ _ | SExpr _ | SPass => True | _ => False end.
Definition body_ok (body : list stmt) : Prop := exists pre args post, body = pre ++ args ++ post /\ Forall silent pre /\ Forall simple post
  /\ (args = [] \/ exists n bases b, args = [SClass n bases b []] /\ bases_order sc0 bases <> None /\ Forall no_class b).
(** bases made of the classes of fragments in [S], of a class of [pre] and of configured bases *)
Definition base_ok (S : list string) (pre : list stmt) (bases : list expr) : Prop :=
  exists fs ks B, incl fs S /\ all_apart d fs /\ Forall2 G fs ks
    /\ ((bases = map EName ks ++ B /\ U B)
        \/ exists m B' body', bases = map EName ks ++ EName m :: B /\ (B = [] \/ U B) /\ U B' /\ In (SClass m B' body' []) pre).
Definition stmt_ok (pre : list stmt) (x : stmt) : Prop :=
  match x with
  | SClass n bases body _ => body_ok body /\ (bases_order sc0 bases <> None \/ exists S, base_ok S pre bases)
  | SAssign (EName _) (EName _) => False
  | _ => True
  end.
Definition emits (l : list stmt) : Prop := forall pre x post, l = pre ++ x :: post -> stmt_ok pre x.

Lemma base_ok_more : forall S pre p q bases, base_ok S pre bases -> base_ok S (p ++ pre ++ q) bases.
Proof.
  intros S pre p q bases (fs & ks & B & I & A & F & H). exists fs, ks, B. repeat split; auto. destruct H as [H|(m & B' & body' & E & HB & UB & Hi)]; [now left|right].
  exists m, B', body'. repeat split; auto. apply in_app_iff. right. apply in_app_iff. now left.
Qed.
Lemma stmt_ok_more : forall p pre x, stmt_ok pre x -> stmt_ok (p ++ pre) x.
Proof.
  intros p pre x H. destruct x; try exact H. destruct H as [Hb [H|(S & H)]]; (split; [exact Hb|]); [now left|right].
  exists S. rewrite <- (app_nil_r pre), app_assoc, <- app_assoc. now apply base_ok_more.
Qed.
Lemma emits_nil : emits [].
Proof. intros pre x post H. destruct pre; discriminate. Qed.
Lemma emits_snoc : forall l x, emits (l ++ [x]) -> emits l /\ stmt_ok l x.
Proof.
  intros l x H. split; [|apply (H l x []); reflexivity]. intros pre y post ->. apply (H pre y (post ++ [x])). now rewrite <- app_assoc.
Qed.
Lemma emits_cons_snoc : forall l x, emits l -> stmt_ok l x -> emits (l ++ [x]).
Proof.
  intros l x H Hx pre y post E. destruct (exists_last' post) as [->|(post' & z & ->)].
  - apply app_inj_tail in E as [-> ->]. exact Hx.
  - rewrite app_comm_cons, app_assoc in E. apply app_inj_tail in E as [-> _]. eapply H. reflexivity.
Qed.
Lemma emits_app : forall a b, emits a -> emits b -> emits (a ++ b).
Proof.
  intros a b Ha. induction b as [|x b IH] using rev_ind; intros Hb; [now rewrite app_nil_r|]. apply emits_snoc in Hb as [Hb Hx]. rewrite app_assoc.
  apply emits_cons_snoc; [auto|]. now apply stmt_ok_more.
Qed.
Lemma silent_run : forall l sc, Forall silent l -> declare_all l sc = Some sc.
Proof. induction l as [|x l IH]; intros sc F; [reflexivity|]. inversion F; subst. cbn. destruct x; try contradiction; cbn; auto. Qed.
Lemma body_run : forall body sc, body_ok body -> (forall y, In y (dkeys sc0) -> dget y sc = dget y sc0) -> declare_all body sc <> None.
Proof.
  intros body sc (pre & args & post & -> & F1 & F2 & H) E. rewrite declare_all_app, (silent_run _ _ F1). destruct H as [->|(n & bases & b & -> & HB & Hb)].
  - cbn [app]. now apply declare_simple.
  - rewrite declare_all_app. cbn [declare_all]. rewrite declare_class. pose proof (declare_plains b sc Hb). destruct (declare_all b sc); [|congruence].
    unfold bases_order in *. destruct (orders sc0 bases) as [ms|] eqn:D; [|congruence]. rewrite (orders_same _ _ _ _ D E). destruct (c3_merge _); [|congruence]. now apply declare_simple.
Qed.

Variable Own : string -> string -> Prop.
Variable T0 : list string.
Variable sc : scope.
Hypothesis Keep0 : forall y, In y (dkeys sc0) -> dget y sc = dget y sc0.
Hypothesis Good : forall f k, G f k -> exists ch, dget k sc = Some (k :: ch ++ M) /\ NoDup (k :: ch) /\ forall y, In y (k :: ch) -> In y T0 /\ Own f y.
Hypothesis Apart : forall f g y, apart d f g -> Own f y -> Own g y -> False.
Hypothesis HT : forall y, In y T0 -> ~ In y M.
Hypothesis NM : NoDup M.
Definition goodorder (sc' : scope) (n : string) (S L : list string) : Prop :=
  exists ch, dget n sc' = Some (n :: ch ++ M) /\ NoDup (n :: ch) /\ forall y, In y (n :: ch) -> In y L \/ (In y T0 /\ exists f, In f S /\ Own f y).

(** the chains of the bases *)
Lemma chains : forall fs ks, Forall2 G fs ks -> all_apart d fs -> exists ps, map fst ps = ks /\ orders sc (map EName ks) = Some (map (fun p => own p ++ M) ps)
  /\ NoDup (List.concat (map own ps)) /\ forall y, In y (List.concat (map own ps)) -> In y T0 /\ exists f, In f fs /\ Own f y.
Proof.
  intros fs ks F. induction F as [|f k fs ks Hg F IH]; intros A.
  - exists []. repeat split; try constructor; contradiction.
  - inversion A; subst. destruct (IH H2) as (ps & E & O & N & Y). destruct (Good _ _ Hg) as (ch & D & Nk & Yk). exists ((k, ch) :: ps).
    split; [cbn; now rewrite E|]. split; [cbn [map orders]; rewrite D, O; reflexivity|]. split.
    + cbn [map List.concat]. apply NoDup_app_i; [exact Nk|exact N|]. intros y Hy Hz. apply Yk in Hy as [_ Hy]. apply Y in Hz as (_ & g & Hg' & Hz).
      rewrite Forall_forall in H1. exact (Apart _ _ _ (H1 _ Hg') Hy Hz).
    + intros y Hy. cbn in Hy. change (k :: ch ++ List.concat (map own ps)) with ((k :: ch) ++ List.concat (map own ps)) in Hy.
      destruct Hy as [<-|Hy]; [|apply in_app_iff in Hy as [Hy|Hy]].
      * destruct (Yk k (or_introl eq_refl)). split; [assumption|]. exists f. split; [now left|assumption].
      * destruct (Yk y (or_intror Hy)). split; [assumption|]. exists f. split; [now left|assumption].
      * destruct (Y y Hy) as (? & g & ? & ?). split; [assumption|]. exists g. split; [now right|assumption].
Qed.
Lemma U_orders : forall B, U B -> exists mb, orders sc0 B = Some mb /\ c3_merge (mb ++ [heads mb]) = Some M /\ Forall (fun l => sub l M) mb /\ sub (heads mb) M.
Proof.
  intros B H. unfold U, bases_order in H. destruct (orders sc0 B) as [mb|]; [|discriminate]. exists mb. split; [reflexivity|]. split; [exact H|].
  apply merge_sound in H as (_ & F & _). apply Forall_app in F as [F1 F2]. inversion F2; subst. auto.
Qed.
Lemma heads_app : forall a b, heads (a ++ b) = heads a ++ heads b.
Proof. intros. apply map_app. Qed.
Lemma heads_own : forall ps, heads (map (fun p => own p ++ M) ps) = map fst ps.
Proof. induction ps as [|p ps IH]; [reflexivity|]. cbn. f_equal. exact IH. Qed.
Lemma orders_names : forall a b bases ms, orders a bases = Some ms -> (forall n, In (EName n) bases -> dget n b = dget n a) -> orders b bases = Some ms.
Proof.
  intros a b bases ms H E. apply orders_of. apply orders_in in H. induction H as [|e m bs ms (n & h & k & -> & D & ->) F IH]; constructor.
  - exists n, h, k. repeat split. rewrite E; [exact D|now left].
  - apply IH. intros n' Hn. apply E. now right.
Qed.
(** the class is made after the statements [l] *)
Lemma class_run : forall l sc1 S bases, (forall y, ~ In y (module_names l) -> dget y sc1 = dget y sc) ->
  (forall n, In n (module_names l) -> ~ In n (dkeys sc0) /\ ~ In n M /\ ~ In n T0) ->
  (forall m B body, In (SClass m B body []) l -> U B -> dget m sc1 = Some (m :: M)) -> base_ok S l bases ->
  exists ch, bases_order sc1 bases = Some (ch ++ M) /\ NoDup ch /\ forall y, In y ch -> In y (class_names l) \/ (In y T0 /\ exists f, In f S /\ Own f y).
Proof.
  intros l sc1 S bases K1 New Mo (fs & ks & B & I & A & F & H).
  destruct (chains fs ks F A) as (ps & Ek & Ok & Nk & Yk).
  assert (KT : forall y, In y T0 -> dget y sc1 = dget y sc) by (intros y Hy; apply K1; intros J; apply New in J; tauto).
  assert (K0 : forall y, In y (dkeys sc0) -> dget y sc1 = dget y sc0) by (intros y Hy; rewrite K1; [auto|]; intros J; apply New in J; tauto).
  assert (Ok1 : orders sc1 (map EName ks) = Some (map (fun p => own p ++ M) ps)).
  { eapply orders_names; [exact Ok|]. intros n Hn. apply KT. apply in_map_iff in Hn as (n' & [= ->] & Hn). rewrite <- Ek in Hn. apply in_map_iff in Hn as (p & <- & Hp).
    apply Yk. apply in_concat. exists (own p). split; [now apply in_map|now left]. }
  assert (OB : forall B, U B -> exists mb, orders sc1 B = Some mb /\ c3_merge (mb ++ [heads mb]) = Some M /\ Forall (fun l => sub l M) mb /\ sub (heads mb) M).
  { intros B0 HB. destruct (U_orders _ HB) as (mb & O & R). exists mb. split; [|exact R]. eapply orders_same; [exact O|exact K0]. }
  assert (YS : forall y, In y (List.concat (map own ps)) -> In y (class_names l) \/ (In y T0 /\ exists f, In f S /\ Own f y)).
  { intros y Hy. right. destruct (Yk y Hy) as (? & f & Hf & ?). split; [assumption|]. exists f. split; [now apply I|assumption]. }
  destruct H as [[-> HB]|(m & B' & body' & -> & HB & HB' & Hm)].
  - destruct (OB B HB) as (mb & O & E & FM & HM). unfold bases_order. rewrite orders_app, Ok1, O. destruct ps as [|p ps].
    + cbn [map app]. exists []. split; [exact E|]. split; [constructor|]. contradiction.
    + rewrite heads_app, heads_own, <- app_assoc.
      destruct (merge_chains (p :: ps) M mb) as (ch & E2 & Nc & Ic); [discriminate| |assumption|assumption|].
      * apply NoDup_app_i; [assumption|exact NM|]. intros y Hy. apply Yk in Hy as [Hy _]. auto.
      * exists ch. split; [exact E2|]. split; [exact Nc|]. auto.
  - assert (OM : exists mb, orders sc1 B = Some mb /\ Forall (fun l => sub l M) mb /\ sub (heads mb) M).
    { destruct HB as [->|HB]; [exists []; repeat split; constructor|]. destruct (OB B HB) as (mb & ? & _ & ? & ?). eauto. }
    destruct OM as (mb & O & FM & HM). pose proof (Mo _ _ _ Hm HB') as Dm.
    assert (Im : In m (class_names l)) by (apply in_flat_map; eexists; split; [exact Hm|now left]).
    destruct (New m (class_module _ _ Im)) as (_ & NmM & NmT).
    unfold bases_order. change (EName m :: B) with ([EName m] ++ B). rewrite !orders_app, Ok1, O. cbn [orders]. rewrite Dm. cbn [app].
    replace (map (fun p => own p ++ M) ps ++ (m :: M) :: mb) with (map (fun p => own p ++ M) (ps ++ [(m, [])]) ++ mb) by (rewrite map_app, <- app_assoc; reflexivity).
    rewrite heads_app, heads_own, <- app_assoc.
    destruct (merge_chains (ps ++ [(m, [])]) M mb) as (ch & E2 & Nc & Ic); [destruct ps; discriminate| |assumption|assumption|].
    + rewrite map_app, concat_app. cbn [map own List.concat fst snd app]. rewrite <- app_assoc. apply NoDup_app_i; [assumption|now constructor|].
      intros y Hy [<-|J]; apply Yk in Hy as [Hy _]; [contradiction|exact (HT _ Hy J)].
    + exists ch. split; [exact E2|]. split; [exact Nc|]. intros y Hy. apply Ic in Hy. rewrite map_app, concat_app in Hy. apply in_app_iff in Hy as [Hy|Hy]; [auto|].
      cbn in Hy. destruct Hy as [<-|[]]. now left.
Qed.
Lemma emit_run : forall l, emits l -> NoDup (T0 ++ module_names l) -> (forall n, In n (module_names l) -> ~ In n (dkeys sc0) /\ ~ In n M) ->
  exists sc', declare_all l sc = Some sc' /\ (forall y, ~ In y (module_names l) -> dget y sc' = dget y sc)
    /\ (forall m B body, In (SClass m B body []) l -> U B -> dget m sc' = Some (m :: M))
    /\ (forall pre n bases body dec post S, l = pre ++ SClass n bases body dec :: post -> base_ok S pre bases -> goodorder sc' n S (class_names l)).
Proof.
  induction l as [|x l IH] using rev_ind; intros E N New.
  - exists sc. repeat split; [contradiction|]. intros [|? ?]; discriminate.
  - apply emits_snoc in E as [E Ex]. rewrite module_names_app in N, New. rewrite app_assoc in N.
    destruct IH as (sc1 & D1 & K1 & Mo & Go); [exact E|now apply NoDup_app_l in N|intros n Hn; apply New; apply in_app_iff; now left|].
    assert (New1 : forall n, In n (module_names l) -> ~ In n (dkeys sc0) /\ ~ In n M /\ ~ In n T0).
    { intros n Hn. split; [|split]; [apply New; apply in_app_iff; now left..|]. intros J. apply NoDup_app_l in N. exact (NoDup_app_d _ _ _ N J Hn). }
    assert (K0 : forall y, In y (dkeys sc0) -> dget y sc1 = dget y sc0) by (intros y Hy; rewrite K1; [auto|]; intros J; apply New1 in J; tauto).
    assert (Dx : exists sc2, declare x sc1 = Some sc2 /\ forall n bases body dec, x = SClass n bases body dec -> exists k, bases_order sc1 bases = Some k /\ dget n sc2 = Some (n :: k)).
    { destruct (declare x sc1) as [sc2|] eqn:D.
      - exists sc2. split; [reflexivity|]. intros n bases body dec ->. rewrite declare_class in D. destruct (declare_all body sc1); [|discriminate]. destruct (bases_order sc1 bases) as [k|]; [|discriminate].
        injection D as <-. exists k. split; [reflexivity|]. rewrite dget_dset, String.eqb_refl. reflexivity.
      - exfalso. destruct x; try (eapply declare_plain; [|exact D]; exact I). rewrite declare_class in D. destruct Ex as [Hb Hx]. pose proof (body_run _ _ Hb K0). destruct (declare_all body sc1); [|congruence].
        destruct Hx as [Hx|(S & Hx)].
        + unfold bases_order in D, Hx. destruct (orders sc0 bases) as [ms|] eqn:O; [|congruence]. rewrite (orders_same _ _ _ _ O K0) in D. destruct (c3_merge _); congruence.
        + destruct (class_run l sc1 S bases K1 New1 Mo Hx) as (ch & EE & _). rewrite EE in D. discriminate. }
    destruct Dx as (sc2 & D2 & Bx). exists sc2. assert (Kx : forall y, ~ In y (module_names [x]) -> dget y sc2 = dget y sc1) by (intros y Hy; eapply declare_other; eassumption).
    assert (Dis : forall y, In y (module_names l) -> ~ In y (module_names [x])) by (intros y Hy; apply (NoDup_app_d _ _ _ N); apply in_app_iff; now right).
    split; [|split; [|split]].
    + rewrite declare_all_app, D1. cbn. now rewrite D2.
    + intros y Hy. rewrite module_names_app in Hy. rewrite Kx by (intros J; apply Hy; apply in_app_iff; now right). apply K1. intros J. apply Hy. apply in_app_iff. now left.
    + intros m B body Hm HU. apply in_app_iff in Hm as [Hm|[->|[]]].
      * rewrite Kx; [eauto|]. apply Dis. apply class_module. apply in_flat_map. eexists. split; [exact Hm|now left].
      * destruct (Bx _ _ _ _ eq_refl) as (k & Ek & ->). destruct (U_orders _ HU) as (mb & O & E2 & _). unfold bases_order in Ek. rewrite (orders_same _ _ _ _ O K0), E2 in Ek. injection Ek as <-. reflexivity.
    + intros pre n bases body dec post S El Hb. destruct (exists_last' post) as [->|(post' & z & ->)].
      * apply app_inj_tail in El as [<- ->]. destruct (Bx _ _ _ _ eq_refl) as (k & Ek & Dk). destruct (class_run l sc1 S bases K1 New1 Mo Hb) as (ch & E2 & Nc & Yc). rewrite E2 in Ek. injection Ek as <-.
        exists ch. split; [exact Dk|]. cbn in N. rewrite class_names_app. split.
        -- constructor; [|exact Nc]. intros J. apply Yc in J as [J|(J & _)]; [apply class_module in J; exact (Dis _ J (or_introl eq_refl))|].
           apply (NoDup_app_d _ _ n N); [apply in_app_iff; now left|now left].
        -- intros y [<-|Hy]; [left; apply in_app_iff; right; now left|]. destruct (Yc y Hy) as [J|J]; [left; apply in_app_iff; now left|now right].
      * rewrite app_comm_cons, app_assoc in El. apply app_inj_tail in El as [-> ->]. destruct (Go _ _ _ _ _ _ S eq_refl Hb) as (ch & Dk & Nc & Yc). exists ch.
        split; [|split; [exact Nc|]].
        -- rewrite Kx; [exact Dk|]. apply Dis. apply class_module. rewrite class_names_app. apply in_app_iff. right. now left.
        -- intros y Hy. destruct (Yc y Hy) as [J|J]; [left; rewrite class_names_app; apply in_app_iff; now left|now right].
Qed.
End Emit.
