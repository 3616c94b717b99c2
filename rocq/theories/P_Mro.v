(** Proofs about method resolution orders. *)
From Coq Require Import Lia.
From Verif Require Import Base PyAst Gql Config Stylers Registry Utils Recurse Objects Spec_Fields Spec_Mro P_Base P_Monad P_Fields.

(** ** Subsequences *)
Inductive sub : list string -> list string -> Prop :=
| sub_nil : forall k, sub [] k
| sub_keep : forall x l k, sub l k -> sub (x :: l) (x :: k)
| sub_skip : forall x l k, sub l k -> sub l (x :: k).
Lemma sub_refl : forall l, sub l l.
Proof. induction l; constructor; auto. Qed.
Lemma sub_in : forall l k x, sub l k -> In x l -> In x k.
Proof. intros l k x H. induction H; cbn; [tauto|intuition|auto]. Qed.
Lemma sub_skips : forall p l k, sub l k -> sub l (p ++ k).
Proof. induction p; cbn; auto using sub. Qed.
Lemma sub_app : forall l1 l2 k1 k2, sub l1 k1 -> sub l2 k2 -> sub (l1 ++ l2) (k1 ++ k2).
Proof. intros l1 l2 k1 k2 H H2. induction H; cbn; [now apply sub_skips|now constructor|now constructor]. Qed.
Lemma sub_trans : forall b c, sub b c -> forall a, sub a b -> sub a c.
Proof. intros b c H. induction H; intros a Ha; [inversion Ha; constructor|inversion Ha; subst; auto using sub|auto using sub]. Qed.
Lemma sub_nodup : forall l k, sub l k -> NoDup k -> NoDup l.
Proof.
  intros l k H. induction H; intros N; [constructor| |inversion N; auto]. inversion N; subst. constructor; [|auto]. intros I. eauto using sub_in.
Qed.
(** entries that are not in a prefix *)
Lemma sub_past : forall p k l, sub l (p ++ k) -> (forall x, In x l -> ~ In x p) -> sub l k.
Proof.
  induction p as [|y p IH]; intros k l H N; [exact H|]. inversion H; subst; [constructor| |].
  - exfalso. apply (N y); now left.
  - apply IH; [assumption|]. intros x I J. apply (N x I). now right.
Qed.
Lemma sub_filter : forall f l k, sub l k -> Forall (fun x => f x = true) l -> sub l (filter f k).
Proof.
  intros f l k H. induction H; intros F; [constructor| |].
  - inversion F; subst. cbn. rewrite H2. constructor. auto.
  - cbn. destruct (f x); auto using sub.
Qed.
Lemma sub_split : forall l1 l2 k, sub (l1 ++ l2) k -> exists k1 k2, k = k1 ++ k2 /\ sub l1 k1 /\ sub l2 k2.
Proof.
  intros l1 l2 k. revert l1. induction k as [|x k IH]; intros l1 H.
  - exists [], []. inversion H as [? E| |]. symmetry in E. apply app_eq_nil in E as [-> ->]. auto using sub.
  - destruct l1 as [|y l1].
    + exists [], (x :: k). split; [reflexivity|]. split; [constructor|exact H].
    + inversion H as [|? ? ? S|? ? ? S]; subst.
      * apply IH in S as (k1 & k2 & -> & A & B). exists (x :: k1), k2. auto using sub.
      * apply (IH (y :: l1)) in S as (k1 & k2 & -> & A & B). exists (x :: k1), k2. auto using sub.
Qed.

(** ** Merging *)
Lemma mem_tl : forall x l, negb (mem x (tl l)) = true <-> ~ In x (tl l).
Proof. intros x l. rewrite negb_true_iff. split; intros H; [intros I; apply mem_In in I; congruence|]. destruct (mem x (tl l)) eqn:E; [apply mem_In in E; tauto|reflexivity]. Qed.
Lemma free_spec : forall h ls, free h ls = true <-> forall l, In l ls -> ~ In h (tl l).
Proof. intros h ls. unfold free. rewrite forallb_forall. split; intros H l I; apply mem_tl; auto. Qed.
Lemma good_head_spec : forall all cands h, good_head cands all = Some h -> free h all = true /\ exists l, In (h :: l) cands.
Proof.
  intros all. induction cands as [|[|x l] r IH]; intros h H; cbn in H; [discriminate| |].
  - apply IH in H as (F & l & I). split; [exact F|]. exists l. now right.
  - destruct (free x all) eqn:E; [injection H as <-; split; [exact E|]; exists l; now left|]. apply IH in H as (F & l' & I). split; [exact F|]. exists l'. now right.
Qed.
Lemma good_head_some : forall all cands h l, In (h :: l) cands -> free h all = true -> good_head cands all <> None.
Proof.
  intros all cands h l I F. induction cands as [|[|x l'] r IH]; [contradiction| |]; cbn.
  - destruct I as [I|I]; [discriminate|auto].
  - destruct I as [I|I]; [injection I as -> ->; rewrite F; discriminate|]. destruct (free x all); [discriminate|auto].
Qed.
Lemma nil_spec : forall ls, forallb is_nil ls = true <-> Forall (fun l => l = []) ls.
Proof. intros ls. rewrite forallb_forall, Forall_forall. split; intros H l I; specialize (H l I); destruct l; auto; discriminate. Qed.
Lemma progress : forall k ls, NoDup k -> Forall (fun l => sub l k) ls -> forallb is_nil ls = false -> good_head ls ls <> None.
Proof.
  induction k as [|x k IH]; intros ls N F E.
  - assert (T : forallb is_nil ls = true) by (apply nil_spec; eapply Forall_impl; [|exact F]; intros l H; inversion H; reflexivity). congruence.
  - inversion N; subst. destruct (existsb (fun l => mem x l) ls) eqn:Ex.
    + apply existsb_exists in Ex as (l & I & M). apply mem_In in M. rewrite Forall_forall in F.
      assert (Hh : exists l', l = x :: l'). { pose proof (F l I) as S. inversion S; subst; [contradiction|eauto|]. exfalso. eauto using sub_in. }
      destruct Hh as (l' & ->). eapply good_head_some; [exact I|]. apply free_spec. intros l2 I2 J. pose proof (F l2 I2) as S.
      inversion S; subst; cbn in J; [contradiction|eauto using sub_in|]. apply H1. eapply sub_in; [eassumption|]. destruct l2; [contradiction|now right].
    + apply IH; [assumption| |exact E]. rewrite Forall_forall in *. intros l I. pose proof (F l I) as S. inversion S; subst; [constructor| |assumption].
      exfalso. assert (T : existsb (fun l => mem x l) ls = true) by (apply existsb_exists; exists (x :: l0); split; [exact I|apply mem_In; now left]). congruence.
Qed.
Lemma drop_sub : forall h l, sub (drop_head h l) l.
Proof. intros h [|x l]; cbn; [constructor|]. destruct (String.eqb x h); auto using sub, sub_refl. Qed.
Lemma drop_not_in : forall h l, ~ In h (tl l) -> ~ In h (drop_head h l).
Proof. intros h [|x l] H; cbn in *; [tauto|]. destruct (String.eqb_spec x h); [assumption|]. intros [->|I]; tauto. Qed.
Lemma drop_le : forall h l, List.length (drop_head h l) <= List.length l.
Proof. intros h [|x l]; cbn; [lia|]. destruct (String.eqb x h); cbn; lia. Qed.
Lemma drops_le : forall h ls, List.length (List.concat (map (drop_head h) ls)) <= List.length (List.concat ls).
Proof. intros h. induction ls as [|l r IH]; cbn; [lia|]. rewrite !app_length. pose proof (drop_le h l). lia. Qed.
Lemma drops_lt : forall h l ls, In (h :: l) ls -> List.length (List.concat (map (drop_head h) ls)) < List.length (List.concat ls).
Proof.
  intros h l. induction ls as [|x r IH]; intros I; [contradiction|]. cbn. rewrite !app_length. pose proof (drop_le h x). pose proof (drops_le h r).
  destruct I as [->|I]; [cbn; rewrite String.eqb_refl; lia|]. apply IH in I. lia.
Qed.
Lemma sub_without : forall x k1 k2 l, sub l (k1 ++ x :: k2) -> ~ In x l -> sub l (k1 ++ k2).
Proof.
  intros x. induction k1 as [|y k1 IH]; intros k2 l H N; cbn in *.
  - inversion H; subst; [constructor| |assumption]. exfalso. apply N. now left.
  - inversion H; subst; [constructor| |].
    + constructor. apply IH; [assumption|]. intros I. apply N. now right.
    + constructor. now apply IH.
Qed.
(** lists that are subsequences of one list without repetitions can be merged *)
Lemma c3_total : forall n ls k, NoDup k -> Forall (fun l => sub l k) ls -> List.length (List.concat ls) <= n -> c3 n ls <> None.
Proof.
  induction n as [|n IH]; intros ls k N F L; cbn.
  - assert (E : forallb is_nil ls = true). { apply nil_spec. apply Forall_forall. intros l I. destruct l as [|x l]; [reflexivity|]. exfalso.
      assert (T : In x (List.concat ls)) by (apply in_concat; exists (x :: l); split; [exact I|now left]). destruct (List.concat ls); [contradiction|cbn in L; lia]. }
    rewrite E. discriminate.
  - destruct (forallb is_nil ls) eqn:E; [discriminate|]. destruct (good_head ls ls) as [h|] eqn:G; [|exfalso; eapply progress; eassumption].
    apply good_head_spec in G as (Fr & l & I). assert (Hk : In h k) by (rewrite Forall_forall in F; eapply sub_in; [exact (F _ I)|now left]).
    apply in_split in Hk as (k1 & k2 & ->). specialize (IH (map (drop_head h) ls) (k1 ++ k2)). destruct (c3 n _) eqn:C; [discriminate|]. exfalso. apply IH; [| | |reflexivity].
    + now apply NoDup_remove_1 in N.
    + rewrite free_spec in Fr. rewrite Forall_forall in *. intros l2 I2. apply in_map_iff in I2 as (l3 & <- & I3). apply sub_without with h.
      * eapply sub_trans; [apply (F _ I3)|apply drop_sub].
      * apply drop_not_in. auto.
    + pose proof (drops_lt h l ls I). lia.
Qed.
Theorem merge_total : forall ls k, NoDup k -> Forall (fun l => sub l k) ls -> c3_merge ls <> None.
Proof. intros ls k N F. eapply c3_total; eauto. Qed.
Lemma drop_back : forall h l k, sub (drop_head h l) k -> sub l (h :: k).
Proof. intros h [|x l] k H; cbn in *; [constructor|]. destruct (String.eqb_spec x h); subst; auto using sub. Qed.
(** what a merge gives *)
Lemma c3_sound : forall n ls k, c3 n ls = Some k -> NoDup k /\ Forall (fun l => sub l k) ls /\ forall x, In x k -> exists l, In l ls /\ In x l.
Proof.
  induction n as [|n IH]; intros ls k H; cbn in H; destruct (forallb is_nil ls) eqn:E; try discriminate.
  1,2: injection H as <-; apply nil_spec in E; split; [constructor|]; split; [|intros x []]; eapply Forall_impl; [|exact E]; intros l ->; constructor.
  destruct (good_head ls ls) as [h|] eqn:G; [|discriminate]. destruct (c3 n _) as [k'|] eqn:C; [|discriminate]. injection H as <-.
  apply IH in C as (N & F & U). apply good_head_spec in G as (Fr & l & I). rewrite free_spec in Fr. split; [|split].
  - constructor; [|exact N]. intros J. apply U in J as (l' & J1 & J2). apply in_map_iff in J1 as (l2 & <- & I2). eapply drop_not_in; [|exact J2]. auto.
  - rewrite Forall_forall in *. intros l2 I2. apply drop_back. apply F. apply in_map_iff. eauto.
  - intros x [<-|J]; [exists (h :: l); split; [exact I|now left]|]. apply U in J as (l' & J1 & J2). apply in_map_iff in J1 as (l2 & <- & I2).
    exists l2. split; [exact I2|]. eapply sub_in; [apply drop_sub|exact J2].
Qed.
Lemma merge_sound : forall ls k, c3_merge ls = Some k -> NoDup k /\ Forall (fun l => sub l k) ls /\ forall x, In x k -> exists l, In l ls /\ In x l.
Proof. intros ls k. apply c3_sound. Qed.
(** a list merged with subsequences of itself *)
Lemma c3_self : forall k n ls, NoDup k -> Forall (fun l => sub l k) ls -> List.length (List.concat (k :: ls)) <= n -> c3 n (k :: ls) = Some k.
Proof.
  induction k as [|x k IH]; intros n ls N F L.
  - assert (E : forallb is_nil ([] :: ls) = true). { cbn. apply nil_spec. eapply Forall_impl; [|exact F]. intros l H. now inversion H. }
    destruct n; cbn [c3]; now rewrite E.
  - destruct n as [|n]; [cbn in L; lia|]. inversion N; subst. cbn [c3 forallb is_nil andb]. cbn [good_head].
    assert (Fr : free x ((x :: k) :: ls) = true).
    { apply free_spec. intros l [<-|I]; [assumption|]. rewrite Forall_forall in F. pose proof (F l I) as S. intros J. apply H1. inversion S; subst; [contradiction|eauto using sub_in|].
      eapply sub_in; [eassumption|]. destruct l; [contradiction|now right]. }
    rewrite Fr. cbn [map drop_head]. rewrite String.eqb_refl. rewrite IH; [reflexivity|assumption| |].
    + rewrite Forall_forall in *. intros l I. apply in_map_iff in I as (l2 & <- & I2). pose proof (F l2 I2) as S. inversion S; subst; [constructor| |].
      * cbn. now rewrite String.eqb_refl.
      * eapply sub_trans; [eassumption|apply drop_sub].
    + cbn in *. pose proof (drops_le x ls). rewrite app_length in *. lia.
Qed.
Lemma merge_self : forall k ls, NoDup k -> Forall (fun l => sub l k) ls -> c3_merge (k :: ls) = Some k.
Proof. intros k ls N F. apply c3_self; auto. Qed.

(** ** Running classes *)
Definition no_class (m : stmt) : Prop := match m with SClass _ _ _ _ => False | _ => True end.
(** bodies whose classes have no bases *)
Definition simple (m : stmt) : Prop := match m with SClass _ bases body _ => bases = [] /\ Forall no_class body | _ => True end.
Lemma declare_class : forall n bases body dec sc, declare (SClass n bases body dec) sc =
  match declare_all body sc, bases_order sc bases with Some _, Some k => Some (dset n (n :: k) sc) | _, _ => None end.
Proof.
  intros. cbn [declare]. set (go := (fix go (l : list stmt) (sc : scope) : option scope := match l with [] => Some sc | x :: r => match declare x sc with Some sc' => go r sc' | None => None end end)).
  assert (E : forall l sc, go l sc = declare_all l sc) by (induction l as [|x l IH]; intros sc'; [reflexivity|]; cbn; destruct (declare x sc'); auto).
  now rewrite E.
Qed.
Lemma declare_plain : forall m sc, no_class m -> declare m sc <> None.
Proof.
  intros [] sc H; cbn in *; try contradiction; try discriminate. repeat match goal with |- context [match ?x with _ => _ end] => destruct x; try discriminate end.
Qed.
Lemma declare_all_app : forall l1 l2 sc, declare_all (l1 ++ l2) sc = match declare_all l1 sc with Some sc' => declare_all l2 sc' | None => None end.
Proof. induction l1 as [|x l IH]; intros l2 sc; cbn; [reflexivity|]. destruct (declare x sc); auto. Qed.
Lemma declare_plains : forall l sc, Forall no_class l -> declare_all l sc <> None.
Proof.
  induction l as [|x l IH]; intros sc F; cbn; [discriminate|]. inversion F; subst. pose proof (declare_plain x sc H1). destruct (declare x sc); [auto|congruence].
Qed.
Lemma declare_simple : forall l sc, Forall simple l -> declare_all l sc <> None.
Proof.
  induction l as [|x l IH]; intros sc F; cbn; [discriminate|]. inversion F; subst. assert (D : declare x sc <> None).
  { destruct x; try (now apply declare_plain). rewrite declare_class. destruct H1 as [-> H1]. pose proof (declare_plains _ sc H1) as P. destruct (declare_all body sc); [|congruence]. cbn. discriminate. }
  destruct (declare x sc); [auto|congruence].
Qed.
Lemma class_names_app : forall a b, class_names (a ++ b) = class_names a ++ class_names b.
Proof. intros a b. unfold class_names. apply flat_map_app. Qed.
Lemma orders_app : forall sc a b, orders sc (a ++ b) = match orders sc a, orders sc b with Some x, Some y => Some (x ++ y) | _, _ => None end.
Proof.
  intros sc. induction a as [|e a IH]; intros b; cbn [app orders]; [now destruct (orders sc b)|]. destruct e; try (destruct (orders sc b); reflexivity).
  rewrite IH. match goal with |- context [dget ?n sc] => destruct (dget n sc) as [[|h m]|] end; [now destruct (orders sc a), (orders sc b)| |now destruct (orders sc a), (orders sc b)]. now destruct (orders sc a), (orders sc b).
Qed.
Lemma orders_in : forall sc bases ms, orders sc bases = Some ms -> Forall2 (fun e m => exists n h k, e = EName n /\ dget n sc = Some m /\ m = h :: k) bases ms.
Proof.
  intros sc. induction bases as [|e bases IH]; intros ms H; cbn in H; [injection H as <-; constructor|]. destruct e; try discriminate.
  match type of H with context [dget ?n sc] => destruct (dget n sc) as [[|h m]|] eqn:D end; try discriminate. destruct (orders sc bases) as [ms'|]; [|discriminate]. injection H as <-. constructor; [|auto]. eauto 6.
Qed.
Lemma orders_of : forall sc bases ms, Forall2 (fun e m => exists n h k, e = EName n /\ dget n sc = Some m /\ m = h :: k) bases ms -> orders sc bases = Some ms.
Proof. intros sc bases ms F. induction F as [|e m bases ms (n & h & k & -> & D & ->) F IH]; [reflexivity|]. cbn. now rewrite D, IH. Qed.

Section Hierarchy.
Variable s : schema.
Variable sc0 : scope.
Variable bn : string -> string.
Variable bases : list expr.
Variable M : list string.
Variable mb : list (list string).
Hypothesis HB : orders sc0 bases = Some mb.
Hypothesis HM : c3_merge (mb ++ [heads mb]) = Some M.
Hypothesis HC : implements_closed s.
Hypothesis HK : NoDup (map fst (s_types s)).
Hypothesis HS : forall i d is fs, In (i, TInterface d is fs) (s_types s) -> ~ In i is.

Lemma HM' : NoDup M /\ Forall (fun l => sub l M) mb /\ sub (heads mb) M /\ forall x, In x M -> exists l, In l mb /\ In x l.
Proof.
  apply merge_sound in HM as (N & F & U). apply Forall_app in F as [F1 F2]. inversion F2; subst. repeat split; auto.
  intros x I. apply U in I as (l & I & J). apply in_app_iff in I as [I|[<-|[]]]; [eauto|]. unfold heads in J. apply in_map_iff in J as (l & <- & I).
  exists l. split; [exact I|]. apply orders_in in HB. clear - HB I. induction HB as [|e m b ms (n & h & k & _ & _ & ->) F IH]; [contradiction|].
  destruct I as [<-|I]; [now left|auto].
Qed.
(** orders known before never contain the new classes *)
Definition old (tree : list stmt) (x : string) : Prop := ~ In x (class_names tree).
Lemma dget_in : forall (d : scope) n k, dget n d = Some k -> In (n, k) d.
Proof. induction d as [|[a b] d IH]; intros n k H; cbn in H; [discriminate|]. destruct (String.eqb_spec n a); subst; [injection H as ->; now left|right; auto]. Qed.
Lemma orders_old : forall tree b ms, new_in sc0 tree -> orders sc0 b = Some ms -> forall l x, In l ms -> In x l -> old tree x.
Proof.
  intros tree b ms N H l x I J K. apply orders_in in H. assert (G : exists n, dget n sc0 = Some l).
  { clear - H I. induction H as [|e m b ms (n & h & k & _ & D & _) F IH]; [contradiction|]. destruct I as [<-|I]; eauto. }
  destruct G as (n & D). apply dget_in in D. exact (proj2 (N x K) _ _ D J).
Qed.
Lemma orders_same : forall tree sc' b ms, new_in sc0 tree -> (forall n, ~ In n (class_names tree) -> dget n sc' = dget n sc0) -> orders sc0 b = Some ms -> orders sc' b = Some ms.
Proof.
  intros tree sc' b ms N E H. apply orders_of. apply orders_in in H. induction H as [|e m b ms (n & h & k & -> & D & ->) F IH]; constructor; [|exact IH].
  exists n, h, k. split; [reflexivity|]. split; [|reflexivity]. rewrite E; [exact D|]. intros I. apply N in I as [I _]. apply I. unfold dkeys. apply in_map_iff. exists (n, h :: k). split; [reflexivity|]. now apply dget_in.
Qed.

Definition known (sc' : scope) (tree : list stmt) (ifb : dict string) (i cls : string) : Prop :=
  cls = bn i /\ In cls (class_names tree) /\ exists ti chain, In (i, ti) (s_types s) /\ is_interface_def ti = true /\ dget cls sc' = Some (cls :: chain ++ M)
    /\ sub (cls :: chain) (rev (class_names tree)) /\ Forall (fun y => exists j, In j (implements ti) /\ y = bn j /\ dget j ifb = Some y) chain.
Definition inv (tree : list stmt) (ifb : dict string) : Prop :=
  NoDup (class_names tree) -> new_in sc0 tree ->
  exists sc', declare_all tree sc0 = Some sc' /\ (forall n, ~ In n (class_names tree) -> dget n sc' = dget n sc0)
    /\ (forall i cls, dget i ifb = Some cls -> known sc' tree ifb i cls)
    /\ (forall i j c, dget i ifb = Some c -> dget j ifb = Some c -> i = j).
Lemma inv_nil : inv [] [].
Proof. intros _ _. exists sc0. repeat split; auto; discriminate. Qed.
Lemma implements_of : forall key t, In (key, t) (s_types s) -> get_type s key = Some t.
Proof.
  assert (G : forall (l : list (string * typedef)) key t, NoDup (map fst l) -> In (key, t) l -> dget key l = Some t).
  { induction l as [|[k x] l IH]; intros key t N I; [contradiction|]. cbn in *. inversion N; subst.
    destruct I as [I|I]; [injection I as -> ->; now rewrite String.eqb_refl|]. destruct (String.eqb_spec key k); [|auto]. subst. exfalso. apply H1. apply in_map_iff. exists (k, t). auto. }
  intros key t H. unfold get_type. now apply G.
Qed.
Lemma new_prefix : forall tree x, new_in sc0 (tree ++ [x]) -> new_in sc0 tree.
Proof. intros tree x H n I. apply H. rewrite class_names_app. apply in_app_iff. now left. Qed.
Lemma nodup_prefix : forall a b : list string, NoDup (a ++ b) -> NoDup a.
Proof. induction a as [|x a IH]; intros b H; [constructor|]. inversion H; subst. constructor; [|eauto]. intros I. apply H2. apply in_app_iff. now left. Qed.
Lemma nodup_last : forall a (x : string), NoDup (a ++ [x]) -> ~ In x a.
Proof. intros a x H I. apply NoDup_remove_2 in H. rewrite app_nil_r in H. tauto. Qed.
Lemma known_step : forall sc' tree ifb ifb' m cls0 k i cls, known sc' tree ifb i cls -> class_names [m] = [cls0] -> ~ In cls0 (class_names tree) ->
  (forall j y, dget j ifb = Some y -> dget j ifb' = Some y) -> known (dset cls0 k sc') (tree ++ [m]) ifb' i cls.
Proof.
  intros sc' tree ifb ifb' m cls0 k i cls (-> & I & ti & chain & T & Ti & D & S & F) E N X. split; [reflexivity|]. rewrite class_names_app, E. split; [apply in_app_iff; now left|].
  exists ti, chain. split; [exact T|]. split; [exact Ti|]. split.
  - rewrite dget_dset. destruct (String.eqb_spec (bn i) cls0); [subst; contradiction|exact D].
  - split; [rewrite rev_app_distr; cbn; now constructor|]. eapply Forall_impl; [|exact F]. intros y (j & J1 & J2 & J3). eauto.
Qed.
Lemma iface_orders : forall sc' tree ifb l, (forall i cls, dget i ifb = Some cls -> known sc' tree ifb i cls) -> Forall (fun i => dget i ifb = Some (bn i)) l ->
  exists ms, orders sc' (map (fun i => EName (bn i)) l) = Some ms /\ heads ms = map bn l
    /\ Forall2 (fun i m => exists ti chain, m = bn i :: chain ++ M /\ In (i, ti) (s_types s) /\ is_interface_def ti = true /\ sub (bn i :: chain) (rev (class_names tree))
         /\ Forall (fun y => exists j, In j (implements ti) /\ y = bn j /\ dget j ifb = Some y) chain) l ms.
Proof.
  intros sc' tree ifb l HK0 F. induction F as [|i l D F IH]; [exists []; repeat split; constructor|]. destruct IH as (ms & E & Hh & F2).
  pose proof (HK0 _ _ D) as (_ & I & ti & chain & T & Ti & D2 & S & F3). exists ((bn i :: chain ++ M) :: ms). cbn [map orders]. rewrite D2, E. split; [reflexivity|].
  split; [cbn; now f_equal|]. constructor; [|exact F2]. exists ti, chain. auto.
Qed.
Lemma sub_disjoint_nodup : forall a b : list string, NoDup a -> NoDup b -> (forall x, In x a -> ~ In x b) -> NoDup (a ++ b).
Proof.
  induction a as [|x a IH]; intros b N1 N2 D; [exact N2|]. inversion N1; subst. cbn. constructor.
  - rewrite in_app_iff. intros [I|I]; [tauto|]. apply (D x); [now left|exact I].
  - apply IH; auto. intros y I. apply D. now right.
Qed.
Lemma M_old : forall tree x, new_in sc0 tree -> In x M -> old tree x.
Proof. intros tree x N I. destruct HM' as (_ & _ & _ & U). apply U in I as (l & I & J). eapply orders_old; eassumption. Qed.

Lemma step_interface : forall tree ifb key d is fs body dec, inv tree ifb -> In (key, TInterface d is fs) (s_types s) ->
  dget key ifb = None -> Forall (fun i => dget i ifb = Some (bn i)) (direct s is) -> List.length (direct s is) <= 1 -> Forall simple body ->
  inv (tree ++ [SClass (bn key) (map (fun i => EName (bn i)) (direct s is) ++ bases) body dec]) (dset key (bn key) ifb).
Proof.
  intros tree ifb key d is fs body dec V T D Fd L Fb N W. pose proof (new_prefix _ _ W) as W1. rewrite class_names_app in N. cbn [class_names flat_map app] in N.
  pose proof (nodup_last _ _ N) as Nl. pose proof (nodup_prefix _ _ N) as N1. destruct (V N1 W1) as (sc' & E & Out & Kn & Inj).
  destruct HM' as (NM & FM & SM & UM).
  pose proof (orders_same tree sc' bases mb W1 Out HB) as OB.
  assert (G : exists chain, bases_order sc' (map (fun i => EName (bn i)) (direct s is) ++ bases) = Some (chain ++ M)
     /\ sub chain (rev (class_names tree)) /\ Forall (fun y => exists j, In j is /\ y = bn j /\ dget j ifb = Some y) chain).
  { assert (Sel : forall x, In x (direct s is) -> In x is) by (intros x I; unfold direct in I; now apply filter_In in I).
    destruct (direct s is) as [|p [|q l]]; [| |cbn in L; lia].
    - exists []. split; [|split; constructor]. unfold bases_order. cbn [map app]. rewrite OB. exact HM.
    - destruct (iface_orders sc' tree ifb [p] Kn Fd) as (ms & Em & Hh & F2). inversion F2 as [|? ? ? ? (ti & chain & -> & Tp & Ti & S & F3) F4]; subst. inversion F4; subst.
      exists (bn p :: chain). split; [|split; [exact S|]].
      + unfold bases_order. rewrite orders_app, Em, OB. cbn [app]. apply merge_self.
        * change (bn p :: chain ++ M) with ((bn p :: chain) ++ M). apply sub_disjoint_nodup; [eapply sub_nodup; [exact S|]; now apply NoDup_rev|exact NM|].
          intros x I J. apply (M_old tree x W1 J). apply in_rev. eapply sub_in; eassumption.
        * change (bn p :: chain ++ M) with ((bn p :: chain) ++ M). apply Forall_app. split; [eapply Forall_impl; [|exact FM]; intros l Hl; now apply sub_skips|].
          constructor; [|constructor]. unfold heads. cbn [map hd app]. apply (sub_keep (bn p)). apply sub_skips. exact SM.
      + inversion Fd; subst. assert (Ip : In p is) by (apply Sel; now left). constructor; [eauto|]. eapply Forall_impl; [|exact F3].
        intros y (j & J1 & J2 & J3). exists j. split; [|auto]. pose proof (implements_of _ _ Tp) as Gp. exact (HC key (TInterface d is fs) p ti j T Ip Gp J1). }
  destruct G as (chain & B & S & F). pose proof (declare_simple body sc' Fb) as Db. exists (dset (bn key) (bn key :: chain ++ M) sc').
  assert (X : forall j y, dget j ifb = Some y -> dget j (dset key (bn key) ifb) = Some y) by (intros j y H; rewrite dget_dset; destruct (String.eqb_spec j key); [congruence|exact H]).
  split; [|split; [|split]].
  - rewrite declare_all_app, E. cbn [declare_all]. rewrite declare_class, B. destruct (declare_all body sc'); [reflexivity|congruence].
  - intros n Hn. rewrite class_names_app, in_app_iff in Hn. cbn in Hn. rewrite dget_dset. destruct (String.eqb_spec n (bn key)); [subst; tauto|]. apply Out. tauto.
  - intros i cls Hi. rewrite dget_dset in Hi. destruct (String.eqb_spec i key).
    + injection Hi as <-. subst i. split; [reflexivity|]. rewrite class_names_app. cbn [class_names flat_map app]. split; [apply in_app_iff; right; now left|].
      exists (TInterface d is fs), chain. split; [exact T|]. split; [reflexivity|]. split; [rewrite dget_dset, String.eqb_refl; reflexivity|]. split; [rewrite rev_app_distr; cbn; now constructor|].
      eapply Forall_impl; [|exact F]. intros y (j & J1 & J2 & J3). eauto.
    + eapply known_step; eauto.
  - intros i j cl Hi Hj. rewrite dget_dset in Hi, Hj. destruct (String.eqb_spec i key), (String.eqb_spec j key); subst; auto.
    + injection Hi as <-. exfalso. apply Nl. now apply Kn in Hj as (_ & Hj & _).
    + injection Hj as <-. exfalso. apply Nl. now apply Kn in Hi as (_ & Hi & _).
    + eauto.
Qed.
Lemma sub_past_head : forall p k h l, sub (h :: l) (p ++ k) -> ~ In h p -> sub (h :: l) k.
Proof.
  induction p as [|y p IH]; intros k h l H N; [exact H|]. inversion H; subst; [exfalso; apply N; now left|]. apply IH; [assumption|]. intros I. apply N. now right.
Qed.
Lemma nodup_app_disjoint : forall a b (x : string), NoDup (a ++ b) -> In x a -> ~ In x b.
Proof. induction a as [|y a IH]; intros b x N I J; [contradiction|]. inversion N; subst. destruct I as [->|I]; [apply H1, in_app_iff; now right|exact (IH b x H2 I J)]. Qed.

Lemma step_object : forall tree ifb key t cls add body dec, inv tree ifb -> In (key, t) (s_types s) -> NoDup (implements t) ->
  Forall (fun i => dget i ifb = Some (bn i)) (direct s (implements t)) -> combine_with sc0 add bases M -> Forall simple body ->
  inv (tree ++ [SClass cls (add ++ map (fun i => EName (bn i)) (direct s (implements t)) ++ bases) body dec]) ifb.
Proof.
  intros tree ifb key t cls add body dec V T Nt Fd (ma & mb' & M' & Ea & Eb & EM) Fb N W. rewrite HB in Eb. injection Eb as <-.
  pose proof (new_prefix _ _ W) as W1. rewrite class_names_app in N. cbn [class_names flat_map app] in N.
  pose proof (nodup_last _ _ N) as Nl. pose proof (nodup_prefix _ _ N) as N1. destruct (V N1 W1) as (sc' & E & Out & Kn & Inj).
  destruct HM' as (NM & FM & SM & UM).
  pose proof (orders_same tree sc' bases mb W1 Out HB) as OB. pose proof (orders_same tree sc' add ma W1 Out Ea) as OA.
  destruct (iface_orders sc' tree ifb _ Kn Fd) as (ms & Em & Hh & F2).
  apply merge_sound in EM as (N' & F' & U'). apply Forall_app in F' as [Fa F']. inversion F' as [|? ? SMM F'2]; subst. inversion F'2 as [|? ? SH _]; subst. clear F' F'2.
  apply sub_split in SH as (u & v & -> & Su & Sv).
  assert (MV : sub M v).
  { apply sub_past with u; [exact SMM|]. intros x I J. apply UM in I as (l & I & K). pose proof (orders_in _ _ _ HB) as O.
    assert (Hl : exists h k, l = h :: k /\ In h (heads mb)). { clear - O I. induction O as [|e m b ms (n & h & k & _ & _ & ->) F IH]; [contradiction|]. destruct I as [<-|I].
      - exists h, k. split; [reflexivity|]. now left. - destruct (IH I) as (h' & k' & -> & J). exists h', k'. split; [reflexivity|]. now right. }
    destruct Hl as (h & k & -> & Ih). pose proof (sub_in _ _ _ Sv Ih) as Hv. rewrite Forall_forall in FM. pose proof (FM _ I) as Sl.
    assert (S2 : sub (h :: k) (u ++ v)) by (eapply sub_trans; [exact SMM|exact Sl]). apply sub_past_head in S2; [|intros Hu; exact (nodup_app_disjoint _ _ _ N' Hu Hv)].
    exact (nodup_app_disjoint _ _ _ N' J (sub_in _ _ _ S2 K)). }
  assert (Old : forall x, In x (u ++ v) -> old tree x).
  { intros x I. apply U' in I as (l & I & J). apply in_app_iff in I as [I|[<-|[<-|[]]]]; [eapply (orders_old tree add); eassumption|now apply M_old|].
    apply in_app_iff in J as [J|J].
    - unfold heads in J. apply in_map_iff in J as (l & <- & I). eapply (orders_old tree add); [exact W1|exact Ea|exact I|]. apply orders_in in Ea. clear - Ea I.
      induction Ea as [|e m b ms (n & h & k & _ & _ & ->) F IH]; [contradiction|]. destruct I as [<-|I]; [now left|auto].
    - apply M_old; [exact W1|]. eapply sub_in; eassumption. }
  set (Is := map bn (direct s (implements t))). set (w := filter (fun x => negb (mem x Is)) (rev (class_names tree))).
  assert (In_is : forall x, In x Is -> In x (class_names tree)).
  { intros x I. apply in_map_iff in I as (i & <- & I). rewrite Forall_forall in Fd. apply Fd in I. now apply Kn in I as (_ & I & _). }
  assert (In_w : forall x, In x w -> In x (class_names tree) /\ ~ In x Is).
  { intros x I. unfold w in I. apply filter_In in I as [I J]. apply in_rev in I. split; [exact I|]. intros K. apply mem_In in K. now rewrite K in J. }
  assert (NI : NoDup Is).
  { unfold Is. assert (Nd : NoDup (direct s (implements t))) by (unfold direct; now apply NoDup_filter). rewrite Forall_forall in Fd. clear - Nd Fd Inj.
    revert Nd Fd. generalize (direct s (implements t)). intros l. induction l as [|i l IH]; intros Nd Fd; [constructor|].
    inversion Nd; subst. cbn. constructor; [|apply IH; [assumption|intros j J; apply Fd; now right]]. intros I. apply in_map_iff in I as (j & E & J). assert (i = j); [|subst; contradiction]. apply (Inj i j (bn i)); [apply Fd; now left|]. rewrite <- E. apply Fd. now right. }
  assert (NK : NoDup (u ++ Is ++ w ++ v)).
  { assert (Nu : NoDup u) by (eapply nodup_prefix; exact N'). assert (Nv : NoDup v) by (eapply sub_nodup; [|exact N']; apply sub_skips, sub_refl).
    apply sub_disjoint_nodup; [exact Nu| |].
    - apply sub_disjoint_nodup; [exact NI| |].
      + apply sub_disjoint_nodup; [unfold w; now apply NoDup_filter, NoDup_rev|exact Nv|]. intros x I J. apply In_w in I as [I _]. apply (Old x); [apply in_app_iff; now right|exact I].
      + intros x I J. apply in_app_iff in J as [J|J]; [now apply In_w in J as [_ J]|]. apply (Old x); [apply in_app_iff; now right|auto].
    - intros x I J. rewrite !in_app_iff in J. destruct J as [J|[J|J]]; [|apply In_w in J as [J _]|exact (nodup_app_disjoint _ _ _ N' I J)]; apply (Old x); auto; apply in_app_iff; now left. }
  assert (B : bases_order sc' (add ++ map (fun i => EName (bn i)) (direct s (implements t)) ++ bases) <> None).
  { unfold bases_order. rewrite !orders_app, OA, Em, OB. apply merge_total with (u ++ Is ++ w ++ v); [exact NK|].
    assert (SVM : forall l, sub l M -> sub l (u ++ Is ++ w ++ v)) by (intros l H; do 3 apply sub_skips; eapply sub_trans; [exact MV|exact H]).
    rewrite !Forall_app. split; [split; [|split]|].
    - eapply Forall_impl; [|exact Fa]. intros l H. eapply sub_trans; [|exact H]. apply sub_app; [apply sub_refl|]. do 2 apply sub_skips. apply sub_refl.
    - apply Forall_forall. intros m I. assert (G : exists i ti chain, In i (direct s (implements t)) /\ m = bn i :: chain ++ M /\ In (i, ti) (s_types s) /\ is_interface_def ti = true
          /\ sub (bn i :: chain) (rev (class_names tree)) /\ Forall (fun y => exists j, In j (implements ti) /\ y = bn j /\ dget j ifb = Some y) chain).
      { clear - F2 I. induction F2 as [|i m0 l ms (ti & chain & H) F IH]; [contradiction|]. destruct I as [<-|I].
        - exists i, ti, chain. split; [now left|tauto]. - destruct (IH I) as (i' & ti' & ch' & H1 & H2). exists i', ti', ch'. split; [now right|exact H2]. }
      destruct G as (i & ti & chain & Ii & -> & Ti & It & S & Fc). apply sub_skips. change (bn i :: chain ++ M) with ([bn i] ++ (chain ++ M)). apply sub_app; [|apply sub_app; [|exact MV]].
      + assert (J : In (bn i) Is) by (apply in_map_iff; eauto). apply in_split in J as (a & b & Eab). rewrite Eab. apply sub_skips. constructor. constructor.
      + unfold w. apply sub_filter; [eapply sub_trans; [exact S|apply sub_skip, sub_refl]|].
        eapply Forall_impl; [|exact Fc]. intros y (j & J1 & -> & J3). apply negb_true_iff. destruct (mem (bn j) Is) eqn:Me; [exfalso|reflexivity].
        apply mem_In in Me. apply in_map_iff in Me as (i' & Eb & Ii'). assert (i' = j). { rewrite Forall_forall in Fd. apply (Inj i' j (bn j)); [rewrite <- Eb; auto|exact J3]. } subst i'.
        unfold direct in Ii'. apply filter_In in Ii' as [_ Ii']. apply negb_true_iff in Ii'. assert (Tr : existsb (fun o => negb (String.eqb o j) && match get_type s o with Some t0 => mem j (implements t0) | None => false end) (implements t) = true); [|congruence].
        apply existsb_exists. exists i. unfold direct in Ii. apply filter_In in Ii as [Ii _]. split; [exact Ii|]. rewrite (implements_of _ _ Ti). apply andb_true_iff. split.
        * apply negb_true_iff. apply String.eqb_neq. intros ->. destruct ti; try discriminate. eapply HS; [exact Ti|exact J1].
        * now apply mem_In.
    - eapply Forall_impl; [|exact FM]. auto.
    - constructor; [|constructor]. unfold heads. rewrite !map_app. fold (heads ma) (heads ms) (heads mb). rewrite Hh. fold Is. apply sub_app; [exact Su|]. apply sub_app; [apply sub_refl|]. apply sub_skips. exact Sv. }
  destruct (bases_order sc' _) as [k|] eqn:Bo; [|congruence]. pose proof (declare_simple body sc' Fb) as Db. exists (dset cls (cls :: k) sc'). split; [|split; [|split]].
  - rewrite declare_all_app, E. cbn [declare_all]. rewrite declare_class, Bo. destruct (declare_all body sc'); [reflexivity|congruence].
  - intros n Hn. rewrite class_names_app, in_app_iff in Hn. cbn in Hn. rewrite dget_dset. destruct (String.eqb_spec n cls); [subst; tauto|]. apply Out. tauto.
  - intros i cl Hi. eapply known_step; eauto.
  - exact Inj.
Qed.
End Hierarchy.
