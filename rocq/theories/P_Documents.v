(** Proofs about document loading and fragment ordering. *)
From Verif Require Import Base Gql Config Documents Spec_Docs P_Base P_Gql P_Config.
From Coq Require Import Lia Permutation.

(** ** __typename *)
Lemma asks_typename_b : forall l, existsb is_typename_field l = true <-> asks_typename l.
Proof.
  intros; rewrite existsb_exists. split.
  - intros (s & H & E). destruct s; try discriminate. cbn in E. apply String.eqb_eq in E.
    now exists f.
  - intros (f & H & E). exists (SelField f). cbn. rewrite E. auto.
Qed.
Lemma is_tn_add : forall s, is_typename_field (add_typename_sel s) = is_typename_field s.
Proof. intros [[a n ar d [l|]]| |]; reflexivity. Qed.
Lemma existsb_tn_map : forall l, existsb is_typename_field (map add_typename_sel l) = existsb is_typename_field l.
Proof. induction l as [|s l IH]; cbn; [reflexivity|]. now rewrite is_tn_add, IH. Qed.
Lemma add_rec_asks : forall l, existsb is_typename_field (add_typename_recursively false l) = true.
Proof.
  intros; unfold add_typename_recursively. rewrite existsb_app, existsb_tn_map.
  destruct (existsb is_typename_field l); cbn; [reflexivity|]. reflexivity.
Qed.
Lemma add_field_sels : forall f, fn_sels (add_typename_field f) =
  match fn_sels f with Some l => Some (add_typename_recursively false l) | None => None end.
Proof.
  intros [a n ar d [l|]]; cbn; [|reflexivity]. unfold add_typename_recursively.
  now rewrite orb_false_r.
Qed.
Lemma add_rec_In : forall skip l f, In (SelField f) (add_typename_recursively skip l) ->
  f = typename_node \/ exists f0, In (SelField f0) l /\ f = add_typename_field f0.
Proof.
  intros skip l f H. unfold add_typename_recursively in H. apply in_app_iff in H as [H|H].
  - apply in_map_iff in H as (s & E & H). destruct s; cbn in E; try discriminate.
    injection E as <-. eauto.
  - destruct (existsb _ l || skip); [easy|]. destruct H as [[= <-]|[]]. now left.
Qed.
Lemma add_rec_complete : forall root ss, field_set False root ss ->
  forall skip l, root = add_typename_recursively skip l -> asks_typename ss.
Proof.
  induction 1 as [r f ss HI E|r f m ss HI E H IH|r c d m ss []]; intros skip l ->.
  - apply add_rec_In in HI as [->|(f0 & HI & ->)]; [discriminate|].
    rewrite add_field_sels in E. destruct (fn_sels f0) as [l0|]; [|discriminate].
    injection E as <-. apply asks_typename_b, add_rec_asks.
  - apply add_rec_In in HI as [->|(f0 & HI & ->)]; [discriminate|].
    rewrite add_field_sels in E. destruct (fn_sels f0) as [l0|]; [|discriminate].
    injection E as <-. eapply IH; reflexivity.
Qed.
Lemma grown_add : forall s, grown_sel s (add_typename_sel s).
Proof.
  apply sel_ind.
  - intros; constructor.
  - intros a n ar d l H. cbn. constructor.
    assert (F : Forall2 grown_sel l (map add_typename_sel l))
      by (clear -H; induction H; cbn; constructor; auto).
    destruct (existsb is_typename_field l) eqn:E.
    + rewrite app_nil_r. now constructor.
    + apply g_add; [assumption|]. rewrite <- asks_typename_b. congruence.
  - intros; constructor.
  - intros; constructor.
Qed.
Lemma grown_map : forall l, Forall2 grown_sel l (map add_typename_sel l).
Proof. induction l; cbn; constructor; auto using grown_add. Qed.
Lemma add_idem : forall s, add_typename_sel (add_typename_sel s) = add_typename_sel s.
Proof.
  apply sel_ind; try reflexivity.
  intros a n ar d l H. cbn. do 3 f_equal. rewrite map_app, existsb_app, existsb_tn_map.
  assert (M : map add_typename_sel (map add_typename_sel l) = map add_typename_sel l)
    by (clear -H; induction H as [|x l E _ IH]; cbn; [auto|now rewrite E, IH]).
  rewrite M. destruct (existsb is_typename_field l); cbn; now rewrite ?app_nil_r.
Qed.
Lemma add_rec_idem : forall skip l,
  add_typename_recursively skip (add_typename_recursively skip l) = add_typename_recursively skip l.
Proof.
  intros; unfold add_typename_recursively. rewrite map_app, existsb_app, existsb_tn_map.
  assert (M : map add_typename_sel (map add_typename_sel l) = map add_typename_sel l)
    by (induction l as [|x l IH]; cbn; [auto|now rewrite add_idem, IH]).
  rewrite M. destruct (existsb is_typename_field l), skip; cbn; now rewrite ?app_nil_r.
Qed.
Lemma typename_C05 : forall d,
  Forall2 (typename_loaded False) d (auto_add_typename_field_to_all_objects d)
  /\ auto_add_typename_field_to_all_objects (auto_add_typename_field_to_all_objects d)
     = auto_add_typename_field_to_all_objects d.
Proof.
  intros d; split.
  - induction d as [|x d IH]; cbn; constructor; [|assumption].
    destruct x as [o|f]; cbn; repeat split; auto.
    + unfold add_typename_recursively. rewrite orb_true_r, app_nil_r. apply grown_map.
    + intros ss H; eapply add_rec_complete; eauto.
    + unfold add_typename_recursively. rewrite orb_false_r.
      destruct (existsb is_typename_field (fr_sels f)) eqn:E.
      * rewrite app_nil_r. constructor. apply grown_map.
      * apply g_add; [apply grown_map|]. rewrite <- asks_typename_b; congruence.
    + apply asks_typename_b, add_rec_asks.
    + intros ss H; eapply add_rec_complete; eauto.
  - induction d as [|x d IH]; cbn; [reflexivity|]. f_equal; [|exact IH].
    destruct x as [o|f]; cbn -[add_typename_recursively]; now rewrite add_rec_idem.
Qed.

(** ** dependency computation *)
Lemma union_set_In : forall b a x, In x (union_set a b) <-> In x a \/ In x b.
Proof. intros; unfold union_set. rewrite dedup_acc_In. tauto. Qed.

Section Deps.
Variable frs : dict (list selection).

Definition dep (a b : string) : Prop := exists sels, dget a frs = Some sels /\ spread_in False sels b.
Definition unvisited (v : list string) : nat := length (filter (fun k => negb (mem k v)) (dkeys frs)).

Lemma filter_length_le : forall {A} (p q : A -> bool) l,
  (forall x, In x l -> p x = true -> q x = true) -> length (filter p l) <= length (filter q l).
Proof.
  induction l as [|x l IH]; cbn; intros H; [lia|].
  assert (length (filter p l) <= length (filter q l)) by (apply IH; auto).
  destruct (p x) eqn:E.
  - rewrite (H x (or_introl eq_refl) E). cbn; lia.
  - destruct (q x); cbn; lia.
Qed.
Lemma filter_length_lt : forall {A} (p q : A -> bool) l y,
  (forall x, In x l -> p x = true -> q x = true) -> In y l -> p y = false -> q y = true ->
  length (filter p l) < length (filter q l).
Proof.
  induction l as [|x l IH]; cbn; intros y H HI Hp Hq; [easy|].
  assert (L : length (filter p l) <= length (filter q l)) by (apply filter_length_le; auto).
  destruct HI as [->|HI].
  - rewrite Hp, Hq. cbn; lia.
  - specialize (IH y (fun x Hx => H x (or_intror Hx)) HI Hp Hq).
    destruct (p x) eqn:E; [rewrite (H x (or_introl eq_refl) E); cbn; lia|].
    destruct (q x); cbn; lia.
Qed.
Lemma unvisited_mono : forall v v', incl v v' -> unvisited v' <= unvisited v.
Proof.
  intros v v' H; apply filter_length_le; intros x _. rewrite !negb_true_iff, !mem_false. auto.
Qed.
Lemma unvisited_add : forall n v, In n (dkeys frs) -> ~ In n v -> unvisited (sadd n v) < unvisited v.
Proof.
  intros n v Hn Hv; apply filter_length_lt with (y := n); auto.
  - intros x _. rewrite !negb_true_iff, !mem_false. rewrite sadd_In. tauto.
  - rewrite negb_false_iff, mem_In, sadd_In. tauto.
  - rewrite negb_true_iff, mem_false. assumption.
Qed.

Inductive R (l : list selection) (n : string) : Prop :=
| R_here : spread_in False l n -> R l n
| R_step : forall m, spread_in False l m -> clos_trans string dep m n -> R l n.

(** the invariant of the search *)
Record post (l : list selection) (v d v' : list string) : Prop := Post {
  p_incl : incl v v';
  p_direct : forall n, spread_in False l n -> In n d;
  p_keys : forall n, In n d -> In n (dkeys frs) -> In n v';
  p_new : forall x, In x v' -> ~ In x v -> In x d /\ forall b, dep x b -> In b d;
  p_sound : forall n, In n d -> R l n }.

Lemma spread_in_nil : forall P n, ~ spread_in P [] n.
Proof. intros P n H; inversion H; easy. Qed.
Lemma spread_in_cons : forall P s l n,
  spread_in P (s :: l) n <-> spread_in P [s] n \/ spread_in P l n.
Proof.
  intros; split.
  - intros H; inversion H; subst.
    + destruct H0 as [->|H0]; [left; eapply si_here; now left|right; eapply si_here; eauto].
    + destruct H0 as [->|H0]; [left; eapply si_field; eauto; now left|right; eapply si_field; eauto].
    + destruct H1 as [->|H1]; [left; eapply si_inline; eauto; now left|right; eapply si_inline; eauto].
  - intros [H|H]; inversion H; subst.
    + destruct H0 as [->|[]]. eapply si_here; now left.
    + destruct H0 as [->|[]]. eapply si_field; eauto; now left.
    + destruct H1 as [->|[]]. eapply si_inline; eauto; now left.
    + eapply si_here; right; eassumption.
    + eapply si_field; [right; eassumption|eassumption|assumption].
    + eapply si_inline; [assumption|right; eassumption|assumption].
Qed.
Lemma R_cons : forall s l n, R (s :: l) n <-> R [s] n \/ R l n.
Proof.
  intros; split.
  - intros [H|m H C]; rewrite spread_in_cons in H.
    + destruct H; [left|right]; now constructor.
    + destruct H; [left|right]; now apply R_step with m.
  - intros [[H|m H C]|[H|m H C]]; ((constructor; rewrite spread_in_cons; tauto) ||
      (apply R_step with m; [rewrite spread_in_cons; tauto|assumption])).
Qed.

Lemma deps_list_post : forall g fuel,
  (forall l, Forall (fun s => forall v, unvisited v <= fuel ->
      exists d v', g s v = Ok (d, v') /\ post [s] v d v') l ->
   forall v, unvisited v <= fuel ->
     exists d v', deps_list g l v = Ok (d, v') /\ post l v d v').
Proof.
  intros g fuel; induction l as [|s l IH]; intros F v Hv.
  - exists [], v. split; [reflexivity|]. constructor; [apply incl_refl| | | |]; intros n H;
      [exfalso; eapply spread_in_nil; eauto|destruct H|contradiction|destruct H].
  - inversion F as [|? ? Hs Hl]; subst. cbn [deps_list].
    destruct (Hs v Hv) as (d1 & v1 & E1 & P1). rewrite E1. cbn [rbind].
    assert (Hv1 : unvisited v1 <= fuel)
      by (pose proof (unvisited_mono _ _ (p_incl _ _ _ _ P1)); lia).
    destruct (IH Hl v1 Hv1) as (d2 & v2 & E2 & P2). fold (deps_list g) in *. rewrite E2. cbn [rbind].
    eexists; eexists; split; [reflexivity|].
    destruct P1 as [I1 D1 K1 N1 S1], P2 as [I2 D2 K2 N2 S2]. constructor.
    + eapply incl_tran; eauto.
    + intros n H. rewrite union_set_In. rewrite spread_in_cons in H. destruct H; auto.
    + intros n H Hk. rewrite union_set_In in H. destruct H; auto.
    + intros x Hx Hn. destruct (in_dec string_dec x v1) as [H1|H1].
      * destruct (N1 x H1 Hn) as [A B]. split; [|intros b Hb]; rewrite union_set_In; auto.
      * destruct (N2 x Hx H1) as [A B]. split; [|intros b Hb]; rewrite union_set_In; auto.
    + intros n H. rewrite union_set_In in H. rewrite R_cons. destruct H; auto.
Qed.

Lemma si_spread : forall P n d m, spread_in P [SelSpread n d] m <-> m = n.
Proof.
  intros; split; [|intros ->; eapply si_here; now left].
  intros H; inversion H; subst; match goal with H : In _ [_] |- _ => destruct H as [H|[]] end; congruence.
Qed.
Lemma si_leaf : forall P a n ar d m, ~ spread_in P [SelField (FieldNode a n ar d None)] m.
Proof.
  intros P a n ar d m H; inversion H; subst;
    match goal with H : In _ [_] |- _ => destruct H as [H|[]] end; try discriminate.
  injection H0 as <-; discriminate.
Qed.
Lemma si_sub : forall P a n ar d l m,
  spread_in P [SelField (FieldNode a n ar d (Some l))] m <-> spread_in P l m.
Proof.
  intros; split; [|intros; eapply si_field; [now left|reflexivity|assumption]].
  intros H; inversion H; subst;
    match goal with H : In _ [_] |- _ => destruct H as [H|[]] end; try discriminate.
  injection H0 as <-. now injection H1 as <-.
Qed.
Lemma si_inl : forall P c d l m,
  spread_in P [SelInline c d l] m <-> P /\ spread_in P l m.
Proof.
  intros; split; [|intros [? ?]; eapply si_inline; [assumption|now left|assumption]].
  intros H; inversion H; subst;
    match goal with H : In _ [_] |- _ => destruct H as [H|[]] end; try discriminate.
  injection H1 as <- <- <-. auto.
Qed.
Lemma R_sub : forall a n ar d l m, R l m -> R [SelField (FieldNode a n ar d (Some l))] m.
Proof.
  intros a n ar d l m [H|q H C]; [apply R_here|apply R_step with q; [|assumption]]; now apply si_sub.
Qed.

Lemma post_leaf : forall s v, (forall m, ~ spread_in False [s] m) -> post [s] v [] v.
Proof.
  intros s v H; constructor; [apply incl_refl| | | |]; intros n Hn; try contradiction.
  exfalso; eapply H; eauto.
Qed.
Lemma post_known : forall n d v, (In n (dkeys frs) -> In n v) -> post [SelSpread n d] v [n] v.
Proof.
  intros n d v H; constructor; [apply incl_refl| | | |].
  - intros m Hm; apply si_spread in Hm; subst; now left.
  - intros m [<-|[]]; auto.
  - contradiction.
  - intros m [<-|[]]; apply R_here; now apply si_spread.
Qed.
Lemma post_sub : forall a n ar dd l v d v', post l v d v' ->
  post [SelField (FieldNode a n ar dd (Some l))] v d v'.
Proof.
  intros a n ar dd l v d v' [I D K N S]; constructor; auto using R_sub.
  intros m Hm; apply si_sub in Hm; auto.
Qed.
Lemma post_expand : forall n dd sels v d v',
  dget n frs = Some sels -> post sels (sadd n v) d v' ->
  post [SelSpread n dd] v (union_set [n] d) v'.
Proof.
  intros n dd sels v d v' E [I D K N S]. constructor.
  - intros x Hx. apply I, sadd_In; auto.
  - intros m Hm; apply si_spread in Hm; subst. apply union_set_In; left; now left.
  - intros m Hm Hmk. apply union_set_In in Hm as [[<-|[]]|Hm]; [|auto].
    apply I, sadd_In; auto.
  - intros x Hx Hnx. destruct (string_dec x n) as [->|Nx].
    + split; [apply union_set_In; left; now left|].
      intros b (s' & Es & Hb). rewrite E in Es. injection Es as <-.
      apply union_set_In; right; auto.
    + destruct (N x Hx) as [A B]; [rewrite sadd_In; tauto|].
      split; [|intros b Hb]; apply union_set_In; auto.
  - intros m Hm. apply union_set_In in Hm as [[<-|[]]|Hm];
      [apply R_here; now apply si_spread|].
    apply R_step with n; [now apply si_spread|].
    destruct (S m Hm) as [Q|q Q C].
    + apply t_step. now exists sels.
    + apply t_trans with q; [apply t_step; now exists sels|exact C].
Qed.

Lemma find_deps_post : forall fuel s v, unvisited v <= fuel ->
  exists d v', find_deps fuel frs s v = Ok (d, v') /\ post [s] v d v'.
Proof.
  induction fuel as [|fuel IHf]; intros s; pattern s; apply sel_ind; clear s;
    try (intros; eexists; eexists; split; [reflexivity|apply post_leaf];
         first [apply si_leaf|now (intros ? Q; apply si_inl in Q)]);
    try (intros a n ar dd l H v Hv;
         destruct (deps_list_post _ _ _ H v Hv) as (d & v' & E & P);
         exists d, v'; split; [exact E|now apply post_sub]).
  - intros n dd v Hv. cbn [find_deps]. destruct (dget n frs) as [sels|] eqn:E.
    + destruct (mem_spec n v) as [M|M].
      * eexists; eexists; split; [reflexivity|apply post_known; auto].
      * exfalso. assert (Hk : In n (dkeys frs))
          by (rewrite <- dmem_In; unfold dmem; now rewrite E).
        pose proof (unvisited_add n v Hk M). lia.
    + eexists; eexists; split; [reflexivity|apply post_known].
      intros Hk. now apply dget_None in E.
  - intros n dd v Hv. cbn [find_deps]. destruct (dget n frs) as [sels|] eqn:E.
    + destruct (mem_spec n v) as [M|M].
      * eexists; eexists; split; [reflexivity|apply post_known; auto].
      * assert (Hk : In n (dkeys frs)) by (rewrite <- dmem_In; unfold dmem; now rewrite E).
        pose proof (unvisited_add n v Hk M) as Hlt.
        destruct (deps_list_post (find_deps fuel frs) fuel sels) with (v := sadd n v)
          as (d & v' & Ed & P); [apply Forall_forall; intros; now apply IHf|lia|].
        rewrite Ed. cbn [rbind]. eexists; eexists; split; [reflexivity|].
        eapply post_expand; eauto.
    + eexists; eexists; split; [reflexivity|apply post_known].
      intros Hk. now apply dget_None in E.
Qed.

Lemma deps_exact : forall sels, exists d v',
  deps_list (find_deps (length frs) frs) sels [] = Ok (d, v') /\ forall n, In n d <-> R sels n.
Proof.
  intros sels.
  destruct (deps_list_post (find_deps (length frs) frs) (length frs) sels) with (v := @nil string)
    as (d & v' & E & P).
  - apply Forall_forall; intros; now apply find_deps_post.
  - unfold unvisited, dkeys. etransitivity; [apply filter_length_le with (q := fun _ => true)|]; auto.
    rewrite <- (map_length fst frs). clear. induction (map fst frs); cbn; lia.
  - exists d, v'; split; [exact E|]. destruct P as [I D K N S].
    assert (C : forall x y, In x d -> clos_trans string dep x y -> In y d).
    { intros x y Hx Hc. induction Hc as [x y Hd|x y z _ IH1 _ IH2]; [|auto].
      destruct Hd as (s' & Es & Hb). assert (Hk : In x (dkeys frs))
        by (rewrite <- dmem_In; unfold dmem; now rewrite Es).
      destruct (N x (K x Hx Hk)) as [_ B]; [easy|]. apply B. now exists s'. }
    intros n; split; [apply S|]. intros [H|m H Hc]; [auto|]. eapply C; eauto.
Qed.
End Deps.

(** ** parse_documents *)
Lemma parse_documents_perm : forall glob glob' read parse validate c g,
  (forall p, Permutation (glob p) (glob' p)) ->
  parse_documents glob read parse validate c g = parse_documents glob' read parse validate c g.
Proof.
  intros glob glob' read parse validate c g H. unfold parse_documents.
  destruct (negb (truthy g)); [reflexivity|]. cbn zeta. now rewrite (str_sort_Permutation _ _ (H _)).
Qed.
Lemma strip_app : forall a b k, strip_comments k (a +s+ nl +s+ b) = strip_comments k (a +s+ nl) +s+ strip_comments false b.
Proof.
  induction a as [|c a IH]; intros b k.
  - destruct k; reflexivity.
  - cbn [strip_comments String.append].
    destruct (Ascii.eqb c newline); cbn [strip_comments String.append]; [now rewrite IH|].
    destruct k; [apply IH|]. destruct (Ascii.eqb c "#"); [apply IH|].
    cbn [strip_comments String.append]. now rewrite IH.
Qed.
Lemma join_cons : forall x l, join "" (x :: l) = x +s+ join "" l.
Proof. intros x [|y l]; cbn; [now rewrite app_nil_r_s|reflexivity]. Qed.
Lemma files_concat : forall files, Forall (fun f => exists a, f = a +s+ nl) files ->
  strip_comments false (join "" files) = join "" (map (strip_comments false) files).
Proof.
  induction files as [|f files IH]; intros H; [reflexivity|].
  inversion H as [|? ? (a & ->) H']; subst. cbn [map]. rewrite !join_cons.
  rewrite app_assoc_s, strip_app, IH by assumption. reflexivity.
Qed.
Theorem documents_validated : forall glob read parse validate c g d,
  parse_documents glob read parse validate c g = Ok d ->
  exists text nodes rules, parse text = Ok nodes /\ d = auto_add_typename_field_to_all_objects nodes
  /\ validate rules nodes = []
  /\ (forall rule, In rule rules <-> In rule specified_rules_map /\ ~ In rule (c_omited_document_rules c))
  /\ exists keep, rules = filter keep specified_rules_map.
Proof.
  intros glob read parse validate c g d H. unfold parse_documents in H. destruct (negb (truthy g)); [discriminate|].
   destruct (rmap read _) as [contents|]; [|discriminate]. cbn [rbind] in H.
  destruct (String.eqb _ _); [discriminate|]. destruct (parse _) as [nodes|] eqn:EP; [|discriminate]. cbn [rbind] in H.
  destruct (validate (get_document_rules c) nodes) eqn:EV; [|discriminate]. injection H as <-.
  destruct (rules_C43 c) as (H1 & H2 & _). eexists _, nodes, _. split; [exact EP|]. split; [reflexivity|]. split; [exact EV|]. auto.
Qed.
Theorem documents_rejected : forall glob read parse validate c g d,
  parse_documents glob read parse validate c g = Ok d ->
  forall validate', (forall rules nodes, (forall rule, In rule rules <-> In rule specified_rules_map /\ ~ In rule (c_omited_document_rules c)) ->
     validate' rules nodes <> []) ->
  exists msg, parse_documents glob read parse validate' c g = Err (Exn InvalidDocumentsC msg).
Proof.
  intros glob read parse validate c g d H validate' HV. unfold parse_documents in *. destruct (negb (truthy g)); [discriminate|].
   destruct (rmap read _) as [contents|]; [|discriminate]. cbn [rbind] in *.
  destruct (String.eqb _ _); [discriminate|]. destruct (parse _) as [nodes|] eqn:EP; [|discriminate]. cbn [rbind] in *.
  assert (N := HV (get_document_rules c) nodes (proj1 (rules_C43 c))).
  destruct (validate' (get_document_rules c) nodes); [contradiction|]. eexists. reflexivity.
Qed.
