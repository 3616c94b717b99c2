(** The base classes of the classes generated for selections. *)
From Verif Require Import Base PyAst Gql Config Stylers Registry Utils Documents Inline Recurse Fragments Operations Objects Spec_Fields Spec_Mro Spec_Mro2
  P_Base P_Gql P_Monad P_Recurse P_Post P_Fields P_Inputs P_InlineProps P_Modelled P_Modelled2 P_Mro P_Mro2 P_Mro3.

(** ** Selection sets inside *)
Lemma occurs_trans : forall s n l m k m' k', occurs s n l m k -> occurs s m k m' k' -> occurs s n l m' k'.
Proof. intros s n l m k m' k' H1 H2. induction H2; [exact H1|eapply occurs_field; eassumption|eapply occurs_inline; eassumption]. Qed.
Lemma pairs_sub : forall R l k, sub l k -> ForallOrdPairs R k -> ForallOrdPairs R l.
Proof.
  intros R l k S. induction S as [k|x l k S IH|x l k S IH]; intros F; [constructor| |inversion F; auto].
  inversion F; subst. constructor; [|auto]. rewrite Forall_forall in *. intros y Hy. apply H1. eapply sub_in; eassumption.
Qed.
Lemma pairs_app : forall (R : string -> string -> Prop) a b, ForallOrdPairs R a -> ForallOrdPairs R b -> (forall x y, In x a -> In y b -> R x y) -> ForallOrdPairs R (a ++ b).
Proof.
  intros R a b Ha Hb H. induction Ha as [|x a F Ha IH]; [exact Hb|]. cbn. constructor.
  - apply Forall_app. split; [exact F|]. apply Forall_forall. intros y Hy. apply H; [now left|exact Hy].
  - apply IH. intros z y Hz. apply H. now right.
Qed.
Lemma pairs_rev : forall (R : string -> string -> Prop) l, (forall x y, R x y -> R y x) -> ForallOrdPairs R l -> ForallOrdPairs R (rev l).
Proof.
  intros R l Sy F. induction F as [|x l Fx F IH]; [constructor|]. cbn. apply pairs_app; [exact IH|repeat constructor|].
  intros y z Hy [<-|[]]. apply in_rev in Hy. rewrite Forall_forall in Fx. auto.
Qed.
Lemma apart_sym : forall d f g, apart d f g -> apart d g f.
Proof. intros d f g H h A B. exact (H h B A). Qed.
Lemma spreads_app : forall a b, spreads (a ++ b) = spreads a ++ spreads b.
Proof. intros. apply flat_map_app. Qed.
Lemma spreads_in : forall f ds l, In (SelSpread f ds) l -> In f (spreads l).
Proof. intros f ds l H. apply in_flat_map. eexists. split; [exact H|now left]. Qed.

Definition gsame (r r' : reg) : Prop := r_frags r' = r_frags r /\ r_iffrag r' = r_iffrag r /\ r_fragtypes r' = r_fragtypes r /\ r_ufrag r' = r_ufrag r.
Lemma gsame_refl : forall r, gsame r r. Proof. repeat split. Qed.
Lemma gsame_trans : forall a b d, gsame a b -> gsame b d -> gsame a d.
Proof. unfold gsame. intuition congruence. Qed.
Definition Kg := [KImp; KBui; KFwd; KSin; KQry; KSub; KMut].
Lemma evolve_gsame : forall st r r', evolve st Kg r r' -> gsame r r'.
Proof.
  intros st r r' H. repeat split.
  - eapply frame_frags; [|exact H]. nosca.
  - eapply frame_iffrag; [|exact H]. nosca.
  - eapply frame_fragtypes; [|exact H]. nosca.
  - eapply frame_ufrag; [|exact H]. nosca.
Qed.

Section Walk.
Variable c : gconfig.
Variable st : list styler.
Variable s : schema.
Variable d : document.
Variable sc0 : scope.
Variable M : list string.
Variable G : string -> string -> Prop.
Variable Ban : string -> Prop.
Variable r0 : reg.
Notation U := (U sc0 M).
Notation emits := (emits d sc0 M G).
Notation base_ok := (base_ok d sc0 M G).
Hypothesis HK : NoDup (map fst (s_types s)).
Hypothesis HA : c_additional_bases c = [].
Hypothesis HO : U (names_of (c_object_bases c)).
Hypothesis HI : U (names_of (match c_interface_bases c with Some (b :: bs) => b :: bs | _ => c_object_bases c end)).
Hypothesis GI : forall f impls, ~ Ban f -> dget f (r_iffrag r0) = Some impls -> NoDup (dkeys impls) /\ forall i k, In (i, k) impls -> G f k.
Hypothesis GE : forall f, dget f (r_iffrag r0) <> None -> exists x, In (DFrag x) d /\ fr_name x = f /\ is_iface s (fr_on x) = true.
Hypothesis GX : forall f x, dget f (r_fragtypes r0) = Some x -> on_types d (String.eqb x) [f].
Hypothesis GO : forall f k, ~ Ban f -> dget f (r_frags r0) = Some k -> dget f (r_iffrag r0) = None -> on_types d (fun n => negb (is_union s n)) [f] -> G f k.
Hypothesis GO' : forall f k, ~ Ban f -> dget f (r_frags r0) = Some k -> on_types d (is_object s) [f] -> G f k.
Hypothesis GU : forall f impls, ~ Ban f -> dget f (r_ufrag r0) = Some impls -> NoDup (dkeys impls) /\ forall i k, In (i, k) impls -> G f k.

Definition pg {A} (Q : A -> Prop) (m : Registry.M A) : Prop := forall r a r', gsame r0 r -> m r = (Ok a, r') -> gsame r0 r' /\ Q a.
Lemma pg_ret : forall {A} (Q : A -> Prop) a, Q a -> pg Q (ret a).
Proof. intros A Q a H r b r' S E. apply ret_ok in E as [-> ->]. auto. Qed.
Lemma pg_raise : forall {A} (Q : A -> Prop) e msg, pg Q (raise e msg).
Proof. intros A Q e msg r a r' _ [=]. Qed.
Lemma pg_bind : forall {A B} (R : A -> Prop) (Q : B -> Prop) (m : Registry.M A) (k : A -> Registry.M B), pg R m -> (forall a, R a -> pg Q (k a)) -> pg Q (bind m k).
Proof. intros A B R Q m k Hm Hk r b r' S H. apply bind_ok in H as (a & r1 & H1 & H). apply Hm in H1 as [S1 Ra]; [|exact S]. exact (Hk a Ra _ _ _ S1 H). Qed.
Lemma pg_ev : forall {A} (Q : A -> Prop) (m : Registry.M A), ev st Kg m -> post Q m -> pg Q m.
Proof. intros A Q m He Hp r a r' S E. split; [|eapply Hp; exact E]. eapply gsame_trans; [exact S|]. eapply evolve_gsame. eapply ev_ok; eassumption. Qed.
Lemma pg_skip : forall {A B} (Q : B -> Prop) (m : Registry.M A) (k : A -> Registry.M B), ev st Kg m -> (forall a, pg Q (k a)) -> pg Q (bind m k).
Proof. intros A B Q m k He Hk. eapply pg_bind; [apply (pg_ev (fun _ => True)); [exact He|intros ? ? ? _; exact I]|]. auto. Qed.
Lemma pg_opt : forall {A B} (Q : B -> Prop) (o : option A) e msg (k : A -> Registry.M B), (forall a, o = Some a -> pg Q (k a)) -> pg Q (bind (from_opt o e msg) k).
Proof. intros A B Q o e msg k Hk r b r' S H. apply bind_ok in H as (a & r1 & H1 & H). apply from_opt_ok in H1 as [E ->]. exact (Hk a E _ _ _ S H). Qed.
Lemma pg_gets : forall {A B} (Q : B -> Prop) (g : reg -> A) (k : A -> Registry.M B), (forall r, gsame r0 r -> pg Q (k (g r))) -> pg Q (bind (gets g) k).
Proof. intros A B Q g k Hk r b r' S H. apply bind_ok in H as (a & r1 & H1 & H). cbn in H1. injection H1 as <- <-. exact (Hk r S _ _ _ S H). Qed.
Lemma pg_mmap : forall {A B} (Q : A -> B -> Prop) (f : A -> Registry.M B) l, (forall x, In x l -> pg (Q x) (f x)) -> pg (fun ys => Forall2 Q l ys) (mmap f l).
Proof.
  intros A B Q f l H r ys r' S E. eapply (mmap_inv _ (gsame r0) Q) in E; [exact E|exact S|]. intros x ra y rb Hx Sa Hr. exact (H x Hx _ _ _ Sa Hr).
Qed.
Lemma pg_mfold : forall {A S} (Q : list A -> S -> Prop) (f : S -> A -> Registry.M S) l a, Q [] a ->
  (forall pre x post a, l = pre ++ x :: post -> Q pre a -> pg (Q (pre ++ [x])) (f a x)) -> pg (Q l) (mfold f l a).
Proof.
  intros A S Q f l a H0 H r b r' Sr E. eapply (mfold_ok _ (fun pre b r => gsame r0 r /\ Q pre b)) in E; [exact E|auto|].
  intros pre x post s1 r1 s2 r2 El [S1 H1] Hx. exact (H pre x post s1 El H1 _ _ _ S1 Hx).
Qed.
Lemma pg_weaken : forall {A} (Q R : A -> Prop) m, pg Q m -> (forall a, Q a -> R a) -> pg R m.
Proof. intros A Q R m H HR r a r' S E. destruct (H r a r' S E). auto. Qed.
Lemma pg_walk : forall {A} (Q : list selection -> A -> Prop) (item : A -> selection -> Registry.M A) sels a, Q [] a ->
  (forall l pre x post a, sels = Some l -> l = pre ++ x :: post -> is_typename_field x = true -> Q pre a -> Q (pre ++ [x]) a) ->
  (forall l pre x post a, sels = Some l -> l = pre ++ x :: post -> is_typename_field x = false -> Q pre a -> pg (Q (pre ++ [x])) (item a x)) ->
  pg (Q (match sels with Some l => l | None => [] end)) (walk item sels a).
Proof.
  intros A Q item [l|] a H0 Ht H; [|now apply pg_ret]. unfold walk. apply pg_mfold; [exact H0|]. intros pre x post b El Hb.
  destruct (is_typename_field x) eqn:T; [apply pg_ret; eapply Ht; eauto|]. eapply H; eauto.
Qed.

(** ** pieces *)
Ltac kg := apply (ev_incl st Ksel); [incl_tac|].
Definition silents (l : list stmt) : Prop := Forall silent l.
Lemma pg_typename : forall n, pg silent (generate_typename_field c n).
Proof. intros n. apply pg_ev; [ev_tac|]. intros r a r' H. unfold generate_typename_field in H. minv. exact I. Qed.
Lemma pg_generic_typename : pg silent (generate_generic_typename_field c).
Proof. apply pg_ev; [ev_tac|]. intros r a r' H. unfold generate_generic_typename_field in H. minv. exact I. Qed.
Lemma pg_config : forall k t, pg (Forall simple) (generate_pydantic_config k c t).
Proof. intros k t. apply pg_ev; [ev_tac|]. intros r a r' H. eapply config_simple; exact H. Qed.
Lemma pg_additional : forall n, pg (fun a => a = []) (get_additional_bases_for_type c n).
Proof. intros n. apply pg_ev; [ev_tac|]. intros r a r' H. apply additional_bases_spec in H. rewrite HA in H. exact H. Qed.
Lemma pg_import_bases : forall l, pg (fun a => a = names_of l) (import_bases l).
Proof. intros l. apply pg_ev; [ev_tac|]. intros r a r' H. unfold import_bases in H. apply bind_ok in H as (u & r1 & _ & H). now apply ret_ok in H as [-> _]. Qed.
Lemma pg_interface_bases : pg U (get_interface_bases c).
Proof. unfold get_interface_bases. eapply pg_weaken with (Q := fun a => a = names_of (match c_interface_bases c with Some (b :: bs) => b :: bs | _ => c_object_bases c end)); [|intros a ->; exact HI]. destruct (c_interface_bases c) as [[|b bs]|]; apply pg_import_bases. Qed.
Lemma pg_statements : forall k fd a, pg silents (field_statements c st k fd a).
Proof.
  intros k fd a. apply pg_ev; [apply (ev_incl st Ksel); [incl_tac|apply ev_field_statements]|]. intros r l r' H. unfold field_statements in H. cbn zeta in H. apply bind_ok in H as (a' & r1 & H1 & H). apply bind_ok in H as (u & r2 & H2 & H). apply ret_ok in H as [-> ->].
  constructor; [exact I|]. destruct (compose_field_documentation _ _ _ _); repeat constructor.
Qed.
Lemma pg_inherit : forall f, pg (fun k => dget f (r_frags r0) = Some k) (inherit_fragment f).
Proof. intros f. unfold inherit_fragment. apply pg_gets. intros r (E & _). rewrite E. intros ra a rb S H. apply from_opt_ok in H as [H ->]. auto. Qed.

(** ** selections *)
Definition fits (m : string) (k : list selection) : Prop := set_fits s d m k /\ forall f, In f (spreads k) -> ~ Ban f.
Definition below (n : string) (sels : option (list selection)) : Prop := forall l, sels = Some l -> forall m k, occurs s n l m k -> fits m k.
Lemma below_field : forall n l g fd, below n (Some l) -> In (SelField g) l -> get_field_def s n (fn_name g) = Some fd -> below (gty_name (fd_type fd)) (fn_sels g).
Proof.
  intros n l [a f ar ds sels] fd H Hg Hf l' E m k O. cbn in *. subst sels. apply (H l eq_refl). eapply occurs_trans; [|exact O]. eapply occurs_field; [apply occurs_here|exact Hg|exact Hf].
Qed.
Lemma below_inline : forall n l i ds k, below n (Some l) -> In (SelInline (Some i) ds k) l -> below i (Some k).
Proof. intros n l i ds k H Hg l' [= <-] m k' O. apply (H l eq_refl). eapply occurs_trans; [|exact O]. eapply occurs_inline; [apply occurs_here|exact Hg]. Qed.
Lemma below_here : forall n l, below n (Some l) -> fits n l.
Proof. intros n l H. apply (H l eq_refl). apply occurs_here. Qed.
Definition Qg (tfn : typer) (g : fieldnode) : Prop := forall parent fd, below (gty_name (fd_type fd)) (fn_sels g) ->
  pg (fun res => emits (fst res) /\ silents (snd res)) (tfn g parent fd).
(** classes of the fragments spread in [pre], in order *)
Definition spread_classes (pre : list selection) (ks : list string) : Prop := Forall2 G (spreads pre) ks.
Lemma field_def : forall n t fs f fd, get_type s n = Some t -> Gql.type_fields t = Some fs -> String.eqb f "__typename" = false -> dget f fs = Some fd -> get_field_def s n f = Some fd.
Proof. intros n t fs f fd H1 H2 H3 H4. unfold get_field_def. now rewrite H3, H1, H2. Qed.
Definition acc_ok (pre : list selection) (acc : list stmt * list string * list stmt) : Prop :=
  emits (fst (fst acc)) /\ spread_classes pre (snd (fst acc)) /\ silents (snd acc).
Lemma spread_classes_skip : forall pre x ks, (forall f ds, x <> SelSpread f ds) -> spread_classes pre ks -> spread_classes (pre ++ [x]) ks.
Proof. intros pre x ks H F. unfold spread_classes. rewrite spreads_app. destruct x as [g|f ds|cond ds l]; [| |]; cbn; rewrite ?app_nil_r; try exact F. exfalso. eapply H. reflexivity. Qed.
Lemma spread_classes_add : forall pre f ds ks k, G f k -> spread_classes pre ks -> spread_classes (pre ++ [SelSpread f ds]) (ks ++ [k]).
Proof. intros pre f ds ks k H F. unfold spread_classes. rewrite spreads_app. apply Forall2_app; [exact F|]. repeat constructor. exact H. Qed.
Lemma silents_app : forall a b, silents a -> silents b -> silents (a ++ b).
Proof. intros. now apply Forall_app. Qed.

Lemma pg_inline_item : forall tfn cls on sub pre x post acc, (forall g, In (SelField g) sub -> Qg tfn g) -> below on (Some sub) -> on_types d (is_object s) (spreads sub) ->
  sub = pre ++ x :: post -> acc_ok pre acc -> pg (acc_ok (pre ++ [x])) (inline_item s tfn cls on acc x).
Proof.
  intros tfn cls on sub pre x post [[a b] e] HT HB HS El (A1 & A2 & A3). cbn [fst snd] in *. assert (Hx : In x sub) by (rewrite El; apply in_elt).
  destruct x as [g|f ds|cond ds l]; cbn [inline_item].
  - destruct (String.eqb (fn_name g) "__typename") eqn:Et; [apply pg_ret; repeat split; auto; apply spread_classes_skip; [discriminate|assumption]|].
    destruct (get_type s on) as [[]|] eqn:Eo; try apply pg_raise. apply pg_opt. intros fd Hfd. eapply pg_bind.
    + apply HT; [exact Hx|]. eapply below_field; [exact HB|exact Hx|]. eapply field_def; [exact Eo|reflexivity|exact Et|exact Hfd].
    + intros res [R1 R2]. apply pg_ret. split; [now apply emits_app|]. split; [apply spread_classes_skip; [discriminate|assumption]|now apply silents_app].
  - apply pg_skip; [ev_tac|]. intros i. destruct i; [apply pg_raise|]. eapply pg_bind; [apply pg_inherit|]. intros k Hk. apply pg_ret.
    split; [exact A1|]. split; [|exact A3]. apply spread_classes_add; [|exact A2]. apply GO'; [apply (below_here _ _ HB); eapply spreads_in; exact Hx|exact Hk|].
    intros y Hy [E|[]]. apply (HS y Hy). rewrite <- E. eapply spreads_in; exact Hx.
  - apply pg_ret. repeat split; auto. apply spread_classes_skip; [discriminate|assumption].
Qed.
Lemma base_ok_spreads : forall S pre ks fs, incl fs S -> all_apart d fs -> Forall2 G fs ks -> base_ok S pre (map EName ks ++ names_of (c_object_bases c)).
Proof. intros S pre ks fs I A F. exists fs, ks, (names_of (c_object_bases c)). repeat split; auto. Qed.
Lemma emits_class : forall l n bases body S, emits l -> base_ok S l bases -> body_ok sc0 body -> emits (l ++ [SClass n bases body []]).
Proof. intros l n bases body S H Hb Ho. apply emits_cons_snoc; [exact H|]. split; [exact Ho|]. right. exists S. exact Hb. Qed.
Lemma body_plain : forall a b, silents a -> Forall simple b -> body_ok sc0 (a ++ b).
Proof. intros a b Ha Hb. exists a, [], b. repeat split; auto. Qed.
Lemma pg_union_item : forall tfn parent n l pre x post acc, all_deep (Qg tfn) (Some l) -> below n (Some l) -> is_union s n = true -> l = pre ++ x :: post ->
  emits (fst acc) -> pg (fun acc => emits (fst acc)) (union_item c s tfn parent acc x).
Proof.
  intros tfn parent n l pre x post [a b] HT HB HU El Ha. cbn [fst] in *. assert (Hx : In x l) by (rewrite El; apply in_elt). pose proof (HT l x eq_refl Hx) as HD.
  destruct x as [g|f ds|cond ds m]; cbn [union_item].
  - now apply pg_ret.
  - apply pg_skip; [ev_tac|]. intros k. now apply pg_ret.
  - apply pg_opt. intros on ->. cbn zeta. cbn in HD. destruct (below_here _ _ HB) as [(_ & _ & H3) _]. destruct (H3 HU _ _ _ Hx) as [HS HP].
    pose proof (below_inline _ _ _ _ _ HB Hx) as HB'. eapply (pg_bind (acc_ok m)).
    { apply pg_mfold; [split; [apply emits_nil|split; constructor]|]. intros pre' y post' acc El' HA'. eapply pg_inline_item; eassumption. }
    intros [[nested bases] fields] (A1 & A2 & A3). cbn [fst snd] in *. eapply (pg_bind silents).
    { destruct bases; [|now apply pg_ret]. eapply pg_bind; [apply pg_typename|]. intros t Ht. apply pg_ret. now constructor. }
    intros body Hb. eapply (pg_bind (fun add => add = map EName bases)).
    { destruct bases; [apply pg_additional|now apply pg_ret]. }
    intros add ->. eapply pg_bind; [apply pg_config|]. intros cfg Hc. apply pg_ret. cbn [fst]. apply emits_app; [exact Ha|].
    eapply emits_class; [exact A1|eapply base_ok_spreads; [apply incl_refl|exact HP|exact A2]|].
    pose proof (body_plain _ _ Hb Hc) as HBP. destruct (body ++ cfg); [|exact HBP]. exists [SPass], [], []. repeat split; auto. repeat constructor.
Qed.
Lemma pg_union : forall tfn parent n sels o, all_deep (Qg tfn) sels -> below n sels -> is_union s n = true ->
  pg (fun res => emits (fst res)) (union_annotation c s tfn parent sels o).
Proof.
  intros tfn parent n sels o HT HB HU. unfold union_annotation. eapply pg_bind.
  - apply (pg_walk (fun _ acc => emits (fst acc))); [apply emits_nil|auto|]. intros l pre x post a -> El _ Ha. eapply pg_union_item; eassumption.
  - intros [classes names] H. cbn [fst] in H. destruct names as [|k [|k' names]]; [apply pg_raise|now apply pg_ret|]. apply pg_skip; [ev_tac|]. intros _.
    apply pg_skip; [kg; apply ev_optional_if; ev_tac|]. intros e. now apply pg_ret.
Qed.

(** ** interfaces *)
Lemma fold_dextend_one : forall (m : dict string) b i, NoDup (dkeys m) ->
  dget_list i (fold_left (fun b kv => dextend (fst kv) [snd kv] b) m b) = dget_list i b ++ match dget i m with Some k => [k] | None => [] end.
Proof.
  induction m as [|[j k] m IH]; intros b i N; cbn [fold_left]; [cbn; now rewrite app_nil_r|]. inversion N; subst. rewrite IH by assumption. rewrite dget_list_dextend. cbn [fst snd dget].
  destruct (String.eqb_spec i j) as [->|Ne]; [|reflexivity]. rewrite <- app_assoc. destruct (dget j m) eqn:D; [|reflexivity]. exfalso. apply H1. apply dget_Some_In in D. apply in_map_iff. exists (j, s0). auto.
Qed.
Definition one_more (f : string) (b b' : dict (list string)) : Prop :=
  forall i, is_object s i = true -> dget_list i b' = dget_list i b \/ exists k, G f k /\ dget_list i b' = dget_list i b ++ [k].
Lemma object_not_union : forall n, is_object s n = true -> is_union s n = false.
Proof. intros n. unfold is_object, is_union. destruct (get_type s n) as [[]|]; congruence. Qed.
Lemma pg_spread_bases : forall f b, ~ Ban f -> pg (one_more f b) (spread_bases f b).
Proof.
  intros f b NB. unfold spread_bases. apply pg_gets. intros r (E1 & E2 & E3 & E4). rewrite E2. destruct (dget f (r_iffrag r0)) as [impls|] eqn:D.
  - apply pg_ret. intros i _. destruct (GI f impls NB D) as [N Gk]. rewrite fold_dextend_one by exact N. destruct (dget i impls) as [k|] eqn:Di; [right|left; now rewrite app_nil_r].
    exists k. split; [|reflexivity]. apply (Gk i). now apply dget_Some_In.
  - unfold get_fragment_type. eapply (pg_bind (fun x => dget f (r_fragtypes r0) = Some x)).
    + apply pg_gets. intros r2 (_ & _ & E & _). rewrite E. intros ra a rb S H. apply from_opt_ok in H as [H ->]. auto.
    + intros x Hx. eapply pg_bind; [apply pg_inherit|]. intros k Hk. apply pg_ret. intros i Hi. rewrite dget_list_dextend. destruct (String.eqb_spec i x) as [->|Ne]; [right|now left].
      exists k. split; [|reflexivity]. apply GO; [exact NB|exact Hk|exact D|]. intros y Hy Hn. pose proof (GX _ _ Hx y Hy Hn) as Ey. apply String.eqb_eq in Ey. rewrite <- Ey. now rewrite object_not_union.
Qed.
Definition parts_ok (pre : list selection) (p : iparts) : Prop :=
  emits (ip_classes p) /\ silents (ip_fields p) /\ (forall i, silents (dget_list i (ip_inline p)))
  /\ forall i, is_object s i = true -> exists fs, sub fs (spreads pre) /\ Forall2 G fs (dget_list i (ip_bases p)).
Lemma sub_snoc : forall fs l f, sub fs l -> sub (fs ++ [f]) (l ++ [f]).
Proof. intros fs l f H. apply sub_app; [exact H|apply sub_refl]. Qed.
Lemma sub_more : forall fs l k, sub fs l -> sub fs (l ++ k).
Proof. intros fs l k H. rewrite <- (app_nil_r fs). apply sub_app; [exact H|constructor]. Qed.
Lemma bases_more : forall pre f ds b b', one_more f b b' -> (forall i, is_object s i = true -> exists fs, sub fs (spreads pre) /\ Forall2 G fs (dget_list i b)) ->
  forall i, is_object s i = true -> exists fs, sub fs (spreads (pre ++ [SelSpread f ds])) /\ Forall2 G fs (dget_list i b').
Proof.
  intros pre f ds b b' H HB i Hi. destruct (HB i Hi) as (fs & S & F). rewrite spreads_app. cbn. destruct (H i Hi) as [->|(k & Hk & ->)].
  - exists fs. split; [now apply sub_more|exact F].
  - exists (fs ++ [f]). split; [now apply sub_snoc|]. apply Forall2_app; [exact F|repeat constructor; exact Hk].
Qed.
Lemma bases_skip : forall pre x b, (forall i, is_object s i = true -> exists fs, sub fs (spreads pre) /\ Forall2 G fs (dget_list i b)) ->
  forall i, is_object s i = true -> exists fs, sub fs (spreads (pre ++ [x])) /\ Forall2 G fs (dget_list i b).
Proof. intros pre x b HB i Hi. destruct (HB i Hi) as (fs & S & F). exists fs. split; [|exact F]. rewrite spreads_app. now apply sub_more. Qed.
Lemma pg_inline_fields : forall tfn strict parent on k, (forall g, In (SelField g) k -> Qg tfn g) -> below on (Some k) ->
  pg (fun r => emits (fst r) /\ silents (snd r)) (inline_fields s tfn strict parent on k).
Proof.
  intros tfn strict parent on k HT HB. unfold inline_fields. apply (pg_mfold (fun _ r => emits (fst r) /\ silents (snd r))); [split; [apply emits_nil|constructor]|].
  intros pre x post acc El [A1 A2]. assert (Hx : In x k) by (rewrite El; apply in_elt). destruct x as [g|f ds|cond ds l]; try (apply pg_ret; split; assumption).
  destruct (String.eqb (fn_name g) "__typename") eqn:Et; [apply pg_ret; split; assumption|]. apply pg_opt. intros fd Hfd. eapply pg_bind; [apply HT; [exact Hx|]; eapply below_field; eassumption|].
  intros res [R1 R2]. apply pg_ret. split; [now apply emits_app|now apply silents_app].
Qed.
Lemma dget_list_silents : forall k l b, silents l -> (forall i, silents (dget_list i b)) -> forall i, silents (dget_list i (dextend k l b)).
Proof. intros k l b Hl Hb i. rewrite dget_list_dextend. destruct (String.eqb i k); [apply silents_app; auto|auto]. Qed.
Lemma pg_iface_item : forall tfn strict n t fields parent l pre x post p, all_deep (Qg tfn) (Some l) -> below n (Some l) -> get_type s n = Some t -> Gql.type_fields t = Some fields ->
  l = pre ++ x :: post -> is_typename_field x = false -> parts_ok pre p -> pg (parts_ok (pre ++ [x])) (iface_item s tfn strict fields parent p x).
Proof.
  intros tfn strict n t fields parent l pre x post p HT HB Hn Hf El Ht (P1 & P2 & P3 & P4). assert (Hx : In x l) by (rewrite El; apply in_elt). pose proof (HT l x eq_refl Hx) as HD.
  destruct x as [g|f ds|cond ds m]; cbn [iface_item].
  - apply pg_opt. intros fd Hfd. eapply pg_bind; [apply HD; eapply below_field; [exact HB|exact Hx|]; eapply field_def; eauto|].
    intros res [R1 R2]. apply pg_ret. split; [now apply emits_app|]. split; [now apply silents_app|]. split; [exact P3|now apply bases_skip].
  - eapply pg_bind; [apply pg_spread_bases; apply (below_here _ _ HB); eapply spreads_in; exact Hx|]. intros b Hb. apply pg_ret. repeat split; auto. cbn [ip_bases]. eapply bases_more; eassumption.
  - apply pg_opt. intros on ->. apply pg_skip; [ev_tac|]. intros _. eapply pg_bind; [apply pg_inline_fields; [exact HD|eapply below_inline; eassumption]|].
    intros res [R1 R2]. apply pg_ret. split; [now apply emits_app|]. split; [exact P2|]. split; [now apply dget_list_silents|now apply bases_skip].
Qed.
Lemma in_implementations : forall n i, In i (implementations s n) -> is_object s i = true.
Proof.
  intros n i H. unfold implementations in H. apply in_flat_map in H as ([k t] & Hk & Hi). cbn in Hi. destruct t; try contradiction. destruct (mem n ifaces); [|contradiction]. destruct Hi as [<-|[]].
  unfold is_object, get_type. rewrite (dget_In_NoDup _ _ _ HK Hk). reflexivity.
Qed.
(** the class for one implementing type: inherits from its fragments and the mother class *)
Definition impl_class (S : list string) (m cls : string) (x : stmt) : Prop :=
  exists fs ks ib body, x = SClass cls (map EName ks ++ EName m :: ib) body [] /\ incl fs S /\ all_apart d fs /\ Forall2 G fs ks /\ U ib /\ body_ok sc0 body.
Lemma pg_implementing : forall m cls l p i, is_object s i = true -> parts_ok l p -> all_apart d (spreads l) ->
  pg (impl_class (spreads l) m cls) (implementing_class c s m cls p i).
Proof.
  intros m cls l p i Hi (_ & _ & P3 & P4) HP. unfold implementing_class. eapply pg_bind; [apply pg_additional|]. intros add ->. eapply pg_bind; [apply pg_interface_bases|]. intros ib Hib.
  eapply pg_bind; [apply pg_typename|]. intros t Ht. apply pg_ret. destruct (P4 i Hi) as (fs & S & F). exists fs, (dget_list i (ip_bases p)), ib. eexists. split; [reflexivity|].
  split; [intros f Hf; eapply sub_in; eassumption|]. split; [eapply pairs_sub; eassumption|]. split; [exact F|]. split; [exact Hib|]. rewrite <- app_nil_r. apply body_plain; [|constructor].
  cbn [app]. constructor; [exact I|]. constructor; [exact Ht|apply P3].
Qed.
Lemma impl_base_ok : forall S m cls x pre ib body, impl_class S m cls x -> U ib -> In (SClass m ib body []) pre ->
  stmt_ok d sc0 M G pre x /\ exists bases b, x = SClass cls bases b [] /\ base_ok S pre bases.
Proof.
  intros S m cls x pre ib body (fs & ks & ib' & b & -> & I & A & F & HU & Hb) HU' Hin.
  assert (B : base_ok S pre (map EName ks ++ EName m :: ib')).
  { exists fs, ks, ib'. split; [exact I|]. split; [exact A|]. split; [exact F|]. right. exists m, ib, body. repeat split; auto. }
  split; [|eauto]. split; [exact Hb|right; eauto].
Qed.
Lemma emits_impls : forall S m ib body cls (impls : list string) xs l, emits l -> U ib -> In (SClass m ib body []) l -> Forall2 (fun i => impl_class S m (cls i)) impls xs -> emits (l ++ xs).
Proof.
  intros S m ib body cls impls xs l H HU Hin F. revert l H Hin. induction F as [|i x impls xs Hx F IH]; intros l H Hin; [now rewrite app_nil_r|].
  change (x :: xs) with ([x] ++ xs). rewrite app_assoc. apply IH; [|apply in_app_iff; now left]. apply emits_cons_snoc; [exact H|]. eapply impl_base_ok; eassumption.
Qed.
Lemma mother_ok : forall l m ib a b, emits l -> U ib -> silents a -> Forall simple b -> emits (l ++ [SClass m ib (a ++ b) []]).
Proof.
  intros l m ib a b H HU Ha Hb. eapply (emits_class _ _ _ _ []); [exact H| |now apply body_plain]. exists [], [], ib. split; [apply incl_refl|]. split; [constructor|]. split; [constructor|]. now left.
Qed.
Lemma catch_ok : forall l m ib body B cls b, emits l -> U ib -> In (SClass m ib body []) l -> B = [] \/ U B -> silents b -> emits (l ++ [SClass cls (EName m :: B) b []]).
Proof.
  intros l m ib body B cls b H HU Hin HB Hb. eapply (emits_class _ _ _ _ []); [exact H| |rewrite <- app_nil_r; apply body_plain; [exact Hb|constructor]].
  exists [], [], B. split; [apply incl_refl|]. split; [constructor|]. split; [constructor|]. right. exists m, ib, body. repeat split; auto.
Qed.
Lemma pg_interface : forall tfn parent target n desc i0 fields sels o, all_deep (Qg tfn) sels -> below n sels -> get_type s n = Some (TInterface desc i0 fields) ->
  pg (fun res => emits (fst res)) (interface_annotation c s tfn parent target n desc fields sels o).
Proof.
  intros tfn parent target n desc i0 fields sels o HT HB Hn. unfold interface_annotation. cbn zeta. set (l := match sels with Some l => l | None => [] end).
  assert (HP : all_apart d (spreads l)). { destruct sels as [l'|]; [|constructor]. destruct (below_here _ _ HB) as [(H & _) _]. apply H. unfold is_union. now rewrite Hn. }
  eapply (pg_bind (parts_ok l)).
  { apply (pg_walk parts_ok).
    - split; [apply emits_nil|]. split; [repeat constructor|]. split; [intros i; constructor|]. intros i _. exists []. split; constructor.
    - intros l' pre x post a _ _ _ (P1 & P2 & P3 & P4). repeat split; auto. now apply bases_skip.
    - intros l' pre x post a -> El Ht Ha. eapply pg_iface_item; try eassumption. reflexivity. }
  intros p Hp. eapply pg_bind; [apply pg_additional|]. intros add ->. eapply pg_bind; [apply pg_interface_bases|]. intros ib Hib. eapply pg_bind; [apply pg_config|]. intros cfg Hc.
  eapply pg_bind; [apply pg_mmap; intros i Hi; apply (pg_implementing _ _ l); [eapply in_implementations; exact Hi|exact Hp|exact HP]|].
  intros impls Hm. apply pg_skip; [ev_tac|]. intros _. apply pg_skip; [ev_tac|]. intros _. destruct Hp as (P1 & P2 & P3 & P4). cbn [app].
  set (mo := SClass _ ib (ip_fields p ++ cfg) []). assert (E1 : emits (ip_classes p ++ [mo])) by (now apply mother_ok).
  assert (Im : In mo (ip_classes p ++ [mo])) by (apply in_app_iff; right; now left).
  pose proof (emits_impls _ _ _ _ _ _ _ _ E1 Hib Im Hm) as E2.
  eapply (pg_bind (fun rest => emits (((ip_classes p ++ [mo]) ++ impls) ++ fst rest))).
  { destruct (c_create_catchall c); [|apply pg_ret; cbn [fst]; now rewrite app_nil_r]. eapply pg_bind; [apply pg_interface_bases|]. intros ib2 Hib2. eapply pg_bind; [apply pg_generic_typename|]. intros t Ht.
    apply pg_skip; [ev_tac|]. intros _. apply pg_ret. cbn [fst]. eapply catch_ok; [exact E2|exact Hib|apply in_app_iff; left; exact Im|now right|]. constructor; [exact I|]. constructor; [exact Ht|constructor]. }
  intros rest Hr. apply pg_skip; [kg; apply ev_optional_if; ev_tac|]. intros e. apply pg_skip; [ev_tac|]. intros _. apply pg_ret. cbn [fst]. rewrite <- !app_assoc in Hr. exact Hr.
Qed.

(** ** objects *)
Lemma pg_implementation : forall f n, ~ Ban f -> is_object s n = true -> on_types d (fun n => negb (is_union s n)) [f] ->
  pg (fun i => match i with Some k => G f k | None => forall k, dget f (r_frags r0) = Some k -> G f k end) (get_interface_fragment_implementation_or_none f n).
Proof.
  intros f n NB Hn HS. unfold get_interface_fragment_implementation_or_none. apply pg_gets. intros r (E1 & E2 & E3 & E4). rewrite E2. destruct (dget f (r_iffrag r0)) as [impls|] eqn:D.
  - destruct (dget n impls) as [k|] eqn:Dn; [apply pg_ret; apply (GI f impls NB D) with n; now apply dget_Some_In|].
    apply pg_gets. intros r2 (_ & _ & E & _). rewrite E. destruct (dget f (r_fragtypes r0)) as [t|] eqn:Dt; [|apply pg_raise]. destruct (String.eqb_spec t n); [|apply pg_raise]. subst t. apply pg_ret.
    exfalso. destruct (GE f) as (x & Hx & Hf & Hi); [congruence|]. pose proof (GX _ _ Dt x Hx (or_introl (eq_sym Hf))) as E0. apply String.eqb_eq in E0. subst n.
    unfold is_iface in Hi. unfold is_object in Hn. destruct (get_type s (fr_on x)) as [[]|]; congruence.
  - apply pg_ret. intros k Hk. now apply GO.
Qed.
Lemma on_types_in : forall p l f ds, on_types d p (spreads l) -> In (SelSpread f ds) l -> on_types d p [f].
Proof. intros p l f ds H Hx y Hy [E|[]]. apply (H y Hy). rewrite <- E. eapply spreads_in; exact Hx. Qed.
Lemma pg_object_item : forall tfn n t cls fields l pre x post acc, all_deep (Qg tfn) (Some l) -> below n (Some l) -> get_type s n = Some t -> Gql.type_fields t = Some fields -> is_object s n = true ->
  l = pre ++ x :: post -> acc_ok pre acc -> pg (acc_ok (pre ++ [x])) (object_item tfn n cls fields acc x).
Proof.
  intros tfn n t cls fields l pre x post [[a b] e] HT HB Hn Hf Ho El (A1 & A2 & A3). cbn [fst snd] in *. assert (Hx : In x l) by (rewrite El; apply in_elt). pose proof (HT l x eq_refl Hx) as HD.
  destruct x as [g|f ds|cond ds m]; cbn [object_item].
  - destruct (String.eqb (fn_name g) "__typename") eqn:Et; [apply pg_ret; repeat split; auto; apply spread_classes_skip; [discriminate|assumption]|].
    apply pg_opt. intros fd Hfd. eapply pg_bind; [apply HD; eapply below_field; [exact HB|exact Hx|]; eapply field_def; eauto|].
    intros res [R1 R2]. apply pg_ret. split; [now apply emits_app|]. split; [apply spread_classes_skip; [discriminate|assumption]|now apply silents_app].
  - destruct (below_here _ _ HB) as [(_ & HS & _) NB]. assert (HS' := on_types_in _ _ _ _ (HS Ho) Hx). assert (NB' : ~ Ban f) by (apply NB; eapply spreads_in; exact Hx).
    eapply pg_bind; [apply pg_implementation; eassumption|]. intros i Hi. eapply (pg_bind (G f)).
    { destruct i; [now apply pg_ret|]. eapply pg_weaken; [apply pg_inherit|]. exact Hi. }
    intros k Hk. apply pg_ret. split; [exact A1|]. split; [now apply spread_classes_add|exact A3].
  - apply pg_raise.
Qed.
Lemma pg_object : forall tfn parent target n desc i0 fields dirs sels o, all_deep (Qg tfn) sels -> below n sels -> get_type s n = Some (TObject desc i0 fields dirs) ->
  pg (fun res => emits (fst res)) (object_annotation c st tfn parent target n desc fields sels o).
Proof.
  intros tfn parent target n desc i0 fields dirs sels o HT HB Hn. assert (Ho : is_object s n = true) by (unfold is_object; now rewrite Hn).
  unfold object_annotation. cbn zeta. eapply pg_bind; [apply pg_typename|]. intros t Ht. set (l := match sels with Some l => l | None => [] end).
  assert (HP : all_apart d (spreads l)). { destruct sels as [l'|]; [|constructor]. destruct (below_here _ _ HB) as [(H & _) _]. apply H. now apply object_not_union. }
  assert (B : pg (fun res => emits (fst res)) (let* r := walk (object_item tfn n (parent +s+ py_capitalize target) fields) sels ([], [], [doc_stmt desc; t]) in
      let '(classes, bases, body) := r in
      let* add := match bases with
                  | [] => get_additional_bases_for_type c n
                  | _ => ret (map EName bases)
                  end in
      let* cfg := generate_pydantic_config (KT KObject) c None in
      let* e := optional_if o (ret (EName (parent +s+ py_capitalize target))) in
      ret (classes ++ [SClass (parent +s+ py_capitalize target) (add ++ names_of (c_object_bases c)) (body ++ cfg) []], e))).
  { eapply (pg_bind (acc_ok l)).
    { apply (pg_walk acc_ok).
      - split; [apply emits_nil|]. split; [constructor|]. constructor; [exact I|]. now constructor.
      - intros l' pre x post a _ _ Hx (A1 & A2 & A3). repeat split; auto. apply spread_classes_skip; [|exact A2]. intros f ds ->. discriminate.
      - intros l' pre x post a -> El _ Ha. eapply pg_object_item; try eassumption. reflexivity. }
    intros [[classes bases] body] (A1 & A2 & A3). cbn [fst snd] in *. eapply (pg_bind (fun add => add = map EName bases)).
    { destruct bases; [apply pg_additional|now apply pg_ret]. }
    intros add ->. eapply pg_bind; [apply pg_config|]. intros cfg Hc. apply pg_skip; [kg; apply ev_optional_if; ev_tac|]. intros e. apply pg_ret. cbn [fst].
    eapply emits_class; [exact A1|eapply base_ok_spreads; [apply incl_refl|exact HP|exact A2]|now apply body_plain]. }
  destruct (option_map non_typename sels) as [[|[g|f ds|cond ds k] [|y l']]|]; try exact B.
  apply pg_skip; [ev_tac|]. intros i. apply pg_skip; [ev_tac|]. intros e. apply pg_skip; [kg; apply ev_optional_if; ev_tac|]. intros e'. apply pg_ret. apply emits_nil.
Qed.
Lemma pg_named : forall tfn parent target sels n o, all_deep (Qg tfn) sels -> below n sels ->
  pg (fun res => emits (fst res)) (named_annotation c st s tfn parent target sels n o).
Proof.
  intros tfn parent target sels n o HT HB. unfold named_annotation. destruct (get_type s n) as [[]|] eqn:Hn; try apply pg_raise.
  - apply pg_skip; [kg; apply ev_optional_if; ev_tac|]. intros e. apply pg_ret. apply emits_nil.
  - apply pg_skip; [kg; apply ev_optional_if; ev_tac|]. intros e. apply pg_ret. apply emits_nil.
  - eapply pg_object; eassumption.
  - eapply pg_interface; eassumption.
  - eapply pg_union; try eassumption. unfold is_union. now rewrite Hn.
Qed.
Lemma pg_wrap : forall (named : string -> bool -> Registry.M (list stmt * expr)) t, (forall o, pg (fun res => emits (fst res)) (named (gty_name t) o)) ->
  forall o, pg (fun res => emits (fst res)) (wrap_annotation c named t o).
Proof.
  intros named t. induction t as [n|t IH|t IH]; intros H o; cbn [wrap_annotation]; [apply H| |now apply IH].
  apply pg_skip; [ev_tac|]. intros _. apply pg_skip; [ev_tac|]. intros _. eapply pg_bind; [apply IH; exact H|]. intros r Hr. now apply pg_ret.
Qed.
Notation tfn := (type_field_node c st s).
Lemma pg_tfn : forall f, Qg tfn f.
Proof.
  assert (STEP : forall a n ar ds sels, all_deep (Qg tfn) sels -> Qg tfn (FieldNode a n ar ds sels)).
  { intros a n ar ds sels H parent fd HB. cbn [fn_sels] in HB. rewrite tfn_eq. cbn zeta. eapply pg_bind; [apply pg_wrap; intros o; now apply pg_named|].
    intros r Hr. eapply pg_bind; [apply pg_statements|]. intros body Hb. apply pg_ret. split; assumption. }
  apply fieldnode_rect'; [intros; apply STEP; intros l x [=]|intros a n ar ds l HL; apply STEP; intros l' x [= <-]; apply HL].
Qed.
Lemma all_Qg : forall sels, all_deep (Qg tfn) sels.
Proof. intros sels l [g|f ds|cond ds m] E Hx; cbn; auto using pg_tfn. Qed.

(** ** fragments *)
Variable pc : frcfg.
Variable pf : fragment -> string.
Variable addt : string -> res string.
Hypothesis HF1 : U (names_of (fr_bases pc ++ fr_object_bases pc ++ c_object_bases c)).
Hypothesis HF2 : U (names_of (fr_bases pc ++ c_object_bases c)).
Lemma names_app : forall a b, names_of (a ++ b) = names_of a ++ names_of b.
Proof. intros. apply map_app. Qed.
Lemma pg_fragment_bases : forall b, pg U (get_fragment_bases c pc b).
Proof.
  intros b. unfold get_fragment_bases. eapply pg_bind; [apply pg_import_bases|]. intros x ->. destruct b.
  - eapply pg_bind; [apply pg_import_bases|]. intros y ->. eapply pg_bind; [apply pg_import_bases|]. intros z ->. apply pg_ret. rewrite <- !names_app. exact HF1.
  - eapply (pg_bind (fun y => y = [])); [now apply pg_ret|]. intros y ->. eapply pg_bind; [apply pg_import_bases|]. intros z ->. apply pg_ret. cbn [app]. rewrite <- !names_app. exact HF2.
Qed.
(** [l] contains the class [k] of the fragment *)
Definition fragment_class_in (S : list string) (l : list stmt) (k : string) : Prop :=
  exists pre bases body dec post, l = pre ++ SClass k bases body dec :: post /\ base_ok S pre bases.
Definition facc_ok (pre : list selection) (acc : list stmt * list expr * list stmt) : Prop :=
  emits (fst (fst acc)) /\ (exists ks, snd (fst acc) = map EName ks /\ Forall2 G (rev (spreads pre)) ks) /\ silents (snd acc).
Lemma facc_skip : forall pre x ks, (forall f ds, x <> SelSpread f ds) -> Forall2 G (rev (spreads pre)) ks -> Forall2 G (rev (spreads (pre ++ [x]))) ks.
Proof. intros pre x ks H F. rewrite spreads_app. destruct x as [g|f ds|cond ds l]; cbn; rewrite ?app_nil_r; try exact F. exfalso. eapply H. reflexivity. Qed.
Lemma pg_object_fragment_item : forall n t cls l pre x post acc, below n (Some l) -> get_type s n = Some t -> is_object s n = true ->
  l = pre ++ x :: post -> facc_ok pre acc -> pg (facc_ok (pre ++ [x])) (object_fragment_item c st s n cls acc x).
Proof.
  intros n t cls l pre x post [[a b] e] HB Hn Ho El (A1 & (ks & Eb & A2) & A3). cbn [fst snd] in *. subst b. assert (Hx : In x l) by (rewrite El; apply in_elt).
  destruct x as [g|f ds|cond ds m]; cbn [object_fragment_item].
  - destruct (String.eqb (fn_name g) "__typename") eqn:Et.
    + apply pg_ret. split; [exact A1|]. split; [exists ks; split; [reflexivity|apply facc_skip; [discriminate|exact A2]]|exact A3].
    + apply pg_opt. intros fd Hfd. eapply pg_bind; [apply pg_tfn; eapply below_field; eassumption|].
      intros res [R1 R2]. apply pg_ret. split; [now apply emits_app|]. split; [exists ks; split; [reflexivity|apply facc_skip; [discriminate|exact A2]]|now apply silents_app].
  - destruct (below_here _ _ HB) as [(_ & HS & _) NB]. assert (HS' := on_types_in _ _ _ _ (HS Ho) Hx). assert (NB' : ~ Ban f) by (apply NB; eapply spreads_in; exact Hx).
    apply pg_gets. intros r (E1 & E2 & E3 & E4). rewrite E2. eapply (pg_bind (G f)).
    { destruct (dget f (r_iffrag r0)) as [impls|] eqn:D.
      - intros ra k rb S H. apply from_opt_ok in H as [H ->]. split; [exact S|]. apply (GI f impls NB' D) with n. now apply dget_Some_In.
      - eapply pg_weaken; [apply pg_inherit|]. intros k Hk. now apply GO. }
    intros k Hk. apply pg_ret. split; [exact A1|]. split; [|exact A3]. exists (k :: ks). split; [reflexivity|]. rewrite spreads_app, rev_app_distr. cbn. now constructor.
  - apply pg_ret. split; [exact A1|]. split; [exists ks; split; [reflexivity|apply facc_skip; [discriminate|exact A2]]|exact A3].
Qed.
Lemma pg_object_fragment : forall f cls desc t, below (fr_on f) (Some (fr_sels f)) -> get_type s (fr_on f) = Some t -> is_object s (fr_on f) = true ->
  pg (fun l => emits l /\ fragment_class_in (spreads (fr_sels f)) l cls) (object_fragment c st s pc pf addt f cls desc).
Proof.
  intros f cls desc t HB Hn Ho. unfold object_fragment. eapply pg_bind; [apply pg_additional|]. intros ab ->. eapply pg_bind; [apply pg_typename|]. intros tn Ht.
  assert (HP : all_apart d (spreads (fr_sels f))). { destruct (below_here _ _ HB) as [(H & _) _]. apply H. now apply object_not_union. }
  eapply (pg_bind (facc_ok (fr_sels f))).
  { apply pg_mfold; [split; [apply emits_nil|]; split; [exists []; split; constructor|]; constructor; [exact I|now constructor]|].
    intros pre x post acc El Ha. eapply pg_object_fragment_item; eassumption. }
  intros [[classes bases] fields] (A1 & (ks & Eb & A2) & A3). cbn [fst snd] in *. subst bases. eapply (pg_bind (Forall simple)).
  { unfold fragment_meta. destruct (fr_meta pc); [|apply pg_ret; constructor]. apply pg_skip; [apply (ev_incl st []); [intros ? []|apply ev_replace]|]. intros doc. apply pg_ret. constructor; [|constructor]. split; [reflexivity|]. repeat constructor. }
  intros meta Hm. eapply pg_bind; [apply pg_fragment_bases|]. intros fb Hfb. eapply pg_bind; [apply pg_config|]. intros cfg Hc. apply pg_ret.
  assert (B : base_ok (spreads (fr_sels f)) classes (map EName ks ++ fb)).
  { exists (rev (spreads (fr_sels f))), ks, fb. split; [intros y Hy; now apply in_rev|]. split; [apply pairs_rev; [apply apart_sym|exact HP]|]. split; [exact A2|]. now left. }
  split; [|exists classes, (map EName ks ++ fb), (fields ++ cfg ++ meta), [], []; auto].
  eapply emits_class; [exact A1|exact B|]. apply body_plain; [exact A3|]. now apply Forall_app.
Qed.
Lemma Forall2_in_l : forall {A B} (P : A -> B -> Prop) l ys x, Forall2 P l ys -> In x l -> exists pre y post, ys = pre ++ y :: post /\ P x y.
Proof.
  intros A B P l ys x F. induction F as [|a b l ys H F IH]; intros I; [contradiction|]. destruct I as [->|I].
  - exists [], b, ys. auto.
  - destruct (IH I) as (pre & y & post & -> & Hy). exists (b :: pre), y, post. auto.
Qed.
Lemma interface_fragment_ok : forall f desc i0 fields r l r', below (fr_on f) (Some (fr_sels f)) -> get_type s (fr_on f) = Some (TInterface desc i0 fields) -> gsame r0 r ->
  interface_fragment c st s pc f desc fields r = (Ok l, r') ->
  emits l /\ (forall i, In i (implementations s (fr_on f)) -> fragment_class_in (spreads (fr_sels f)) l (style_fragment_class st (fr_name f) +s+ i))
  /\ r_frags r' = r_frags r0 /\ r_fragtypes r' = r_fragtypes r0 /\ r_ufrag r' = r_ufrag r0
  /\ r_iffrag r' = dset (fr_name f) (fold_left (fun m i => dset i (style_fragment_class st (fr_name f) +s+ i) m) (implementations s (fr_on f)) []) (r_iffrag r0).
Proof.
  intros f desc i0 fields r l r' HB Hn S H. unfold interface_fragment in H. cbn zeta in H. set (base := style_fragment_class st (fr_name f)) in *.
  assert (HP : all_apart d (spreads (fr_sels f))). { destruct (below_here _ _ HB) as [(Hq & _) _]. apply Hq. unfold is_union. now rewrite Hn. }
  apply bind_ok in H as (add & r1 & H1 & H). apply pg_additional in H1 as [S1 ->]; [|exact S].
  apply bind_ok in H as (p & r2 & H2 & H). assert (Hp : gsame r0 r2 /\ parts_ok (fr_sels f) p).
  { revert H2. apply (pg_walk parts_ok _ (Some (fr_sels f))).
    - split; [apply emits_nil|]. split; [repeat constructor|]. split; [intros i; constructor|]. intros i _. exists []. split; constructor.
    - intros l' pre x post a _ _ _ (P1 & P2 & P3 & P4). repeat split; auto. now apply bases_skip.
    - intros l' pre x post a [= <-] El Ht Ha. eapply pg_iface_item; try eassumption; [apply all_Qg|reflexivity].
    - exact S1. }
  destruct Hp as [S2 Hp]. apply bind_ok in H as (ib & r3 & H3 & H). apply pg_interface_bases in H3 as [S3 Hib]; [|exact S2].
  apply bind_ok in H as (t & r4 & H4 & H). apply pg_generic_typename in H4 as [S4 Ht]; [|exact S3].
  apply bind_ok in H as (impls & r5 & H5 & H).
  eapply (pg_mmap (fun i => impl_class (spreads (fr_sels f)) (base +s+ "Base") (base +s+ i))) in H5 as [S5 Hm]; [|intros i Hi; apply (pg_implementing _ _ (fr_sels f)); [eapply in_implementations; exact Hi|exact Hp|exact HP]|exact S4].
  apply bind_ok in H as (u & r6 & H6 & H). apply ret_ok in H as [-> ->]. cbn in H6. injection H6 as _ <-. destruct S5 as (E1 & E2 & E3 & E4). cbn [app].
  destruct Hp as (P1 & P2 & P3 & P4). set (mo := SClass (base +s+ "Base") ib (ip_fields p) []).
  assert (EM : emits (ip_classes p ++ [mo])). { unfold mo. rewrite <- (app_nil_r (ip_fields p)). apply mother_ok; auto. }
  assert (Im : In mo (ip_classes p ++ [mo])) by (apply in_app_iff; right; now left).
  set (ca := SClass (base +s+ "Catch") [EName (base +s+ "Base")] _ []).
  assert (EC : emits ((ip_classes p ++ [mo]) ++ [ca])). { eapply catch_ok; [exact EM|exact Hib|exact Im|now left|]. constructor; [exact I|]. constructor; [exact Ht|exact P2]. }
  assert (Im2 : In mo ((ip_classes p ++ [mo]) ++ [ca])) by (apply in_app_iff; now left).
  pose proof (emits_impls _ _ _ _ _ _ _ _ EC Hib Im2 Hm) as EL. rewrite <- !app_assoc in EL. cbn [app] in EL. split; [exact EL|]. split.
  - intros i Hi. destruct (Forall2_in_l _ _ _ _ Hm Hi) as (pre & y & post & -> & Hy).
    destruct (impl_base_ok _ _ _ _ (ip_classes p ++ [mo; ca] ++ pre) ib (ip_fields p) Hy Hib) as (_ & bases & b & -> & Hb); [apply in_app_iff; right; now left|].
    exists (ip_classes p ++ [mo; ca] ++ pre), bases, b, [], post. split; [|exact Hb]. rewrite <- !app_assoc. reflexivity.
  - cbn [r_frags r_fragtypes r_ufrag r_iffrag with_iffrag]. rewrite E2. auto.
Qed.
Lemma union_fragment_ok : forall f desc ms r l r', below (fr_on f) (Some (fr_sels f)) -> (forall i, In i ms -> is_object s i = true) ->
  all_apart d (spreads (fr_sels f)) -> (forall g ds k, In (SelInline g ds k) (fr_sels f) -> spreads k = []) -> gsame r0 r ->
  union_fragment c st s pc f desc ms r = (Ok l, r') ->
  emits l /\ (forall i, In i ms -> fragment_class_in (spreads (fr_sels f)) l (style_fragment_class st (fr_name f) +s+ i))
  /\ r_frags r' = r_frags r0 /\ r_fragtypes r' = r_fragtypes r0 /\ r_iffrag r' = r_iffrag r0
  /\ r_ufrag r' = dset (fr_name f) (fold_left (fun m i => dset i (style_fragment_class st (fr_name f) +s+ i) m) ms []) (r_ufrag r0).
Proof.
  intros f desc ms r l r' HB HM HP HN S H. unfold union_fragment in H. cbn zeta in H. set (base := style_fragment_class st (fr_name f)) in *.
  apply bind_ok in H as (add & r1 & H1 & H). apply pg_additional in H1 as [S1 _]; [|exact S].
  apply bind_ok in H as (p & r2 & H2 & H). assert (Hp : gsame r0 r2 /\ parts_ok (fr_sels f) p).
  { revert H2. apply (pg_walk parts_ok _ (Some (fr_sels f))).
    - split; [apply emits_nil|]. split; [constructor|]. split; [intros i; constructor|]. intros i _. exists []. split; constructor.
    - intros l' pre x post a _ _ _ (P1 & P2 & P3 & P4). repeat split; auto. now apply bases_skip.
    - intros l' pre x post a [= <-] El Ht (P1 & P2 & P3 & P4). assert (Hx : In x (fr_sels f)) by (rewrite El; apply in_elt). destruct x as [g|h ds|cond ds k]; cbn [union_fragment_item]; [apply pg_raise| |].
      + assert (NB : ~ Ban h) by (apply (below_here _ _ HB); eapply spreads_in; exact Hx).
        unfold get_union_fragment_members. eapply (pg_bind (fun m => dget h (r_ufrag r0) = Some m)).
        * apply pg_gets. intros ra (_ & _ & _ & E). rewrite E. intros rb m rc Sb Hm. apply from_opt_ok in Hm as [Hm ->]. auto.
        * intros m Hm. apply pg_ret. split; [exact P1|]. split; [constructor|]. split; [exact P3|]. cbn [ip_bases]. destruct (GU h m NB Hm) as [Nm Gm].
          eapply bases_more; [|exact P4]. intros i _. rewrite fold_dextend_one by exact Nm. destruct (dget i m) as [k|] eqn:Di; [right|left; now rewrite app_nil_r].
          exists k. split; [|reflexivity]. apply (Gm i). now apply dget_Some_In.
      + apply pg_opt. intros on ->. pose proof (HN _ _ _ Hx) as Hk. pose proof (below_inline _ _ _ _ _ HB Hx) as HB'.
        eapply (pg_bind (fun acc : list stmt * list string * list stmt => emits (fst (fst acc)) /\ snd (fst acc) = [] /\ silents (snd acc))).
        * apply (pg_mfold (fun _ (acc : list stmt * list string * list stmt) => emits (fst (fst acc)) /\ snd (fst acc) = [] /\ silents (snd acc))); [split; [apply emits_nil|]; split; [reflexivity|constructor]|].
          intros pre' y post' [[ca b] e] El' (A1 & A2 & A3). cbn [fst snd] in *. assert (Hy : In y k) by (rewrite El'; apply in_elt). destruct y as [g|h ds'|cond' ds' k']; cbn [union_inline].
          -- destruct (String.eqb (fn_name g) "__typename") eqn:Et; [apply pg_ret; auto|]. apply pg_opt. intros t _. apply pg_opt. intros fd Hfd.
             eapply pg_bind; [apply pg_tfn; eapply below_field; eassumption|]. intros res [R1 R2]. apply pg_ret. cbn [fst snd]. split; [now apply emits_app|]. split; [exact A2|now apply silents_app].
          -- apply spreads_in in Hy. rewrite Hk in Hy. contradiction.
          -- apply pg_ret. auto.
        * intros [[ca b] e] (A1 & A2 & A3). cbn [fst snd] in *. subst b. apply pg_ret. split; [now apply emits_app|]. split; [constructor|]. split; [now apply dget_list_silents|].
          intros i Hi. cbn [ip_bases]. rewrite dget_list_dextend. rewrite app_nil_r. destruct (bases_skip pre (SelInline (Some on) ds k) _ P4 i Hi) as (fs & Sf & Ff). exists fs. split; [exact Sf|]. now destruct (String.eqb i on).
    - exact S1. }
  destruct Hp as [S2 (P1 & P2 & P3 & P4)]. apply bind_ok in H as (classes & r3 & H3 & H).
  eapply (pg_mmap (fun i x => exists fs ks fb body, x = SClass (base +s+ i) (map EName ks ++ fb) body [] /\ incl fs (spreads (fr_sels f)) /\ all_apart d fs /\ Forall2 G fs ks /\ U fb /\ body_ok sc0 body)) in H3 as [S3 Hm]; [| |exact S2].
  2: { intros i Hi. eapply pg_bind; [apply pg_fragment_bases|]. intros fb Hfb. eapply pg_bind; [apply pg_typename|]. intros t Ht. apply pg_ret. destruct (P4 i (HM i Hi)) as (fs & Sf & Ff).
       exists fs, (dget_list i (ip_bases p)), fb. eexists. split; [reflexivity|]. split; [intros y Hy; eapply sub_in; eassumption|]. split; [eapply pairs_sub; eassumption|]. split; [exact Ff|]. split; [exact Hfb|].
       rewrite <- app_nil_r. apply body_plain; [constructor; [exact Ht|apply P3]|constructor]. }
  apply bind_ok in H as (u & r4 & H4 & H). cbn in H4. injection H4 as _ <-. apply bind_ok in H as (u2 & r5 & H5 & H). apply ret_ok in H as [-> ->].
  assert (E5 : gsame (with_ufrag (dset (fr_name f) (fold_left (fun m i => dset i (base +s+ i) m) ms []) (r_ufrag r3)) r3) r5) by (eapply evolve_gsame; eapply (ev_ok st); [|exact H5]; ev_tac).
  destruct E5 as (F1 & F2 & F3 & F4). cbn [r_frags r_fragtypes r_ufrag r_iffrag with_ufrag] in *. destruct S3 as (E1 & E2 & E3 & E4).
  assert (EM : forall l0 xs (is : list string), emits l0 -> Forall2 (fun i x => exists fs ks fb body, x = SClass (base +s+ i) (map EName ks ++ fb) body [] /\ incl fs (spreads (fr_sels f)) /\ all_apart d fs /\ Forall2 G fs ks /\ U fb /\ body_ok sc0 body) is xs -> emits (l0 ++ xs)).
  { intros l0 xs is He F. revert l0 He. induction F as [|i x is xs (fs & ks & fb & body & -> & I1 & I2 & I3 & I4 & I5) F IH]; intros l0 He; [now rewrite app_nil_r|].
    match goal with |- emits (l0 ++ ?x :: xs) => change (x :: xs) with ([x] ++ xs) end. rewrite app_assoc. apply IH. apply (emits_class _ _ _ _ (spreads (fr_sels f))); [exact He| |exact I5]. exists fs, ks, fb. repeat split; auto. }
  pose proof (EM _ _ _ P1 Hm) as EL. split; [|split].
  - rewrite app_assoc. apply emits_app; [exact EL|]. change (SAssign (EName base) (union_of (map (fun i => EName (base +s+ i)) ms)) :: (if truthy desc && fr_add_documentation pc then [docstring (opt_str desc)] else []))
      with ([SAssign (EName base) (union_of (map (fun i => EName (base +s+ i)) ms))] ++ (if truthy desc && fr_add_documentation pc then [docstring (opt_str desc)] else [])).
    apply emits_app; [apply (emits_cons_snoc _ _ _ _ []); [apply emits_nil|exact I]|]. destruct (_ && _); [apply (emits_cons_snoc _ _ _ _ []); [apply emits_nil|exact I]|apply emits_nil].
  - intros i Hi. destruct (Forall2_in_l _ _ _ _ Hm Hi) as (pre & y & post & -> & (fs & ks & fb & body & -> & I1 & I2 & I3 & I4 & I5)).
    exists (ip_classes p ++ pre). do 4 eexists. split; [rewrite <- !app_assoc; cbn [app]; reflexivity|]. exists fs, ks, fb. repeat split; auto.
  - rewrite F1, F2, F3, F4, E1, E2, E3, E4. auto.
Qed.

(** ** operations *)
Variable oc : ocfg.
Variable po : operation -> string.
Variable doc_of : operation -> option string.
Definition with_default (b : list string) : list string := match b with [] => c_object_bases c | _ => b end.
Hypothesis HQ : forall b, In b [o_query_bases oc; o_mutation_bases oc; o_subscription_bases oc; o_arguments_bases oc] -> bases_order sc0 (names_of (with_default b)) <> None.
Lemma pg_bases_or_default : forall b, pg (fun x => x = names_of (with_default b)) (bases_or_default c b).
Proof. intros b. unfold bases_or_default. apply pg_import_bases. Qed.
Lemma pg_operation : forall o, (forall root, root_type s (op_kind o) = Some root -> below root (Some (op_sels o))) ->
  pg emits (generate_operation c st s oc po addt doc_of o).
Proof.
  intros o HB. unfold generate_operation. apply pg_opt. intros name _. eapply (pg_bind (fun cb => bases_order sc0 (snd cb) <> None)).
  { unfold operation_class. destruct (op_kind o); (apply pg_skip; [ev_tac|]; intros n; eapply pg_bind; [apply pg_bases_or_default|]; intros b ->; apply pg_ret; cbn [snd]; apply HQ; cbn; tauto). }
  intros cb Hcb. apply pg_opt. intros root Hr. specialize (HB root Hr). cbn zeta.
  eapply (pg_bind (fun acc => emits (fst acc) /\ Forall silents (snd acc))).
  { apply (pg_mfold (fun _ acc => emits (fst acc) /\ Forall silents (snd acc))); [split; [apply emits_nil|constructor]|]. intros pre x post acc El [A1 A2]. assert (Hx : In x (op_sels o)) by (rewrite El; apply in_elt).
    destruct x as [g|f ds|cond ds m]; cbn [root_item]; try apply pg_raise. apply pg_opt. intros fd Hfd. eapply pg_bind; [apply pg_tfn; eapply below_field; eassumption|]. intros res [R1 R2]. apply pg_ret. split; [now apply emits_app|].
    apply Forall_app. split; [exact A2|now constructor]. }
  intros acc [A1 A2]. apply pg_skip; [ev_tac|]. intros _. apply pg_skip; [apply (ev_incl st []); [intros ? []|apply ev_replace]|]. intros doc.
  eapply (pg_bind (fun args => args = [] \/ exists n bases b, args = [SClass n bases b []] /\ bases_order sc0 bases <> None /\ Forall no_class b)).
  { apply pg_ev; [eapply ev_incl; [|apply ev_arguments_class]; incl_tac|]. intros r x r' H. unfold arguments_class in H. destruct (o_create_arguments oc); [|minv; now left].
    apply bind_ok in H as (fs & r1 & Hf & H). apply bind_ok in H as (cfg & r2 & Hc & H). apply bind_ok in H as (bs & r3 & Hb & H). apply ret_ok in H as [-> ->].
    assert (Eb : bs = names_of (with_default (o_arguments_bases oc))).
    { unfold bases_or_default in Hb. unfold import_bases in Hb. apply bind_ok in Hb as (u & r4 & _ & Hb). apply ret_ok in Hb as [-> _]. reflexivity. }
    right. do 3 eexists. split; [reflexivity|]. split; [rewrite Eb; apply HQ; cbn; tauto|].
    constructor; [exact I|]. apply Forall_app. split.
    - apply (mmap_inv _ (fun _ => True) (fun _ => no_class)) in Hf as [_ Hf]; [|exact I|].
      + clear - Hf. induction Hf; constructor; auto.
      + intros v s1 y s2 _ _ H. split; [exact I|]. unfold argument_field in H. cbn zeta in H. repeat (apply bind_ok in H as (? & ? & _ & H)). apply ret_ok in H as [-> _]. exact I.
    - unfold generate_arguments_config in Hc. minv. repeat constructor. }
  intros args Ha. eapply pg_bind; [apply pg_config|]. intros cfg Hc. apply pg_ret. apply emits_cons_snoc; [exact A1|]. split; [|now left].
  match goal with |- body_ok _ (?d1 ++ List.concat (snd acc) ++ args ++ ?m ++ cfg) => exists (d1 ++ List.concat (snd acc)), args, (m ++ cfg) end.
  split; [now rewrite <- app_assoc|]. split; [constructor; [exact I|]; now apply Forall_concat|]. split; [|exact Ha]. constructor; [|exact Hc].
  split; [reflexivity|]. destruct (truthy _); repeat constructor.
Qed.
End Walk.
