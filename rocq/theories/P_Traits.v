(** The traits of a type reach the classes generated for selections on it. *)
From Coq Require Import Permutation.
From Verif Require Import Base PyAst Gql Config Stylers Registry Utils Documents Inline Recurse Fragments Operations Objects Inputs Spec_Types Spec_Inputs Spec_Fields Spec_Mro Spec_Mro2 Spec_Traits
  P_Base P_Gql P_Monad P_Recurse P_Post P_Fields P_Inputs P_InlineProps P_Modelled P_Modelled2 P_Inputs3 P_Freeze P_Topo P_Classes P_Mro P_Mro2 P_Mro3 P_Mro4 P_Mro5.

Lemma inherits_incl : forall t t' b n, incl t t' -> inherits t b n -> inherits t' b n.
Proof. intros t t' b n I H. induction H; [eapply inherits_own|eapply inherits_base]; eauto. Qed.

(** no typename field with a literal *)
Definition mute (m : stmt) : Prop := forall T, ~ typename_field T m.
Lemma mute_only : forall T l, Forall mute l -> ~ Exists (typename_field T) l.
Proof. intros T l F E. induction E as [x l H|x l _ IH]; inversion F; subst; [exact (H2 T H)|auto]. Qed.
Lemma mute_simple : forall m, (forall n a v, m <> SAnn n a v) -> mute m.
Proof. intros m H T (n & a & f & kws & -> & _). eapply H. reflexivity. Qed.
Lemma mute_doc : forall x, mute (docstring x).
Proof. intros x. apply mute_simple. discriminate. Qed.
Lemma mute_config : forall k c tn r l r', generate_pydantic_config k c tn r = (Ok l, r') -> Forall mute l.
Proof.
  intros k c tn r l r' H. unfold generate_pydantic_config in H. destruct (String.eqb _ _).
  - unfold generate_config_dict in H. cbn zeta in H. destruct (_ ++ _ ++ _); minv; repeat constructor. apply mute_simple. discriminate.
  - minv. unfold generate_config_class_pydantic. destruct (_ ++ _ ++ _); repeat constructor. apply mute_simple. discriminate.
Qed.
Lemma mute_statements : forall c st k fd a r l r', field_statements c st k fd a r = (Ok l, r') -> Forall mute l.
Proof.
  intros c st k fd a r l r' H. unfold field_statements in H. cbn zeta in H. apply bind_ok in H as (a' & r1 & H1 & H). apply bind_ok in H as (u & r2 & H2 & H). apply ret_ok in H as [-> ->].
  constructor; [|destruct (compose_field_documentation _ _ _ _); repeat constructor; apply mute_doc].
  intros T (n & b & f & kws & E & _ & Hd). injection E as _ _ E. destruct (is_nonnull (fd_type fd)), (String.eqb k (generate_node_name st k)); cbn in E; inversion E; subst; cbn in Hd; unfold estr, enone in *; intuition discriminate.
Qed.
Lemma typename_is : forall c n r t r', generate_typename_field c n r = (Ok t, r') -> forall T, typename_field T t -> T = n.
Proof.
  intros c n r t r' H T (m & a & f & kws & E & _ & Hd). unfold generate_typename_field in H. minv. inversion E; subst. cbn in Hd.
  destruct Hd as [Hd|[Hd|Hd]]; [discriminate|now injection Hd|]. unfold exclude_kw in Hd. destruct (c_exclude_typenames c); cbn in Hd; [destruct Hd as [Hd|[]]; discriminate|contradiction].
Qed.
Lemma mute_generic : forall c r t r', generate_generic_typename_field c r = (Ok t, r') -> mute t.
Proof.
  intros c r t r' H T (m & a & f & kws & E & _ & Hd). unfold generate_generic_typename_field in H. minv. inversion E; subst. cbn in Hd.
  destruct Hd as [Hd|Hd]; [discriminate|]. unfold exclude_kw in Hd. destruct (c_exclude_typenames c); cbn in Hd; [destruct Hd as [Hd|[]]; discriminate|contradiction].
Qed.

Section Walk.
Variable c : gconfig.
Variable st : list styler.
Variable s : schema.
Variable d : document.
Variable T0 : list stmt.
Variable Ban : string -> Prop.
Variable r0 : reg.
Notation tr := (traits (c_additional_bases c)).
Definition has (i k : string) : Prop := forall b, In b (tr i) -> inherits T0 (last_comp b) k.
Hypothesis G1 : forall f impls i k, ~ Ban f -> dget f (r_iffrag r0) = Some impls -> In (i, k) impls -> has i k.
Hypothesis G2 : forall f k x, ~ Ban f -> dget f (r_frags r0) = Some k -> In (DFrag x) d -> fr_name x = f -> is_object s (fr_on x) = true -> has (fr_on x) k.
Hypothesis G3 : forall f k x n, ~ Ban f -> dget f (r_frags r0) = Some k -> In (DFrag x) d -> fr_name x = f -> is_iface s (fr_on x) = true -> In n (implementations s (fr_on x)) ->
  exists impls k', dget f (r_iffrag r0) = Some impls /\ dget n impls = Some k'.
Hypothesis G4 : forall f k, dget f (r_frags r0) = Some k -> exists x, In (DFrag x) d /\ fr_name x = f.

Notation pg := (P_Mro4.pg r0).
Definition good1 (m : stmt) : Prop :=
  match m with
  | SClass n bases body _ => forall T b, Exists (typename_field T) body -> In b (tr T) ->
      In (EName (last_comp b)) bases \/ exists k, In (EName k) bases /\ inherits T0 (last_comp b) k
  | _ => True
  end.
Notation good := (Forall good1).
Notation mutes := (Forall mute).
Lemma good_mute : forall n bases body decs, mutes body -> good1 (SClass n bases body decs).
Proof. intros n bases body decs M T b E. exfalso. exact (mute_only T body M E). Qed.
(** a class made for the type [T] that has its traits, or the class of a fragment with them *)
Definition only (T : string) (l : list stmt) : Prop := forall T', Exists (typename_field T') l -> T' = T.
Lemma only_mutes : forall T l, mutes l -> only T l.
Proof. intros T l M T' E. elim (mute_only T' l M E). Qed.
Lemma only_app : forall T a b, only T a -> only T b -> only T (a ++ b).
Proof. intros T a b A B T' E. apply Exists_app in E as [E|E]; auto. Qed.
Lemma only_cons : forall T x l, (forall T', typename_field T' x -> T' = T) -> only T l -> only T (x :: l).
Proof. intros T x l A B T' E. inversion E; subst; auto. Qed.
Lemma good_direct : forall n bases body decs T, only T body -> incl (names_of (tr T)) bases -> good1 (SClass n bases body decs).
Proof. intros n bases body decs T O I T' b E Hb. left. rewrite (O T' E) in Hb. apply I. unfold names_of. apply (in_map (fun b => EName (last_comp b)) _ _ Hb). Qed.
Lemma good_via : forall n bases body decs T k, only T body -> In (EName k) bases -> has T k -> good1 (SClass n bases body decs).
Proof. intros n bases body decs T k O I H T' b E Hb. right. rewrite (O T' E) in Hb. exists k. auto. Qed.

Ltac kg := apply (ev_incl st Ksel); [incl_tac|].
Lemma pt_typename : forall n, pg (fun t => forall T, typename_field T t -> T = n) (generate_typename_field c n).
Proof. intros n. apply (pg_ev st); [ev_tac|]. intros r a r' H. eapply typename_is; exact H. Qed.
Lemma pt_generic : pg mute (generate_generic_typename_field c).
Proof. apply (pg_ev st); [ev_tac|]. intros r a r' H. eapply mute_generic; exact H. Qed.
Lemma pt_config : forall k t, pg mutes (generate_pydantic_config k c t).
Proof. intros k t. apply (pg_ev st); [ev_tac|]. intros r a r' H. eapply mute_config; exact H. Qed.
Lemma pt_additional : forall n, pg (fun a => a = names_of (tr n)) (get_additional_bases_for_type c n).
Proof. intros n. apply (pg_ev st); [ev_tac|]. intros r a r' H. now apply additional_bases_spec in H. Qed.
Lemma pt_statements : forall k fd a, pg mutes (field_statements c st k fd a).
Proof. intros k fd a. apply (pg_ev st); [apply (ev_incl st Ksel); [incl_tac|apply ev_field_statements]|]. intros r l r' H. eapply mute_statements; exact H. Qed.
Lemma pt_ibases : ev st Kg (get_interface_bases c).
Proof. ev_tac. Qed.

(** ** selections *)
Definition fits (m : string) (k : list selection) : Prop := object_spreads s d m k /\ forall f, In f (spreads k) -> ~ Ban f.
Definition below (n : string) (sels : option (list selection)) : Prop := forall l, sels = Some l -> forall m k, occurs s n l m k -> fits m k.
Lemma below_field : forall n l g fd, below n (Some l) -> In (SelField g) l -> get_field_def s n (fn_name g) = Some fd -> below (gty_name (fd_type fd)) (fn_sels g).
Proof.
  intros n l [a f ar ds sels] fd H Hg Hf l' E m k O. cbn in *. subst sels. apply (H l eq_refl). eapply occurs_trans; [|exact O]. eapply occurs_field; [apply occurs_here|exact Hg|exact Hf].
Qed.
Lemma below_inline : forall n l i ds k, below n (Some l) -> In (SelInline (Some i) ds k) l -> below i (Some k).
Proof. intros n l i ds k H Hg l' [= <-] m k' O. apply (H l eq_refl). eapply occurs_trans; [|exact O]. eapply occurs_inline; [apply occurs_here|exact Hg]. Qed.
Lemma below_here : forall n l, below n (Some l) -> fits n l.
Proof. intros n l H. apply (H l eq_refl). apply occurs_here. Qed.
Definition Qt (tfn : typer) (g : fieldnode) : Prop := forall parent fd, below (gty_name (fd_type fd)) (fn_sels g) ->
  pg (fun res => good (fst res) /\ mutes (snd res)) (tfn g parent fd).
Lemma app2 : forall {A} (P : A -> Prop) a b, Forall P a -> Forall P b -> Forall P (a ++ b).
Proof. intros. now apply Forall_app. Qed.

Definition acc_ok (acc : list stmt * list string * list stmt) : Prop := good (fst (fst acc)) /\ mutes (snd acc).
Lemma pt_inline_item : forall tfn cls on sub x acc, (forall g, In (SelField g) sub -> Qt tfn g) -> below on (Some sub) -> In x sub ->
  acc_ok acc -> pg acc_ok (inline_item s tfn cls on acc x).
Proof.
  intros tfn cls on sub x [[a b] e] HT HB Hx [A1 A2]. cbn [fst snd] in *. destruct x as [g|f ds|cond ds l]; cbn [inline_item].
  - destruct (String.eqb (fn_name g) "__typename") eqn:Et; [apply pg_ret; split; assumption|].
    destruct (get_type s on) as [[]|] eqn:Eo; try apply pg_raise. apply pg_opt. intros fd Hfd. eapply pg_bind.
    + apply HT; [exact Hx|]. eapply below_field; [exact HB|exact Hx|]. eapply field_def; [exact Eo|reflexivity|exact Et|exact Hfd].
    + intros res [R1 R2]. apply pg_ret. split; cbn [fst snd]; now apply app2.
  - apply (pg_skip st); [ev_tac|]. intros i. destruct i; [apply pg_raise|]. apply (pg_skip st); [ev_tac|]. intros k. apply pg_ret. split; assumption.
  - apply pg_ret. split; assumption.
Qed.
Lemma pt_union_item : forall tfn parent n l x acc, all_deep (Qt tfn) (Some l) -> below n (Some l) -> In x l ->
  good (fst acc) -> pg (fun acc => good (fst acc)) (union_item c s tfn parent acc x).
Proof.
  intros tfn parent n l x [a b] HT HB Hx Ha. cbn [fst] in *. pose proof (HT l x eq_refl Hx) as HD.
  destruct x as [g|f ds|cond ds m]; cbn [union_item].
  - now apply pg_ret.
  - apply (pg_skip st); [ev_tac|]. intros k. now apply pg_ret.
  - apply pg_opt. intros on ->. cbn zeta. cbn in HD. pose proof (below_inline _ _ _ _ _ HB Hx) as HB'. eapply (pg_bind r0 acc_ok).
    { apply (pg_mfold r0 (fun _ => acc_ok)); [split; constructor|]. intros pre' y post' acc El' HA'. eapply pt_inline_item; try eassumption. rewrite El'. apply in_elt. }
    intros [[nested bases] fields] (A1 & A3). cbn [fst snd] in *.
    eapply (pg_bind r0 (fun body => only on body /\ (bases <> [] -> mutes body))).
    { destruct bases; [|apply pg_ret; split; [now apply only_mutes|auto]]. eapply pg_bind; [apply pt_typename|]. intros t Ht. apply pg_ret. split; [|now intros []]. apply only_cons; [exact Ht|now apply only_mutes]. }
    intros body [Hb Hm]. eapply (pg_bind r0 (fun add => bases = [] -> add = names_of (tr on))).
    { destruct bases; [|now apply pg_ret]. eapply pg_weaken; [apply pt_additional|auto]. }
    intros add Had. eapply pg_bind; [apply pt_config|]. intros cfg Hc. apply pg_ret. cbn [fst]. apply app2; [exact Ha|]. apply app2; [exact A1|]. constructor; [|constructor].
    set (bd := match body ++ cfg with [] => [SPass] | x :: y => x :: y end).
    assert (OB : only on bd /\ (bases <> [] -> mutes bd)).
    { subst bd. split.
      - assert (O : only on (body ++ cfg)) by (apply only_app; [exact Hb|now apply only_mutes]). destruct (body ++ cfg); [|exact O]. apply only_mutes. repeat constructor. apply mute_simple. discriminate.
      - intros Nb. assert (O : mutes (body ++ cfg)) by (apply app2; auto). destruct (body ++ cfg); [|exact O]. repeat constructor. apply mute_simple. discriminate. }
    destruct OB as [O1 O2]. destruct bases as [|b0 bs]; [|apply good_mute; apply O2; discriminate].
    apply good_direct with on; [exact O1|]. rewrite (Had eq_refl). apply incl_appl, incl_refl.
Qed.
Lemma pt_union : forall tfn parent n sels o, all_deep (Qt tfn) sels -> below n sels -> pg (fun res => good (fst res)) (union_annotation c s tfn parent sels o).
Proof.
  intros tfn parent n sels o HT HB. unfold union_annotation. eapply pg_bind.
  - apply (pg_walk r0 (fun _ acc => good (fst acc))); [constructor|auto|]. intros l pre x post a -> El _ Ha. eapply pt_union_item; try eassumption. rewrite El. apply in_elt.
  - intros [classes names] H. cbn [fst] in H. destruct names as [|k [|k' names]]; [apply pg_raise|now apply pg_ret|]. apply (pg_skip st); [ev_tac|]. intros _.
    apply (pg_skip st); [kg; apply ev_optional_if; ev_tac|]. intros e. now apply pg_ret.
Qed.

(** ** interfaces *)
Definition parts_ok (p : iparts) : Prop := good (ip_classes p) /\ mutes (ip_fields p) /\ forall i, mutes (dget_list i (ip_inline p)).
Lemma pt_inline_fields : forall tfn strict parent on k, (forall g, In (SelField g) k -> Qt tfn g) -> below on (Some k) ->
  pg (fun r => good (fst r) /\ mutes (snd r)) (inline_fields s tfn strict parent on k).
Proof.
  intros tfn strict parent on k HT HB. unfold inline_fields. apply (pg_mfold r0 (fun _ r => good (fst r) /\ mutes (snd r))); [split; constructor|].
  intros pre x post acc El [A1 A2]. assert (Hx : In x k) by (rewrite El; apply in_elt). destruct x as [g|f ds|cond ds l]; try (apply pg_ret; split; assumption).
  destruct (String.eqb (fn_name g) "__typename") eqn:Et; [apply pg_ret; split; assumption|]. apply pg_opt. intros fd Hfd. eapply pg_bind; [apply HT; [exact Hx|]; eapply below_field; eassumption|].
  intros res [R1 R2]. apply pg_ret. split; now apply app2.
Qed.
Lemma dget_list_mutes : forall k l b, mutes l -> (forall i, mutes (dget_list i b)) -> forall i, mutes (dget_list i (dextend k l b)).
Proof. intros k l b Hl Hb i. rewrite dget_list_dextend. destruct (String.eqb i k); [apply app2; auto|auto]. Qed.
Lemma pt_iface_item : forall tfn strict n t fields parent l x p, all_deep (Qt tfn) (Some l) -> below n (Some l) -> get_type s n = Some t -> Gql.type_fields t = Some fields ->
  In x l -> is_typename_field x = false -> parts_ok p -> pg parts_ok (iface_item s tfn strict fields parent p x).
Proof.
  intros tfn strict n t fields parent l x p HT HB Hn Hf Hx Ht (P1 & P2 & P3). pose proof (HT l x eq_refl Hx) as HD.
  destruct x as [g|f ds|cond ds m]; cbn [iface_item].
  - apply pg_opt. intros fd Hfd. eapply pg_bind; [apply HD; eapply below_field; [exact HB|exact Hx|]; eapply field_def; eauto|].
    intros res [R1 R2]. apply pg_ret. split; [now apply app2|]. split; [now apply app2|exact P3].
  - apply (pg_skip st); [kg; apply ev_spread_bases|]. intros b. apply pg_ret. repeat split; auto.
  - apply pg_opt. intros on ->. apply (pg_skip st); [ev_tac|]. intros _. eapply pg_bind; [apply pt_inline_fields; [exact HD|eapply below_inline; eassumption]|].
    intros res [R1 R2]. apply pg_ret. split; [now apply app2|]. split; [exact P2|]. now apply dget_list_mutes.
Qed.
(** the class for one implementing type *)
Definition impl_ok (cls i : string) (x : stmt) : Prop := exists bases body, x = SClass cls bases body [] /\ incl (names_of (tr i)) bases /\ only i body.
Lemma impl_good : forall cls i x, impl_ok cls i x -> good1 x.
Proof. intros cls i x (bases & body & -> & I & O). now apply good_direct with i. Qed.
Lemma pt_implementing : forall m cls p i, parts_ok p -> pg (impl_ok cls i) (implementing_class c s m cls p i).
Proof.
  intros m cls p i (_ & _ & P3). unfold implementing_class. eapply pg_bind; [apply pt_additional|]. intros add ->. apply (pg_skip st); [ev_tac|]. intros ib.
  eapply pg_bind; [apply pt_typename|]. intros t Ht. apply pg_ret. do 2 eexists. split; [reflexivity|]. split.
  - intros y Hy. rewrite !in_app_iff. tauto.
  - cbn [app]. apply only_cons; [intros T' E; exfalso; revert E; apply mute_doc|]. apply only_cons; [exact Ht|]. now apply only_mutes.
Qed.
Lemma Forall2_Forall : forall {A B} (Q : A -> B -> Prop) (P : B -> Prop) l ys, (forall x y, Q x y -> P y) -> Forall2 Q l ys -> Forall P ys.
Proof. intros A B Q P l ys H F. induction F; constructor; eauto. Qed.
Lemma pt_interface : forall tfn parent target n desc i0 fields sels o, all_deep (Qt tfn) sels -> below n sels -> get_type s n = Some (TInterface desc i0 fields) ->
  pg (fun res => good (fst res)) (interface_annotation c s tfn parent target n desc fields sels o).
Proof.
  intros tfn parent target n desc i0 fields sels o HT HB Hn. unfold interface_annotation. cbn zeta.
  eapply (pg_bind r0 parts_ok).
  { apply (pg_walk r0 (fun _ => parts_ok)); [|auto|].
    - split; [constructor|]. split; [repeat constructor; apply mute_doc|]. intros i. constructor.
    - intros l' pre x post a -> El Ht Ha. eapply pt_iface_item; try eassumption; [reflexivity|]. rewrite El. apply in_elt. }
  intros p Hp. apply (pg_skip st); [ev_tac|]. intros add. apply (pg_skip st); [ev_tac|]. intros ib. eapply pg_bind; [apply pt_config|]. intros cfg Hc.
  eapply pg_bind; [apply pg_mmap; intros i Hi; apply pt_implementing; exact Hp|].
  intros impls Hm. apply (pg_skip st); [ev_tac|]. intros _. apply (pg_skip st); [ev_tac|]. intros _. destruct Hp as (P1 & P2 & P3).
  assert (Gi : good impls). { eapply Forall2_Forall; [|exact Hm]. intros i y Hy. cbn beta in Hy. exact (impl_good _ _ _ Hy). }
  eapply (pg_bind r0 (fun rest => good (fst rest))).
  { destruct (c_create_catchall c); [|apply pg_ret; constructor]. apply (pg_skip st); [ev_tac|]. intros ib2. eapply pg_bind; [apply pt_generic|]. intros t Ht.
    apply (pg_skip st); [ev_tac|]. intros _. apply pg_ret. cbn [fst]. constructor; [|constructor]. apply good_mute. constructor; [apply mute_doc|]. now constructor. }
  intros rest Hr. apply (pg_skip st); [kg; apply ev_optional_if; ev_tac|]. intros e. apply (pg_skip st); [ev_tac|]. intros _. apply pg_ret. cbn [fst].
  apply app2; [exact P1|]. constructor; [apply good_mute; now apply app2|]. now apply app2.
Qed.

(** ** objects *)
Lemma pt_spread : forall n l f ds, below n (Some l) -> is_object s n = true -> In (SelSpread f ds) l ->
  pg (has n) (let* i := get_interface_fragment_implementation_or_none f n in match i with Some b => ret b | None => inherit_fragment f end).
Proof.
  intros n l f ds HB Ho Hx. destruct (below_here _ _ HB) as [HS NB]. specialize (HS Ho). assert (Hf : In f (spreads l)) by (eapply spreads_in; exact Hx). specialize (NB f Hf).
  intros r k r' (E1 & E2 & E3 & E4) H. apply bind_ok in H as (i & ra & Hi & H).
  assert (Er : ra = r /\ (forall b, i = Some b -> has n b) /\ (i = None -> forall impls, dget f (r_iffrag r0) = Some impls -> dget n impls = None)).
  { unfold get_interface_fragment_implementation_or_none in Hi. apply bind_ok in Hi as (m & rb & Hm & Hi). cbn in Hm. injection Hm as <- <-. rewrite E2 in Hi. destruct (dget f (r_iffrag r0)) as [impls|] eqn:D.
    - destruct (dget n impls) as [b|] eqn:Dn.
      + apply ret_ok in Hi as [-> ->]. split; [reflexivity|]. split; [|discriminate]. intros b' [= <-]. eapply G1; [exact NB|exact D|now apply dget_Some_In].
      + apply bind_ok in Hi as (ft & rc & Hft & Hi). cbn in Hft. injection Hft as <- <-. destruct (dget f (r_fragtypes r)) as [t|]; [|discriminate]. destruct (String.eqb t n); [|discriminate].
        apply ret_ok in Hi as [-> ->]. split; [reflexivity|]. split; [discriminate|]. intros _ impls' [= <-]. exact Dn.
    - apply ret_ok in Hi as [-> ->]. split; [reflexivity|]. split; discriminate. }
  destruct Er as (-> & Es & En). destruct i as [b|].
  - apply ret_ok in H as [-> ->]. split; [repeat split; assumption|]. now apply Es.
  - apply pg_inherit with (r0 := r0) in H as [S Hk]; [|repeat split; assumption]. split; [exact S|]. destruct (G4 f k Hk) as (x & Hxd & Hn).
    destruct (HS x Hxd) as [Eo|[Ei Hi']]; [now rewrite Hn|subst n; eapply G2; eassumption|].
    exfalso. destruct (G3 f k x n NB Hk Hxd Hn Ei Hi') as (impls & k' & D & Dn). rewrite (En eq_refl impls D) in Dn. discriminate.
Qed.
Definition oacc_ok (n : string) (acc : list stmt * list string * list stmt) : Prop := good (fst (fst acc)) /\ Forall (has n) (snd (fst acc)) /\ only n (snd acc).
Lemma pt_object_item : forall tfn n t cls fields l x acc, all_deep (Qt tfn) (Some l) -> below n (Some l) -> get_type s n = Some t -> Gql.type_fields t = Some fields -> is_object s n = true ->
  In x l -> oacc_ok n acc -> pg (oacc_ok n) (object_item tfn n cls fields acc x).
Proof.
  intros tfn n t cls fields l x [[a b] e] HT HB Hn Hf Ho Hx (A1 & A2 & A3). cbn [fst snd] in *. pose proof (HT l x eq_refl Hx) as HD.
  destruct x as [g|f ds|cond ds m]; cbn [object_item].
  - destruct (String.eqb (fn_name g) "__typename") eqn:Et; [apply pg_ret; repeat split; assumption|].
    apply pg_opt. intros fd Hfd. eapply pg_bind; [apply HD; eapply below_field; [exact HB|exact Hx|]; eapply field_def; eauto|].
    intros res [R1 R2]. apply pg_ret. split; [now apply app2|]. split; [exact A2|]. apply only_app; [exact A3|now apply only_mutes].
  - intros r y r' S H. apply bind_ok in H as (i & ra & Hi & H). apply bind_ok in H as (k & rb & Hk & H).
    assert (P : gsame r0 rb /\ has n k). { apply (pt_spread n l f ds HB Ho Hx r k rb S). unfold bind at 1. rewrite Hi. exact Hk. }
    destruct P as [S' Hk']. apply ret_ok in H as [-> ->]. split; [exact S'|]. split; [exact A1|]. split; [|exact A3]. apply app2; [exact A2|now constructor].
  - apply pg_raise.
Qed.
Lemma pt_object : forall tfn parent target n desc i0 fields dirs sels o, all_deep (Qt tfn) sels -> below n sels -> get_type s n = Some (TObject desc i0 fields dirs) ->
  pg (fun res => good (fst res)) (object_annotation c st tfn parent target n desc fields sels o).
Proof.
  intros tfn parent target n desc i0 fields dirs sels o HT HB Hn. assert (Ho : is_object s n = true) by (unfold is_object; now rewrite Hn).
  unfold object_annotation. cbn zeta. eapply pg_bind; [apply pt_typename|]. intros t Ht.
  assert (B : pg (fun res => good (fst res)) (let* r := walk (object_item tfn n (parent +s+ py_capitalize target) fields) sels ([], [], [doc_stmt desc; t]) in
      let '(classes, bases, body) := r in
      let* add := match bases with
                  | [] => get_additional_bases_for_type c n
                  | _ => ret (map EName bases)
                  end in
      let* cfg := generate_pydantic_config (KT KObject) c None in
      let* e := optional_if o (ret (EName (parent +s+ py_capitalize target))) in
      ret (classes ++ [SClass (parent +s+ py_capitalize target) (add ++ names_of (c_object_bases c)) (body ++ cfg) []], e))).
  { eapply (pg_bind r0 (oacc_ok n)).
    { apply (pg_walk r0 (fun _ => oacc_ok n)); [|auto|].
      - split; [constructor|]. split; [constructor|]. cbn [snd]. apply only_cons; [intros T' E; exfalso; revert E; apply mute_doc|]. apply only_cons; [exact Ht|]. apply only_mutes. constructor.
      - intros l' pre x post a -> El _ Ha. eapply pt_object_item; try eassumption; [reflexivity|]. rewrite El. apply in_elt. }
    intros [[classes bases] body] (A1 & A2 & A3). cbn [fst snd] in *.
    eapply (pg_bind r0 (fun add => incl (names_of (tr n)) add \/ exists k, In (EName k) add /\ has n k)).
    { destruct bases as [|b bs]; [eapply pg_weaken; [apply pt_additional|intros a ->; left; apply incl_refl]|]. apply pg_ret. right. exists b. split; [now left|]. now inversion A2. }
    intros add Ha. eapply pg_bind; [apply pt_config|]. intros cfg Hc. apply (pg_skip st); [kg; apply ev_optional_if; ev_tac|]. intros e. apply pg_ret. cbn [fst].
    apply app2; [exact A1|]. constructor; [|constructor]. assert (O : only n (body ++ cfg)) by (apply only_app; [exact A3|now apply only_mutes]).
    destruct Ha as [Ha|(k & Hk & Hh)]; [apply good_direct with n; [exact O|now apply incl_appl]|]. apply good_via with n k; [exact O|apply in_app_iff; now left|exact Hh]. }
  destruct (option_map non_typename sels) as [[|[g|f ds|cond ds m] [|y l]]|]; try exact B.
  apply (pg_skip st); [ev_tac|]. intros i. apply (pg_skip st); [ev_tac|]. intros e. apply (pg_skip st); [kg; apply ev_optional_if; ev_tac|]. intros e'. apply pg_ret. constructor.
Qed.
Lemma pt_named : forall tfn parent target sels n o, all_deep (Qt tfn) sels -> below n sels ->
  pg (fun res => good (fst res)) (named_annotation c st s tfn parent target sels n o).
Proof.
  intros tfn parent target sels n o HT HB. unfold named_annotation. destruct (get_type s n) as [[]|] eqn:Hn; try apply pg_raise.
  - apply (pg_skip st); [kg; apply ev_optional_if; ev_tac|]. intros e. apply pg_ret. constructor.
  - apply (pg_skip st); [kg; apply ev_optional_if; ev_tac|]. intros e. apply pg_ret. constructor.
  - eapply pt_object; eassumption.
  - eapply pt_interface; eassumption.
  - eapply pt_union; eassumption.
Qed.
Lemma pt_wrap : forall (named : string -> bool -> Registry.M (list stmt * expr)) t, (forall o, pg (fun res => good (fst res)) (named (gty_name t) o)) ->
  forall o, pg (fun res => good (fst res)) (wrap_annotation c named t o).
Proof.
  intros named t. induction t as [n|t IH|t IH]; intros H o; cbn [wrap_annotation]; [apply H| |now apply IH].
  apply (pg_skip st); [ev_tac|]. intros _. apply (pg_skip st); [ev_tac|]. intros _. eapply pg_bind; [apply IH; exact H|]. intros r Hr. now apply pg_ret.
Qed.
Notation tfn := (type_field_node c st s).
Lemma pt_tfn : forall f, Qt tfn f.
Proof.
  assert (STEP : forall a n ar ds sels, all_deep (Qt tfn) sels -> Qt tfn (FieldNode a n ar ds sels)).
  { intros a n ar ds sels H parent fd HB. cbn [fn_sels] in HB. rewrite tfn_eq. cbn zeta. eapply pg_bind; [apply pt_wrap; intros o; now apply pt_named|].
    intros r Hr. eapply pg_bind; [apply pt_statements|]. intros body Hb. apply pg_ret. split; assumption. }
  apply fieldnode_rect'; [intros; apply STEP; intros l x [=]|intros a n ar ds l HL; apply STEP; intros l' x [= <-]; apply HL].
Qed.
Lemma all_Qt : forall sels, all_deep (Qt tfn) sels.
Proof. intros sels l [g|f ds|cond ds m] E Hx; cbn; auto using pt_tfn. Qed.

(** ** fragments *)
Variable pc : frcfg.
Variable pf : fragment -> string.
Variable addt : string -> res string.
Definition facc_ok (n : string) (acc : list stmt * list expr * list stmt) : Prop := good (fst (fst acc)) /\ incl (names_of (tr n)) (snd (fst acc)) /\ only n (snd acc).
Lemma pt_object_fragment : forall f cls desc, below (fr_on f) (Some (fr_sels f)) ->
  pg (fun l => good l /\ exists bases body, In (SClass cls bases body []) l /\ incl (names_of (tr (fr_on f))) bases) (object_fragment c st s pc pf addt f cls desc).
Proof.
  intros f cls desc HB. unfold object_fragment. eapply pg_bind; [apply pt_additional|]. intros ab ->. eapply pg_bind; [apply pt_typename|]. intros tn Ht.
  eapply (pg_bind r0 (facc_ok (fr_on f))).
  { apply (pg_mfold r0 (fun _ => facc_ok (fr_on f))).
    - split; [constructor|]. split; [apply incl_refl|]. cbn [snd]. apply only_cons; [intros T' E; exfalso; revert E; apply mute_doc|]. apply only_cons; [exact Ht|]. apply only_mutes. constructor.
    - intros pre x post [[a b] e] El (A1 & A2 & A3). cbn [fst snd] in *. assert (Hx : In x (fr_sels f)) by (rewrite El; apply in_elt).
      destruct x as [g|h ds|cond ds m]; cbn [object_fragment_item].
      + destruct (String.eqb (fn_name g) "__typename") eqn:Et; [apply pg_ret; repeat split; assumption|].
        apply pg_opt. intros fd Hfd. eapply pg_bind; [apply pt_tfn; eapply below_field; eassumption|].
        intros res [R1 R2]. apply pg_ret. split; [now apply app2|]. split; [exact A2|]. apply only_app; [exact A3|now apply only_mutes].
      + apply pg_gets. intros r _. apply (pg_skip st); [destruct (dget h (r_iffrag r)); ev_tac|]. intros k. apply pg_ret. split; [exact A1|]. split; [|exact A3]. now apply incl_tl.
      + apply pg_ret. repeat split; assumption. }
  intros [[classes bases] fields] (A1 & A2 & A3). cbn [fst snd] in *. eapply (pg_bind r0 mutes).
  { unfold fragment_meta. destruct (fr_meta pc); [|apply pg_ret; constructor]. apply (pg_skip st); [apply (ev_incl st []); [intros ? []|apply ev_replace]|]. intros doc. apply pg_ret. constructor; [|constructor]. apply mute_simple. discriminate. }
  intros meta Hm. apply (pg_skip st); [unfold get_fragment_bases; ev_tac|]. intros fb. eapply pg_bind; [apply pt_config|]. intros cfg Hc. apply pg_ret. split.
  - apply app2; [exact A1|]. constructor; [|constructor]. apply good_direct with (fr_on f); [|now apply incl_appl]. apply only_app; [exact A3|]. apply only_mutes. now apply app2.
  - do 2 eexists. split; [apply in_app_iff; right; now left|]. now apply incl_appl.
Qed.
Lemma interface_fragment_traits : forall f desc i0 fields r l r', below (fr_on f) (Some (fr_sels f)) -> get_type s (fr_on f) = Some (TInterface desc i0 fields) -> gsame r0 r ->
  interface_fragment c st s pc f desc fields r = (Ok l, r') ->
  good l /\ (forall i, In i (implementations s (fr_on f)) -> exists bases body, In (SClass (style_fragment_class st (fr_name f) +s+ i) bases body []) l /\ incl (names_of (tr i)) bases)
  /\ r_frags r' = r_frags r0
  /\ r_iffrag r' = dset (fr_name f) (fold_left (fun m i => dset i (style_fragment_class st (fr_name f) +s+ i) m) (implementations s (fr_on f)) []) (r_iffrag r0).
Proof.
  intros f desc i0 fields r l r' HB Hn S H. unfold interface_fragment in H. cbn zeta in H. set (base := style_fragment_class st (fr_name f)) in *.
  apply bind_ok in H as (add & r1 & H1 & H). apply pt_additional in H1 as [S1 ->]; [|exact S].
  apply bind_ok in H as (p & r2 & H2 & H). assert (Hp : gsame r0 r2 /\ parts_ok p).
  { revert H2. apply (pg_walk r0 (fun _ => parts_ok) _ (Some (fr_sels f))).
    - split; [constructor|]. split; [repeat constructor; apply mute_doc|]. intros i. constructor.
    - auto.
    - intros l' pre x post a [= <-] El Ht Ha. eapply pt_iface_item; try eassumption; [apply all_Qt|reflexivity|]. rewrite El. apply in_elt.
    - exact S1. }
  destruct Hp as [S2 Hp]. apply bind_ok in H as (ib & r3 & H3 & H). apply (pg_ev st r0 (fun _ => True)) in H3 as [S3 _]; [|apply pt_ibases|intros ? ? ? _; exact I|exact S2].
  apply bind_ok in H as (t & r4 & H4 & H). apply pt_generic in H4 as [S4 Ht]; [|exact S3].
  apply bind_ok in H as (impls & r5 & H5 & H).
  eapply (pg_mmap r0 (fun i => impl_ok (base +s+ i) i)) in H5 as [S5 Hm]; [|intros i Hi; apply pt_implementing; exact Hp|exact S4].
  apply bind_ok in H as (u & r6 & H6 & H). apply ret_ok in H as [-> ->]. cbn in H6. injection H6 as _ <-. destruct S5 as (E1 & E2 & E3 & E4). destruct Hp as (P1 & P2 & P3).
  split; [|split; [|cbn; split; [exact E1|now rewrite E2]]].
  - apply app2; [exact P1|]. constructor; [now apply good_mute|]. constructor; [apply good_mute; constructor; [apply mute_doc|now constructor]|].
    cbn [app]. eapply Forall2_Forall; [|exact Hm]. intros i y Hy. exact (impl_good _ _ _ Hy).
  - intros i Hi. destruct (Forall2_in_l _ _ _ _ Hm Hi) as (pre & y & post & Ey & (bases & body & -> & I & _)). exists bases, body. split; [|exact I].
    apply in_app_iff. right. apply in_app_iff. right. rewrite Ey. apply in_elt.
Qed.
Lemma union_fragment_traits : forall f desc ms r l r', below (fr_on f) (Some (fr_sels f)) -> (forall i, In i ms -> tr i = []) -> gsame r0 r ->
  union_fragment c st s pc f desc ms r = (Ok l, r') -> good l /\ r_frags r' = r_frags r0 /\ r_iffrag r' = r_iffrag r0.
Proof.
  intros f desc ms r l r' HB HM S H. unfold union_fragment in H. cbn zeta in H. set (base := style_fragment_class st (fr_name f)) in *.
  apply bind_ok in H as (add & r1 & H1 & H). apply pt_additional in H1 as [S1 _]; [|exact S].
  apply bind_ok in H as (p & r2 & H2 & H). assert (Hp : gsame r0 r2 /\ parts_ok p).
  { revert H2. apply (pg_walk r0 (fun _ => parts_ok) _ (Some (fr_sels f))).
    - split; [constructor|]. split; [constructor|]. intros i. constructor.
    - auto.
    - intros l' pre x post a [= <-] El Ht (P1 & P2 & P3). assert (Hx : In x (fr_sels f)) by (rewrite El; apply in_elt). destruct x as [g|h ds|cond ds k]; cbn [union_fragment_item]; [apply pg_raise| |].
      + apply (pg_skip st); [ev_tac|]. intros m. apply pg_ret. split; [exact P1|]. split; [constructor|exact P3].
      + apply pg_opt. intros on ->. pose proof (below_inline _ _ _ _ _ HB Hx) as HB'. eapply (pg_bind r0 acc_ok).
        * apply (pg_mfold r0 (fun _ => acc_ok)); [split; constructor|]. intros pre' y post' [[a1 b1] e1] El' [A1 A2]. cbn [fst snd] in *. assert (Hy : In y k) by (rewrite El'; apply in_elt).
          destruct y as [g|h ds'|cond ds' m]; cbn [union_inline]; try (apply pg_ret; split; assumption).
          destruct (String.eqb (fn_name g) "__typename"); [apply pg_ret; split; assumption|]. apply pg_opt. intros ty _. apply pg_opt. intros fd Hfd.
          eapply pg_bind; [apply pt_tfn; eapply below_field; eassumption|]. intros res [R1 R2]. apply pg_ret. split; cbn [fst snd]; now apply app2.
        * intros [[cl bs] fl] [A1 A2]. cbn [fst snd] in *. apply pg_ret. split; [now apply app2|]. split; [constructor|]. now apply dget_list_mutes.
    - exact S1. }
  destruct Hp as [S2 (P1 & P2 & P3)]. apply bind_ok in H as (classes & r3 & H3 & H).
  eapply (pg_mmap r0 (fun _ => good1)) in H3 as [S3 Hm].
  - apply bind_ok in H as (u & r4 & H4 & H). apply bind_ok in H as (u' & r5 & H5 & H). apply ret_ok in H as [-> ->]. cbn in H4. injection H4 as _ <-.
    cbn in H5. injection H5 as _ <-. destruct S3 as (E1 & E2 & E3 & E4). cbn. split; [|split; assumption].
    apply app2; [exact P1|]. apply app2; [eapply Forall2_Forall; [|exact Hm]; intros i y Hy; exact Hy|]. constructor; [exact I|]. destruct (_ && _); repeat constructor.
  - intros i Hi. apply (pg_skip st); [unfold get_fragment_bases; ev_tac|]. intros fb. eapply pg_bind; [apply pt_typename|]. intros t Ht. apply pg_ret.
    apply good_direct with i; [|rewrite (HM i Hi); intros y []]. apply only_cons; [exact Ht|now apply only_mutes].
  - exact S2.
Qed.
Variable oc : ocfg.
Variable po : operation -> string.
Variable doc_of : operation -> option string.
Lemma pt_operation : forall o, (forall root, root_type s (op_kind o) = Some root -> below root (Some (op_sels o))) ->
  pg good (generate_operation c st s oc po addt doc_of o).
Proof.
  intros o HB. unfold generate_operation. apply pg_opt. intros name _. apply (pg_skip st).
  { unfold operation_class, bases_or_default. destruct (op_kind o); ev_tac. }
  intros cb. apply pg_opt. intros root Hr. specialize (HB root Hr). cbn zeta.
  eapply (pg_bind r0 (fun acc => good (fst acc) /\ Forall mutes (snd acc))).
  { apply (pg_mfold r0 (fun _ acc => good (fst acc) /\ Forall mutes (snd acc))); [split; constructor|]. intros pre x post acc El [A1 A2]. assert (Hx : In x (op_sels o)) by (rewrite El; apply in_elt).
    destruct x as [g|f ds|cond ds m]; cbn [root_item]; try apply pg_raise. apply pg_opt. intros fd Hfd. eapply pg_bind; [apply pt_tfn; eapply below_field; eassumption|]. intros res [R1 R2]. apply pg_ret. split; [now apply app2|].
    apply app2; [exact A2|now constructor]. }
  intros acc [A1 A2]. apply (pg_skip st); [ev_tac|]. intros _. apply (pg_skip st); [apply (ev_incl st []); [intros ? []|apply ev_replace]|]. intros doc.
  eapply (pg_bind r0 mutes).
  { apply (pg_ev st); [eapply ev_incl; [|apply ev_arguments_class]; incl_tac|]. intros r x r' H. unfold arguments_class in H. destruct (o_create_arguments oc); [|minv; constructor].
    apply bind_ok in H as (fs & r1 & Hf & H). apply bind_ok in H as (cfg & r2 & Hc & H). apply bind_ok in H as (bs & r3 & Hb & H). apply ret_ok in H as [-> ->].
    constructor; [|constructor]. apply mute_simple. discriminate. }
  intros args Ha. eapply pg_bind; [apply pt_config|]. intros cfg Hc. apply pg_ret. apply app2; [exact A1|]. constructor; [|constructor]. apply good_mute.
  constructor; [apply mute_doc|]. cbn [app]. apply app2; [now apply Forall_concat|]. apply app2; [exact Ha|]. constructor; [|exact Hc]. apply mute_simple. discriminate.
Qed.
End Walk.

(** ** the two plugins *)
Record tables (c : gconfig) (s : schema) (d : document) (T0 : list stmt) (r : reg) : Prop := {
  t1 : forall f impls i k, dget f (r_iffrag r) = Some impls -> In (i, k) impls -> has c T0 i k;
  t2 : forall f k x, dget f (r_frags r) = Some k -> In (DFrag x) d -> fr_name x = f -> is_object s (fr_on x) = true -> has c T0 (fr_on x) k;
  t3 : forall f k x n, dget f (r_frags r) = Some k -> In (DFrag x) d -> fr_name x = f -> is_iface s (fr_on x) = true -> In n (implementations s (fr_on x)) ->
    exists impls k', dget f (r_iffrag r) = Some impls /\ dget n impls = Some k';
  t4 : forall f k, dget f (r_frags r) = Some k -> exists x, In (DFrag x) d /\ fr_name x = f }.
Lemma has_incl : forall c t t' i k, incl t t' -> has c t i k -> has c t' i k.
Proof. intros c t t' i k I H b Hb. eapply inherits_incl; [exact I|auto]. Qed.
Lemma good1_incl : forall c t t' m, incl t t' -> good1 c t m -> good1 c t' m.
Proof. intros c t t' [] I H; try exact H. intros T b E Hb. destruct (H T b E Hb) as [K|(k & K & Hk)]; [now left|right]. exists k. split; [exact K|]. eapply inherits_incl; eassumption. Qed.
Lemma has_class : forall c t k bases body decs i, In (SClass k bases body decs) t -> incl (names_of (traits (c_additional_bases c) i)) bases -> has c t i k.
Proof. intros c t k bases body decs i H I b Hb. eapply inherits_own; [exact H|]. apply I. apply (in_map (fun b => EName (last_comp b)) _ _ Hb). Qed.
Lemma fold_dset_some : forall (g : string -> string) is n m, In n is -> dget n (fold_left (fun m i => dset i (g i) m) is m) = Some (g n).
Proof.
  intros g is n m. revert m. assert (K : forall is m, dget n m = Some (g n) -> dget n (fold_left (fun m i => dset i (g i) m) is m) = Some (g n)).
  { clear is. induction is as [|i is IH]; intros m H; [exact H|]. cbn [fold_left]. apply IH. rewrite dget_dset. destruct (String.eqb_spec n i) as [->|]; auto. }
  induction is as [|i is IH]; intros m H; [contradiction|]. cbn [fold_left]. destruct H as [->|H]; [|now apply IH]. apply K. now rewrite dget_dset, String.eqb_refl.
Qed.

Section Plugins.
Variable c : gconfig.
Variable st : list styler.
Variable s : schema.
Variable d : document.
Variable pc : frcfg.
Variable pf : fragment -> string.
Variable addt : string -> res string.
Hypothesis HD : trait_document s (c_additional_bases c) d.
Lemma one_fragment : forall x y, In (DFrag x) d -> In (DFrag y) d -> fr_name x = fr_name y -> x = y.
Proof.
  intros x y Hx Hy E. destruct HD as [N _]. apply in_fragments in Hx, Hy. revert N Hx Hy. generalize (fragments_of d). clear - E. induction l as [|a l IH]; intros N Hx Hy; [contradiction|].
  cbn in N. inversion N; subst. destruct Hx as [->|Hx], Hy as [->|Hy]; auto.
  - exfalso. apply H1. rewrite E. now apply in_map.
  - exfalso. apply H1. rewrite <- E. now apply in_map.
Qed.
Lemma fragment_traits : forall T0 x r l r', tables c s d T0 r -> In (DFrag x) d -> generate_fragment c st s pc pf addt x r = (Ok l, r') ->
  tables c s d (T0 ++ l) r' /\ Forall (good1 c T0) l.
Proof.
  intros T0 x r l r' [t1 t2 t3 t4] Hx H. unfold generate_fragment in H.
  apply bind_ok in H as (t & ra & Ha & H). apply from_opt_ok in Ha as [Ht ->]. apply bind_ok in H as (name & rb & Hb & H). apply generate_in_spec in Hb as (Hnone & -> & ->).
  apply bind_ok in H as (u1 & rc & Hc & H). apply bind_ok in H as (u2 & rd & Hd & H).
  set (cls := style_fragment_class st (fr_name x)) in *.
  assert (R : r_frags rd = dset (fr_name x) cls (r_frags r) /\ r_iffrag rd = r_iffrag r).
  { unfold register_fragment_document in Hc. minv. unfold register_fragment_type in Hd. minv. cbn. auto. }
  clear Hc Hd. destruct R as (R1 & R2). destruct HD as (_ & HFr & HU & _).
  set (Ban := fun g => g = fr_name x).
  assert (HB : below s d Ban (fr_on x) (Some (fr_sels x))).
  { intros l0 [= <-] m k O. destruct (HFr x Hx m k O) as [A B]. split; [exact A|]. intros f Hf ->. exact (B Hf). }
  assert (D1 : forall f, f <> fr_name x -> dget f (r_frags rd) = dget f (r_frags r)).
  { intros f Ne. rewrite R1, dget_dset. destruct (String.eqb_spec f (fr_name x)); [contradiction|reflexivity]. }
  assert (H1 : forall f impls i k, ~ Ban f -> dget f (r_iffrag rd) = Some impls -> In (i, k) impls -> has c T0 i k) by (intros f impls i k _; rewrite R2; apply t1).
  assert (H2 : forall f k y, ~ Ban f -> dget f (r_frags rd) = Some k -> In (DFrag y) d -> fr_name y = f -> is_object s (fr_on y) = true -> has c T0 (fr_on y) k).
  { intros f k y NB. rewrite (D1 f NB). apply t2. }
  assert (H3 : forall f k y n, ~ Ban f -> dget f (r_frags rd) = Some k -> In (DFrag y) d -> fr_name y = f -> is_iface s (fr_on y) = true -> In n (implementations s (fr_on y)) ->
    exists impls k', dget f (r_iffrag rd) = Some impls /\ dget n impls = Some k').
  { intros f k y n NB. rewrite (D1 f NB), R2. apply t3. }
  assert (H4 : forall f k, dget f (r_frags rd) = Some k -> exists y, In (DFrag y) d /\ fr_name y = f).
  { intros f k. destruct (String.eqb_spec f (fr_name x)) as [->|Ne]; [eauto|]. rewrite (D1 f Ne). apply t4. }
  assert (I0 : incl T0 (T0 ++ l)) by (apply incl_appl, incl_refl).
  assert (FIN : forall r', Forall (good1 c T0) l -> r_frags r' = r_frags rd ->
     (forall f, f <> fr_name x -> dget f (r_iffrag r') = dget f (r_iffrag rd)) ->
     (forall impls i k, dget (fr_name x) (r_iffrag r') = Some impls -> In (i, k) impls -> has c (T0 ++ l) i k) ->
     (is_object s (fr_on x) = true -> has c (T0 ++ l) (fr_on x) cls) ->
     (forall n, is_iface s (fr_on x) = true -> In n (implementations s (fr_on x)) -> exists impls k', dget (fr_name x) (r_iffrag r') = Some impls /\ dget n impls = Some k') ->
     tables c s d (T0 ++ l) r' /\ Forall (good1 c T0) l).
  { clear r' H. intros r' GD F1 F2 F3 F4 F5. split; [|exact GD]. split.
    - intros f impls i k. destruct (String.eqb_spec f (fr_name x)) as [->|Ne]; [apply F3|]. rewrite (F2 f Ne). intros A B. eapply has_incl; [exact I0|]. now apply (H1 f impls i k).
    - intros f k y Hf Hy En Eo. rewrite F1 in Hf. destruct (String.eqb_spec f (fr_name x)) as [->|Ne].
      + rewrite (one_fragment _ _ Hy Hx En) in *. rewrite R1, dget_dset, String.eqb_refl in Hf. injection Hf as <-. auto.
      + eapply has_incl; [exact I0|]. eapply H2; eassumption.
    - intros f k y n Hf Hy En Ei Hn. rewrite F1 in Hf. destruct (String.eqb_spec f (fr_name x)) as [->|Ne].
      + rewrite (one_fragment _ _ Hy Hx En) in *. auto.
      + rewrite (F2 f Ne). eapply H3; eassumption.
    - intros f k. rewrite F1. apply H4. }
  assert (SAME : r_iffrag rd = r_iffrag r -> forall impls i k, dget (fr_name x) (r_iffrag rd) = Some impls -> In (i, k) impls -> has c (T0 ++ l) i k).
  { intros _ impls i k. rewrite R2. intros A B. eapply has_incl; [exact I0|]. eapply t1; eassumption. }
  destruct t as [dd|dd vs|dd is0 fs0 dirs|dd is0 fs0|dd ms|dd fs0 dirs]; try (cbn in H; discriminate).
  - eapply (pt_object_fragment c st s d T0 Ban rd H1 H2 H3 H4 pc pf addt) in H; [|exact HB|apply gsame_refl]. destruct H as [(E1 & E2 & E3 & E4) [GD (bases & body & Hin & Hi)]].
    apply FIN; auto; [now rewrite E2|intros impls i k; rewrite E2; now apply SAME| |].
    + intros _. eapply has_class; [apply in_app_iff; right; exact Hin|exact Hi].
    + unfold is_iface. now rewrite Ht.
  - eapply (interface_fragment_traits c st s d T0 Ban rd H1 H2 H3 H4 pc) in H; [|exact HB|exact Ht|apply gsame_refl]. destruct H as (GD & Hc & E1 & E2).
    apply FIN; auto.
    + intros f Ne. rewrite E2, dget_dset. destruct (String.eqb_spec f (fr_name x)); [contradiction|reflexivity].
    + intros impls i k. rewrite E2, dget_dset, String.eqb_refl. intros [= <-] Hk. destruct (impl_table (fun i => cls +s+ i) (implementations s (fr_on x)) []) as [_ B]; [constructor|contradiction|].
      apply B in Hk as [-> [Hi|[]]]. destruct (Hc i Hi) as (bases & body & Hin & Hb). eapply has_class; [apply in_app_iff; right; exact Hin|exact Hb].
    + unfold is_object. now rewrite Ht.
    + intros n _ Hn. rewrite E2, dget_dset, String.eqb_refl. do 2 eexists. split; [reflexivity|]. now apply (fold_dset_some (fun i => cls +s+ i)).
  - eapply (union_fragment_traits c st s d T0 Ban rd H1 H2 H3 H4 pc pf addt) in H; [|exact HB|intros i Hi; eapply HU; eassumption|apply gsame_refl]. destruct H as (GD & E1 & E2).
    apply FIN; auto; [now rewrite E2|intros impls i k; rewrite E2; now apply SAME| |].
    + unfold is_object. now rewrite Ht.
    + unfold is_iface. now rewrite Ht.
Qed.
Lemma fragments_traits : forall r l r', r_frags r = [] -> r_iffrag r = [] -> fragments_plugin c st s pc pf addt d r = (Ok l, r') -> tables c s d l r' /\ Forall (good1 c l) l.
Proof.
  intros r l r' R1 R2 H. unfold fragments_plugin in H. apply bind_ok in H as (fs & ra & Hl & H). unfold lift in Hl. injection Hl as Hl ->.
  assert (Hin : incl fs (fragments_of d)). { destruct (ordering_C01 d (proj1 HD)) as (l0 & E & P). rewrite E in Hl. injection Hl as <-. intros y Hy. now apply (Permutation_in _ P). }
  apply (mconcat_fold _ (fun acc rr => tables c s d acc rr /\ Forall (good1 c acc) acc) _ _ _ _ H).
  - split; [|constructor]. split; rewrite ?R1, ?R2; discriminate.
  - intros x acc rb y rc Hx [IH1 IH2] Hy. apply Hin, in_fragments in Hx. destruct (fragment_traits _ _ _ _ _ IH1 Hx Hy) as [T' Gy]. split; [exact T'|].
    assert (I0 : incl acc (acc ++ y)) by (apply incl_appl, incl_refl). apply Forall_app. split; eapply Forall_impl; [|exact IH2| |exact Gy]; intros m; apply good1_incl; exact I0.
Qed.
Variable oc : ocfg.
Variable po : operation -> string.
Variable doc_of : operation -> option string.
Lemma operations_traits : forall T0 r l r', tables c s d T0 r -> operations_plugin c st s oc po addt doc_of d r = (Ok l, r') -> Forall (good1 c T0) l.
Proof.
  intros T0 r l r' TT H. unfold operations_plugin in H.
  assert (X : tables c s d T0 r' /\ Forall (good1 c T0) l); [|apply X].
  apply (mconcat_fold _ (fun acc rr => tables c s d T0 rr /\ Forall (good1 c T0) acc) _ _ _ _ H); [split; [exact TT|constructor]|].
  intros o acc rb y rc Hx [[t1 t2 t3 t4] IH2] Hy. apply in_operations in Hx. destruct HD as (_ & _ & _ & HO).
  eapply (pt_operation c st s d T0 (fun _ => False) rb) in Hy.
  - destruct Hy as [(E1 & E2 & E3 & E4) Gy]. split; [|now apply Forall_app]. split; rewrite ?E1, ?E2; assumption.
  - intros f impls i k _. apply t1.
  - intros f k x _. apply t2.
  - intros f k x n _. apply t3.
  - exact t4.
  - intros root Hr l0 [= <-] m k O. split; [eapply HO; eassumption|auto].
  - apply gsame_refl.
Qed.
End Plugins.

Lemma good_reach : forall c t, Forall (good1 c t) t -> traits_reach (c_additional_bases c) t.
Proof.
  intros c t F T n b H Hb. rewrite Forall_forall in F. induction H as [n bases body decs Hin HE|n bases body decs m Hin Hm _ IH].
  - destruct (F _ Hin T b HE Hb) as [K|(k & K & Hk)]; [eapply inherits_own|eapply inherits_base]; eassumption.
  - eapply inherits_base; eassumption.
Qed.
Theorem traits_C71 : forall c st s d pc pf addt oc po doc_of r lf r1 lo r2, trait_document s (c_additional_bases c) d -> r_frags r = [] -> r_iffrag r = [] ->
  fragments_plugin c st s pc pf addt d r = (Ok lf, r1) -> operations_plugin c st s oc po addt doc_of d r1 = (Ok lo, r2) -> traits_reach (c_additional_bases c) (lf ++ lo).
Proof.
  intros c st s d pc pf addt oc po doc_of r lf r1 lo r2 HD R1 R2 H1 H2. destruct (fragments_traits _ _ _ _ _ _ _ HD _ _ _ R1 R2 H1) as [TT GF].
  pose proof (operations_traits _ _ _ _ _ HD _ _ _ _ _ _ _ TT H2) as GO. apply good_reach. apply Forall_app.
  assert (I0 : incl lf (lf ++ lo)) by (apply incl_appl, incl_refl). split; eapply Forall_impl; [|exact GF| |exact GO]; intros m; apply good1_incl; exact I0.
Qed.

(** ** classes for the types of the schema *)
Lemma objects_traits : forall c st s pc r l r' key t, generate_types c st s pc r = (Ok l, r') -> In (key, t) (s_types s) -> output_fields t <> None ->
  ~ object_skipped (ob_skip_underscore pc) (ob_skip_double_underscore pc) key ->
  exists bases body, In (SClass (schema_class_name st key t) bases body []) l /\ traits_first (c_additional_bases c) key bases.
Proof.
  intros c st s pc r l r' key t H Hk Ht Hs. unfold generate_types in H. apply bind_ok in H as (u & r1 & H1 & H).
  apply bind_ok in H as (x & r2 & H2 & H). apply bind_ok in H as (us & r3 & H3 & H). cbn zeta in H. apply bind_ok in H as (u2 & r4 & H4 & H). apply ret_ok in H as [-> ->].
  assert (Hso : In (key, t) (sorted_objects s)).
  { unfold sorted_objects. apply in_app_iff. destruct t; try (now elim Ht); [right|left]; apply filter_In; auto. }
  set (P := fun (kt : string * typedef) tree => ~ object_skipped (ob_skip_underscore pc) (ob_skip_double_underscore pc) (fst kt) ->
     exists bases body, In (SClass (schema_class_name st (fst kt) (snd kt)) bases body []) tree /\ traits_first (c_additional_bases c) (fst kt) bases).
  assert (F : forall kt, In kt (sorted_objects s) -> P kt (os_tree x)).
  { eapply (mfold_ok _ (fun pre y _ => True /\ forall kt, In kt pre -> P kt (os_tree y))) in H2; [exact (proj2 H2)|split; [exact I|contradiction]|].
    intros pre [k ty] post y ra y' rb _ [_ HP] Hst. split; [exact I|]. unfold object_step in Hst. apply bind_ok in Hst as (add & ra1 & Ha & Hst). apply additional_bases_spec in Ha.
    destruct (_ || _) eqn:Sk.
    - apply ret_ok in Hst as [-> ->]. intros kt Hin. apply in_app_iff in Hin as [Hin|[<-|[]]]; [auto|]. intros N. exfalso. apply N. unfold object_skipped. cbn [fst].
      apply orb_true_iff in Sk as [Sk|Sk]; apply andb_true_iff in Sk; tauto.
    - apply bind_ok in Hst as (cn & ra2 & Hn & Hst). apply bind_ok in Hst as (ib & ra3 & Hi & Hst). apply bind_ok in Hst as (fs & ra4 & Hf & Hst). apply bind_ok in Hst as (cfg & ra5 & Hc & Hst).
      cbn zeta in Hst. apply ret_ok in Hst as [-> ->]. cbn [os_tree].
      assert (En : cn = schema_class_name st k ty).
      { destruct ty; cbn [is_interface_def] in Hn; first [apply generate_interface_name in Hn|apply generate_objecttype_name in Hn]; exact Hn. }
      intros kt Hin. apply in_app_iff in Hin as [Hin|[<-|[]]].
      + intros N. destruct (HP kt Hin N) as (bases & body & Hb & Hp). exists bases, body. split; [apply in_app_iff; now left|exact Hp].
      + intros N. cbn [fst snd]. rewrite <- En. do 2 eexists. split; [apply in_app_iff; right; now left|]. eexists. rewrite Ha. reflexivity. }
  destruct (F _ Hso Hs) as (bases & body & Hb & Hp). exists bases, body. split; [apply in_app_iff; now left|exact Hp].
Qed.
Section Inputs.
Variable c : gconfig.
Variable st : list styler.
Variable pc : inputs_config.
Variable s : schema.
Notation tb := (c_additional_bases c).
Notation made := (input_made tb st s).
Lemma class_made : forall key t r d b ds x r', In (key, t) (schema_inputs s) -> b = names_of (traits tb key) ->
  input_class c st pc s (style_with sty_input st key) key d (id_fields t) b ds r = (Ok x, r') -> made x.
Proof.
  intros key t r d b ds x r' Hin -> H. unfold input_class in H.
  apply bind_ok in H as (dfs & r1 & H1 & H). apply bind_ok in H as (fs & r2 & H2 & H). cbn zeta in H.
  apply bind_ok in H as (cfg & r3 & H3 & H). apply ret_ok in H as [-> ->].
  exists key, t. split; [exact Hin|]. split; [now eexists|now left].
Qed.
Lemma wrappers_made : forall key t r l r', In (key, t) (schema_inputs s) -> is_oneof t ->
  generate_oneof_wrapper_input c st pc s key (id_fields t) r = (Ok l, r') -> Forall made l.
Proof.
  intros key t r l r' Hin HO H. unfold generate_oneof_wrapper_input in H.
  apply bind_ok in H as (ab & r1 & H1 & H). apply additional_bases_spec in H1. apply bind_ok in H as (ws & r2 & H2 & H). apply bind_ok in H as (al & r3 & H3 & H).
  apply bind_ok in H as (a & r4 & H4 & H). apply ret_ok in H as [-> ->]. apply Forall_app. split.
  - assert (F : Forall2 (fun _ y => made (snd y)) (id_fields t) ws).
    { eapply (mmap_inv _ (fun _ => True)); [exact H2|exact I|]. intros [k v] ra y rb Hk _ Hx. split; [exact I|]. cbn beta in Hx.
      unfold oneof_wrapper_class in Hx. apply bind_ok in Hx as (cn & r5 & H5 & Hx). apply bind_ok in Hx as (a0 & r6 & H6 & Hx).
      apply bind_ok in Hx as (a1 & r7 & H7 & Hx). cbn zeta in Hx. apply bind_ok in Hx as (vv & r8 & H8 & Hx).
      apply bind_ok in Hx as (cfg & r9 & H9 & Hx). apply ret_ok in Hx as [-> ->]. cbn [snd].
      exists key, t. split; [exact Hin|]. split; [rewrite H1; now eexists|].
      right. split; [exact HO|]. exists (k, v). split; [exact Hk|]. unfold try_except in H5.
      destruct (generate_inputtype st _ ra) as [[y|e] rr] eqn:G; [injection H5 as <- <-; apply generated_name in G; exact G|].
      destruct (is_cls _ e); discriminate. }
    clear - F. induction F; cbn; constructor; auto.
  - constructor; [|constructor]. unfold generate_union_alias in H4. destruct (map fst ws) as [|m [|m' ms]]; minv; exact I.
Qed.
Lemma inputs_traits : forall documents r body r', generate_inputs c st pc s documents r = (Ok body, r') -> Forall made body.
Proof.
  intros documents r body r' H. unfold generate_inputs in H. apply bind_ok in H as (rf & r1 & H1 & H).
  apply bind_ok in H as (u & r2 & H2 & H). apply bind_ok in H as (x & r3 & H3 & H). apply bind_ok in H as (y & r4 & H4 & H).
  apply bind_ok in H as (l & r5 & H5 & H). apply ret_ok in H as [-> ->].
  assert (X : Forall made (snd x)).
  { eapply (mfold_ok _ (fun _ a _ => Forall made (snd a))) in H3; [exact H3|constructor|].
    intros pre [key t] post [p tree] ra acc' rb E HP Hs. cbn [snd] in HP. unfold prepass_type in Hs.
    apply bind_ok in Hs as ([ms discr] & r6 & _ & Hs). destruct ms as [|m ms]; [apply ret_ok in Hs as [-> ->]; exact HP|].
    apply bind_ok in Hs as (ds & r7 & _ & Hs). apply bind_ok in Hs as (n & r8 & Hn & Hs). apply bind_ok in Hs as (cl & r9 & Hc & Hs).
    apply ret_ok in Hs as [-> ->]. cbn [snd]. apply Forall_app. split; [exact HP|]. constructor; [|constructor].
    apply generated_name in Hn as ->. unfold generate_input_type in Hc. apply bind_ok in Hc as (ab & r10 & Hab & Hc).
    eapply class_made; [|apply additional_bases_spec in Hab; exact Hab|exact Hc]. change (schema_inputs s) with (input_types s). rewrite E. apply in_elt. }
  assert (Y : Forall made (fst y)).
  { eapply (mfold_ok _ (fun _ a _ => Forall made (fst a))) in H4; [exact H4|exact X|].
    intros pre [key t] post [tree df] ra acc' rb E HP Hs. cbn [fst] in HP.
    assert (Hin : In (key, t) (schema_inputs s)) by (change (schema_inputs s) with (input_types s); rewrite E; apply in_elt).
    unfold main_type in Hs. destruct (mem key _); [apply ret_ok in Hs as [-> ->]; exact HP|].
    destruct (match rf with Some r => _ | None => _ end); [apply ret_ok in Hs as [-> ->]; exact HP|].
    destruct (_ && _); [apply ret_ok in Hs as [-> ->]; exact HP|].
    destruct (is_oneof_input_type _) eqn:O.
    - apply bind_ok in Hs as (v & r6 & _ & Hs). cbn zeta in Hs. apply is_oneof_dec in O.
      assert (HO : is_oneof t) by (destruct t; exact O).
      assert (W : forall acc', bind (generate_oneof_wrapper_input c st pc s key (id_fields t)) (fun l0 => ret (tree ++ l0, df)) r6 = (Ok acc', rb) -> Forall made (fst acc')).
      { intros acc2 Hw. apply bind_ok in Hw as (l0 & r7 & Hw & Hr). apply ret_ok in Hr as [-> ->]. cbn [fst]. apply Forall_app. split; [exact HP|].
        eapply wrappers_made; eauto. }
      destruct (if String.eqb _ _ then _ else _) as [ms|]; [|exact (W _ Hs)]. destruct (existsb _ ms); [exact (W _ Hs)|].
      apply ret_ok in Hs as [-> ->]. exact HP.
    - destruct (dget key _) as [members|].
      + apply bind_ok in Hs as (? & ? & _ & Hs). apply bind_ok in Hs as (? & ? & _ & Hs). apply bind_ok in Hs as (? & ? & _ & Hs).
        apply bind_ok in Hs as (al & ? & _ & Hs). apply ret_ok in Hs as [-> ->]. cbn [fst]. apply Forall_app. split; [exact HP|]. repeat constructor.
      + apply bind_ok in Hs as (ab & ? & Hab & Hs). apply bind_ok in Hs as (n & ? & Hn & Hs). apply bind_ok in Hs as (cl & ? & Hc & Hs).
        apply ret_ok in Hs as [-> ->]. cbn [fst]. apply Forall_app. split; [exact HP|]. constructor; [|constructor].
        apply generated_name in Hn as ->. eapply class_made; [exact Hin|apply additional_bases_spec in Hab; exact Hab|exact Hc]. }
  apply Forall_app. split; [exact Y|]. apply mconcat_ok in H5 as (yss & H5 & ->).
  assert (F : Forall2 (fun _ z => Forall made z) (snd y) yss).
  { eapply (mmap_inv _ (fun _ => True)); [exact H5|exact I|]. intros km ra z rb _ _ Hz. split; [exact I|]. cbn beta in Hz.
    unfold generate_oneof_direct_union in Hz. apply bind_ok in Hz as (al & ? & _ & Hz). cbn zeta in Hz.
    apply bind_ok in Hz as (cs & ? & _ & Hz). apply bind_ok in Hz as (? & ? & _ & Hz). apply bind_ok in Hz as (? & ? & _ & Hz). apply bind_ok in Hz as (? & ? & _ & Hz).
    apply ret_ok in Hz as [-> _]. repeat constructor. }
  clear - F. induction F; cbn; [constructor|]. apply Forall_app; auto.
Qed.
End Inputs.
(** classes that only inherit from each other do not inherit from [b] *)
Lemma not_inherits : forall t b S n, In n S -> (forall m bases body decs, In (SClass m bases body decs) t -> In m S -> ~ In (EName b) bases /\ forall k, In (EName k) bases -> In k S) -> ~ inherits t b n.
Proof.
  intros t b S n Hn H I. induction I as [n bases body decs Hin Hb|n bases body decs m Hin Hm _ IH]; destruct (H _ _ _ _ Hin Hn) as [A B]; [auto|]. apply IH. now apply B.
Qed.
