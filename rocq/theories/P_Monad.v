(** Reasoning about the registry monad. *)
From Verif Require Import Base PyAst Gql Config Stylers Registry Utils P_Base.

(** ** Inversion of successful runs *)
Lemma bind_ok : forall {A B} (m : M A) (k : A -> M B) r b r'',
  bind m k r = (Ok b, r'') -> exists a r', m r = (Ok a, r') /\ k a r' = (Ok b, r'').
Proof. intros A B m k r b r'' H. unfold bind in H. destruct (m r) as [[a|e] r']; [eauto|discriminate]. Qed.
Lemma ret_ok : forall {A} (a b : A) r r', ret a r = (Ok b, r') -> b = a /\ r' = r.
Proof. intros A a b r r' [= -> ->]; auto. Qed.
Lemma raise_ok : forall {A} c msg (b : A) r r', ~ raise c msg r = (Ok b, r').
Proof. intros; discriminate. Qed.
Lemma gets_ok : forall {A} (f : reg -> A) b r r', gets f r = (Ok b, r') -> b = f r /\ r' = r.
Proof. intros A f b r r' [= -> ->]; auto. Qed.
Lemma modify_ok : forall f b r r', modify f r = (Ok b, r') -> b = tt /\ r' = f r.
Proof. intros f b r r' [= -> ->]; auto. Qed.
Lemma lift_ok : forall {A} (x : res A) b r r', lift x r = (Ok b, r') -> x = Ok b /\ r' = r.
Proof. intros A x b r r' [= -> ->]; auto. Qed.
Lemma massert_ok : forall b msg u r r', massert b msg r = (Ok u, r') -> b = true /\ r' = r.
Proof. intros [] msg u r r' H; [injection H as <- <-; auto|discriminate]. Qed.
Lemma from_opt_ok : forall {A} (o : option A) c msg a r r', from_opt o c msg r = (Ok a, r') -> o = Some a /\ r' = r.
Proof. intros A [x|] c msg a r r' H; [injection H as -> ->; auto|discriminate]. Qed.
Lemma try_ok : forall {A} (m : M A) p h r a r',
  try_except m p h r = (Ok a, r') ->
  m r = (Ok a, r') \/ (exists e r1, m r = (Err e, r1) /\ p e = true /\ h e r1 = (Ok a, r')).
Proof.
  intros A m p h r a r' H. unfold try_except in H. destruct (m r) as [[x|e] r1] eqn:E.
  - left; congruence.
  - destruct (p e) eqn:P; [right; eauto 6|discriminate].
Qed.

Ltac minv1 :=
  match goal with
  | H : bind _ _ _ = (Ok _, _) |- _ =>
      apply bind_ok in H; let a := fresh "a" in let r := fresh "r" in let H1 := fresh "H" in
      destruct H as (a & r & H1 & H)
  | H : ret _ _ = (Ok _, _) |- _ => apply ret_ok in H; destruct H; subst
  | H : gets _ _ = (Ok _, _) |- _ => apply gets_ok in H; destruct H; subst
  | H : modify _ _ = (Ok _, _) |- _ => apply modify_ok in H; destruct H; subst
  | H : lift _ _ = (Ok _, _) |- _ => apply lift_ok in H; destruct H; subst
  | H : massert _ _ _ = (Ok _, _) |- _ => apply massert_ok in H; destruct H; subst
  | H : from_opt _ _ _ _ = (Ok _, _) |- _ => apply from_opt_ok in H; destruct H; subst
  | H : raise _ _ _ = (Ok _, _) |- _ => discriminate H
  end.
Ltac minv := repeat minv1.

(** ** Preservation of a relation between the registry before and after, on success and on
    failure *)
Section Pres.
Variable R : reg -> reg -> Prop.
Hypothesis R_refl : forall r, R r r.
Hypothesis R_trans : forall a b c, R a b -> R b c -> R a c.
Definition pres {A} (m : M A) : Prop := forall r, R r (snd (m r)).
Lemma pres_ret : forall {A} (a : A), pres (ret a).  Proof. intros A a r; apply R_refl. Qed.
Lemma pres_raise : forall {A} c msg, pres (@raise A c msg).  Proof. intros A c m r; apply R_refl. Qed.
Lemma pres_gets : forall {A} (f : reg -> A), pres (gets f).  Proof. intros A f r; apply R_refl. Qed.
Lemma pres_lift : forall {A} (x : res A), pres (lift x).  Proof. intros A x r; apply R_refl. Qed.
Lemma pres_massert : forall b msg, pres (massert b msg).  Proof. intros [] m r; apply R_refl. Qed.
Lemma pres_from_opt : forall {A} (o : option A) c msg, pres (from_opt o c msg).
Proof. intros A [] c m r; apply R_refl. Qed.
Lemma pres_modify : forall f, (forall r, R r (f r)) -> pres (modify f).
Proof. intros f H r; apply H. Qed.
Lemma pres_bind : forall {A B} (m : M A) (k : A -> M B), pres m -> (forall a, pres (k a)) -> pres (bind m k).
Proof.
  intros A B m k Hm Hk r. unfold bind. specialize (Hm r). destruct (m r) as [[a|e] r']; cbn in *; [|assumption].
  eapply R_trans; [exact Hm|apply Hk].
Qed.
Lemma pres_try : forall {A} (m : M A) p h, pres m -> (forall e, pres (h e)) -> pres (try_except m p h).
Proof.
  intros A m p h Hm Hh r. unfold try_except. specialize (Hm r). destruct (m r) as [[a|e] r']; cbn in *; [assumption|].
  destruct (p e); [eapply R_trans; [exact Hm|apply Hh]|assumption].
Qed.
Lemma pres_mmap : forall {A B} (f : A -> M B) l, (forall x, In x l -> pres (f x)) -> pres (mmap f l).
Proof.
  intros A B f l. induction l as [|x l IH]; intros H; [apply pres_ret|].
  cbn. apply pres_bind; [apply H; now left|]. intros y. apply pres_bind; [apply IH; intros; apply H; now right|].
  intros; apply pres_ret.
Qed.
Lemma pres_miter : forall {A} (f : A -> M unit) l, (forall x, In x l -> pres (f x)) -> pres (miter f l).
Proof.
  intros A f l. induction l as [|x l IH]; intros H; [apply pres_ret|].
  cbn. apply pres_bind; [apply H; now left|]. intros _. apply IH; intros; apply H; now right.
Qed.
Lemma pres_mfold : forall {A S} (f : S -> A -> M S) l, (forall s x, In x l -> pres (f s x)) -> forall s, pres (mfold f l s).
Proof.
  intros A S f l. induction l as [|x l IH]; intros H s; [apply pres_ret|].
  cbn. apply pres_bind; [apply H; now left|]. intros s'. apply IH; intros; apply H; now right.
Qed.
Lemma pres_mconcat : forall {A B} (f : A -> M (list B)) l, (forall x, In x l -> pres (f x)) -> pres (mconcat f l).
Proof. intros A B f l H. apply pres_bind; [apply pres_mmap, H|]. intros; apply pres_ret. Qed.
Lemma pres_ok : forall {A} (m : M A) r a r', pres m -> m r = (Ok a, r') -> R r r'.
Proof. intros A m r a r' H E. specialize (H r). rewrite E in H. exact H. Qed.
Lemma pres_any : forall {A} (m : M A) r x r', pres m -> m r = (x, r') -> R r r'.
Proof. intros A m r x r' H E. specialize (H r). rewrite E in H. exact H. Qed.
Lemma mmap_ok : forall {A B} (f : A -> M B) (Q : A -> B -> Prop) l r ys r',
  mmap f l r = (Ok ys, r') ->
  (forall x, In x l -> pres (f x)) ->
  (forall x r1 y r2, In x l -> R r r1 -> f x r1 = (Ok y, r2) -> R r2 r' -> Q x y) ->
  Forall2 Q l ys.
Proof.
  intros A B f Q l. induction l as [|x l IH]; intros r ys r' H P HQ.
  - cbn in H. minv. constructor.
  - cbn in H. minv. assert (P1 : R r r0) by (eapply pres_ok; [apply P; now left|eassumption]).
    assert (P2 : R r0 r1).
    { eapply pres_ok; [|eassumption]. apply pres_mmap; intros; apply P; now right. }
    constructor; [eapply HQ; [now left|apply R_refl|eassumption|eassumption]|].
    eapply IH; [eassumption|intros; apply P; now right|].
    intros; eapply HQ; [now right|eapply R_trans; eassumption|eassumption|assumption].
Qed.
End Pres.

(** ** The registry only grows *)
Definition dle {A} (d e : dict A) : Prop := forall k v, dget k d = Some v -> dget k e = Some v.
Lemma dle_refl : forall {A} (d : dict A), dle d d.  Proof. intros A d k v H; exact H. Qed.
Lemma dle_trans : forall {A} (a b c : dict A), dle a b -> dle b c -> dle a c.
Proof. intros A a b c H1 H2 k v H. apply H2, H1, H. Qed.
Lemma dle_dset : forall {A} k (v : A) d, dget k d = None -> dle d (dset k v d).
Proof.
  intros A k v d H k' v' H'. rewrite dget_dset. destruct (String.eqb_spec k' k); [congruence|assumption].
Qed.

(** the fields that all plugins treat as growing sets or write-once dictionaries *)
Record rle (r r' : reg) : Prop := Rle {
  rle_imports : incl (r_imports r) (r_imports r');
  rle_builtins : incl (r_builtins r) (r_builtins r');
  rle_fwd : incl (r_fwd r) (r_fwd r');
  rle_enums : dle (r_enums r) (r_enums r');
  rle_inputs : dle (r_inputs r) (r_inputs r');
  rle_objects : dle (r_objects r) (r_objects r');
  rle_iface : dle (r_iface_base r) (r_iface_base r');
  rle_frags : dle (r_frags r) (r_frags r');
  rle_fragdocs : dle (r_fragdocs r) (r_fragdocs r') }.
Lemma rle_refl : forall r, rle r r.
Proof. intros r; split; try apply incl_refl; apply dle_refl. Qed.
Lemma rle_trans : forall a b c, rle a b -> rle b c -> rle a c.
Proof.
  intros a b c [] []; split; try (eapply incl_tran; eassumption); eapply dle_trans; eassumption.
Qed.

(** ** Which parts of the registry a computation may change *)
Inductive kind : Set :=
| KImp | KBui | KFwd | KSca | KDoc | KEnu | KInp | KObj | KIfa | KFra | KQry | KSub | KMut
| KFty | KIff | KUff | KSin.
Section Evolve.
Variable stylers : list styler.
Inductive rstep : kind -> reg -> reg -> Prop :=
| rs_imp : forall r n, mem n py_noimport = false -> rstep KImp r (with_imports (sadd n (r_imports r)) r)
| rs_bui : forall r n, rstep KBui r (with_builtins (sadd n (r_builtins r)) r)
| rs_fwd : forall r n, rstep KFwd r (with_fwd (sadd n (r_fwd r)) r)
| rs_sca : forall r n t, rstep KSca r (with_scalars (dset n t (r_scalars r)) r)
| rs_doc : forall r n t, dget n (r_fragdocs r) = None -> rstep KDoc r (with_fragdocs (dset n t (r_fragdocs r)) r)
| rs_enu : forall r n, dget n (r_enums r) = None ->
    rstep KEnu r (with_enums (dset n (style_enum_class stylers n) (r_enums r)) r)
| rs_inp : forall r n, dget n (r_inputs r) = None ->
    rstep KInp r (with_inputs (dset n (style_inputtype_class stylers n) (r_inputs r)) r)
| rs_obj : forall r n, dget n (r_objects r) = None ->
    rstep KObj r (with_objects (dset n (style_objecttype_class stylers n) (r_objects r)) r)
| rs_ifa : forall r n b, dget n (r_iface_base r) = None ->
    rstep KIfa r (with_iface (dset n (style_interface_class stylers n) (r_iface_ref r))
                             (dset n b (r_iface_base r)) r)
| rs_fra : forall r n, dget n (r_frags r) = None ->
    rstep KFra r (with_frags (dset n (style_fragment_class stylers n) (r_frags r)) r)
| rs_qry : forall r n, dget n (r_queries r) = None ->
    rstep KQry r (with_queries (dset n (style_query_class stylers n) (r_queries r)) r)
| rs_sub : forall r n, dget n (r_subs r) = None ->
    rstep KSub r (with_subs (dset n (style_subscription_class stylers n) (r_subs r)) r)
| rs_mut : forall r n, dget n (r_muts r) = None ->
    rstep KMut r (with_muts (dset n (style_mutation_class stylers n) (r_muts r)) r)
| rs_fty : forall r n t, rstep KFty r (with_fragtypes (dset n t (r_fragtypes r)) r)
| rs_iff : forall r n t, rstep KIff r (with_iffrag (dset n t (r_iffrag r)) r)
| rs_uff : forall r n t, rstep KUff r (with_ufrag (dset n t (r_ufrag r)) r)
| rs_sin : forall r n t, rstep KSin r (with_single (dset n t (r_single r)) r).
Inductive evolve (K : list kind) : reg -> reg -> Prop :=
| ev_refl : forall r, evolve K r r
| ev_step : forall r r1 r2 k, In k K -> rstep k r r1 -> evolve K r1 r2 -> evolve K r r2.
Lemma evolve_trans : forall K a b c, evolve K a b -> evolve K b c -> evolve K a c.
Proof. intros K a b c H1 H2. induction H1; [assumption|]. eapply ev_step; eauto. Qed.
Lemma evolve_one : forall K k r r', In k K -> rstep k r r' -> evolve K r r'.
Proof. intros; eapply ev_step; eauto using ev_refl. Qed.
Lemma evolve_incl : forall K K' r r', incl K K' -> evolve K r r' -> evolve K' r r'.
Proof. intros K K' r r' HI H. induction H; [apply ev_refl|]. eapply ev_step; eauto. Qed.
(** an invariant of the steps is an invariant of the computation *)
Lemma evolve_ind_rel : forall K (R : reg -> reg -> Prop),
  (forall r, R r r) -> (forall a b c, R a b -> R b c -> R a c) ->
  (forall k r r', In k K -> rstep k r r' -> R r r') ->
  forall r r', evolve K r r' -> R r r'.
Proof. intros K R H1 H2 H3 r r' H. induction H; [apply H1|]. eapply H2; [eapply H3; eassumption|assumption]. Qed.
Lemma evolve_inv : forall K (I : reg -> Prop),
  (forall k r r', In k K -> rstep k r r' -> I r -> I r') ->
  forall r r', evolve K r r' -> I r -> I r'.
Proof. intros K I H r r' HE. induction HE; auto. intros HI. apply IHHE. eapply H; eassumption. Qed.

Definition ev (K : list kind) {A} (m : M A) : Prop := pres (evolve K) m.
Lemma ev_incl : forall K K' {A} (m : M A), incl K K' -> ev K m -> ev K' m.
Proof. intros K K' A m H1 H2 r. eapply evolve_incl; [eassumption|apply H2]. Qed.
Lemma ev_ret : forall K {A} (a : A), ev K (ret a).  Proof. intros; apply pres_ret, ev_refl. Qed.
Lemma ev_raise : forall K {A} c msg, ev K (@raise A c msg).  Proof. intros; apply pres_raise, ev_refl. Qed.
Lemma ev_gets : forall K {A} (f : reg -> A), ev K (gets f).  Proof. intros; apply pres_gets, ev_refl. Qed.
Lemma ev_lift : forall K {A} (x : res A), ev K (lift x).  Proof. intros; apply pres_lift, ev_refl. Qed.
Lemma ev_massert : forall K b msg, ev K (massert b msg).  Proof. intros; apply pres_massert, ev_refl. Qed.
Lemma ev_from_opt : forall K {A} (o : option A) c msg, ev K (from_opt o c msg).
Proof. intros; apply pres_from_opt, ev_refl. Qed.
Lemma ev_bind : forall K {A B} (m : M A) (k : A -> M B), ev K m -> (forall a, ev K (k a)) -> ev K (bind m k).
Proof. intros; apply pres_bind; auto. intros; eapply evolve_trans; eassumption. Qed.
Lemma ev_try : forall K {A} (m : M A) p h, ev K m -> (forall e, ev K (h e)) -> ev K (try_except m p h).
Proof. intros; apply pres_try; auto. intros; eapply evolve_trans; eassumption. Qed.
Lemma ev_mmap : forall K {A B} (f : A -> M B) l, (forall x, In x l -> ev K (f x)) -> ev K (mmap f l).
Proof. intros; apply pres_mmap; auto; [apply ev_refl|apply evolve_trans]. Qed.
Lemma ev_miter : forall K {A} (f : A -> M unit) l, (forall x, In x l -> ev K (f x)) -> ev K (miter f l).
Proof. intros; apply pres_miter; auto; [apply ev_refl|apply evolve_trans]. Qed.
Lemma ev_mfold : forall K {A S} (f : S -> A -> M S) l s, (forall s x, In x l -> ev K (f s x)) -> ev K (mfold f l s).
Proof. intros; apply pres_mfold; auto; [apply ev_refl|apply evolve_trans]. Qed.
Lemma ev_mconcat : forall K {A B} (f : A -> M (list B)) l, (forall x, In x l -> ev K (f x)) -> ev K (mconcat f l).
Proof. intros; apply pres_mconcat; auto; [apply ev_refl|apply evolve_trans]. Qed.
Lemma ev_ok : forall K {A} (m : M A) r a r', ev K m -> m r = (Ok a, r') -> evolve K r r'.
Proof. intros K A m r a r' H E. specialize (H r). rewrite E in H. exact H. Qed.
Lemma ev_any : forall K {A} (m : M A) r x r', ev K m -> m r = (x, r') -> evolve K r r'.
Proof. intros K A m r a r' H E. specialize (H r). rewrite E in H. exact H. Qed.
Lemma ev_if : forall K {A} (b : bool) (m n : M A), ev K m -> ev K n -> ev K (if b then m else n).
Proof. intros K A []; auto. Qed.

(** *** primitives *)
Lemma ev_register_import : forall n, ev [KImp] (register_import n).
Proof.
  intros n r. unfold register_import. destruct (mem n py_noimport) eqn:E; [apply ev_refl|].
  eapply evolve_one; [now left|]. now constructor.
Qed.
Lemma ev_register_builtin : forall n, ev [KBui] (register_builtin n).
Proof. intros n r. eapply evolve_one; [now left|]. constructor. Qed.
Lemma ev_add_forward : forall n, ev [KFwd] (add_forward n).
Proof. intros n r. eapply evolve_one; [now left|]. constructor. Qed.
Lemma generate_in_spec : forall get set style n r c r',
  generate_in get set style n r = (Ok c, r') ->
  dget n (get r) = None /\ c = style n /\ r' = set (dset n (style n) (get r)) r.
Proof.
  intros get set style n r c r' H. unfold generate_in in H. minv. repeat split.
  apply negb_true_iff in H. unfold dmem in H. destruct (dget n (get r)); [discriminate|reflexivity].
Qed.
Lemma generate_in_state : forall get set style n r,
  snd (generate_in get set style n r) = r
  \/ (dget n (get r) = None /\ snd (generate_in get set style n r) = set (dset n (style n) (get r)) r).
Proof.
  intros get set style n r. unfold generate_in, bind, gets, massert, dmem.
  destruct (dget n (get r)); cbn; auto.
Qed.
Ltac ev_gen := intros n r;
  unfold generate_inputtype, generate_enum, generate_objecttype, generate_fragment_class,
    generate_query, generate_mutation, generate_subscription;
  match goal with |- evolve _ _ (snd (generate_in ?g ?s ?st ?n ?r)) =>
    destruct (generate_in_state g s st n r) as [->|[? ->]]; [apply ev_refl|eapply evolve_one; [now left|]; now constructor]
  end.
Lemma ev_generate_inputtype : forall n, ev [KInp] (generate_inputtype stylers n).
Proof. ev_gen. Qed.
Lemma ev_generate_enum : forall n, ev [KEnu] (generate_enum stylers n).
Proof. ev_gen. Qed.
Lemma ev_generate_objecttype : forall n, ev [KObj] (generate_objecttype stylers n).
Proof. ev_gen. Qed.
Lemma ev_generate_fragment_class : forall n, ev [KFra] (generate_fragment_class stylers n).
Proof. ev_gen. Qed.
Lemma ev_generate_query : forall n, ev [KQry] (generate_query stylers n).
Proof. ev_gen. Qed.
Lemma ev_generate_mutation : forall n, ev [KMut] (generate_mutation stylers n).
Proof. ev_gen. Qed.
Lemma ev_generate_subscription : forall n, ev [KSub] (generate_subscription stylers n).
Proof. ev_gen. Qed.
Lemma ev_generate_interface : forall n b, ev [KIfa] (generate_interface stylers n b).
Proof.
  intros n b r. unfold generate_interface, bind, gets, massert, dmem.
  destruct (dget n (r_iface_base r)) eqn:E; cbn; [apply ev_refl|]. eapply evolve_one; [now left|]. now constructor.
Qed.
Lemma ev_register_fragment_document : forall n t, ev [KDoc] (register_fragment_document n t).
Proof.
  intros n t r. unfold register_fragment_document, bind, gets, massert, dmem.
  destruct (dget n (r_fragdocs r)) eqn:E; cbn; [apply ev_refl|]. eapply evolve_one; [now left|]. now constructor.
Qed.
Lemma ev_register_operation_single : forall n e, ev [KSin] (register_operation_single n e).
Proof. intros n e r. eapply evolve_one; [now left|]. constructor. Qed.
Lemma ev_register_fragment_type : forall n e, ev [KFty] (register_fragment_type n e).
Proof. intros n e r. eapply evolve_one; [now left|]. constructor. Qed.
Lemma ev_register_iff : forall n e, ev [KIff] (register_interface_fragment_implementations n e).
Proof. intros n e r. eapply evolve_one; [now left|]. constructor. Qed.
Lemma ev_register_uff : forall n e, ev [KUff] (register_union_fragment_members n e).
Proof. intros n e r. eapply evolve_one; [now left|]. constructor. Qed.
Lemma ev_register_scalar : forall n e, ev [KSca] (register_scalar n e).
Proof. intros n e r. eapply evolve_one; [now left|]. constructor. Qed.
End Evolve.

Create HintDb evdb.
#[export] Hint Resolve ev_register_import ev_register_builtin ev_add_forward ev_generate_inputtype
  ev_generate_enum ev_generate_objecttype ev_generate_fragment_class ev_generate_query
  ev_generate_mutation ev_generate_subscription ev_generate_interface ev_register_fragment_document
  ev_register_operation_single ev_register_fragment_type ev_register_iff ev_register_uff
  ev_register_scalar : evdb.
Ltac incl_tac := let k := fresh in intros k; cbn; intuition auto.
(** decompose a computation; leaves are closed by a lemma of [evdb] for a smaller kind list *)
Ltac ev_leaf := first [ assumption | eapply ev_incl; [|solve [eauto 2 with evdb nocore]]; incl_tac ].
Ltac ev_one :=
  match goal with
  | |- ev _ _ (ret _) => apply ev_ret
  | |- ev _ _ (raise _ _) => apply ev_raise
  | |- ev _ _ (gets _) => apply ev_gets
  | |- ev _ _ (lift _) => apply ev_lift
  | |- ev _ _ (massert _ _) => apply ev_massert
  | |- ev _ _ (from_opt _ _ _) => apply ev_from_opt
  | |- ev _ _ (bind _ _) => apply ev_bind; [|let x := fresh "x" in intros x]
  | |- ev _ _ (try_except _ _ _) => apply ev_try; [|let x := fresh "x" in intros x]
  | |- ev _ _ (mmap _ _) => apply ev_mmap; let x := fresh "x" in intros x ?
  | |- ev _ _ (miter _ _) => apply ev_miter; let x := fresh "x" in intros x ?
  | |- ev _ _ (mconcat _ _) => apply ev_mconcat; let x := fresh "x" in intros x ?
  | |- ev _ _ (mfold _ _ _) => apply ev_mfold; let s := fresh "s" in let x := fresh "x" in intros s x ?
  | |- ev _ _ (if _ then _ else _) => apply ev_if
  | |- ev _ _ (let '(_, _) := ?x in _) => destruct x
  | |- ev _ _ (match ?x with _ => _ end) => destruct x
  | |- ev _ _ _ => ev_leaf
  end.
Ltac ev_tac := repeat (cbn beta zeta; ev_one).

(** *** derived registry operations and shared helpers *)
Lemma ev_reference_scalar : forall stylers n, ev stylers [KImp] (reference_scalar n).
Proof. intros; unfold reference_scalar; ev_tac. Qed.
Lemma ev_reference_inputtype : forall stylers s n p f, ev stylers [KFwd] (reference_inputtype s n p f).
Proof. intros; unfold reference_inputtype; ev_tac. Qed.
Lemma ev_reference_enum : forall stylers s n p f, ev stylers [KFwd; KBui] (reference_enum s n p f).
Proof. intros; unfold reference_enum; ev_tac. Qed.
Lemma ev_reference_generic : forall stylers st g n p f, ev stylers [KFwd] (reference_generic st g n p f).
Proof. intros; unfold reference_generic; ev_tac. Qed.
Lemma ev_reference_interface : forall stylers s n p, ev stylers [KFwd] (reference_interface s n p).
Proof. intros; unfold reference_interface; ev_tac. Qed.
Lemma ev_reference_override : forall stylers o b n, ev stylers [KImp; KBui] (reference_override o b n).
Proof. intros; unfold reference_override; ev_tac. Qed.
#[export] Hint Resolve ev_reference_scalar ev_reference_inputtype ev_reference_enum ev_reference_generic
  ev_reference_interface ev_reference_override : evdb.
Lemma ev_get_inputtype_class : forall stylers n, ev stylers [] (get_inputtype_class n).
Proof. intros; unfold get_inputtype_class; ev_tac. Qed.
Lemma ev_inherit_interface : forall stylers n, ev stylers [] (inherit_interface n).
Proof. intros; unfold inherit_interface; ev_tac. Qed.
Lemma ev_inherit_fragment : forall stylers n, ev stylers [] (inherit_fragment n).
Proof. intros; unfold inherit_fragment; ev_tac. Qed.
Lemma ev_get_fragment_type : forall stylers n, ev stylers [] (get_fragment_type n).
Proof. intros; unfold get_fragment_type; ev_tac. Qed.
Lemma ev_get_iff : forall stylers n, ev stylers [] (get_interface_fragment_implementations n).
Proof. intros; unfold get_interface_fragment_implementations; ev_tac. Qed.
Lemma ev_get_uff : forall stylers n, ev stylers [] (get_union_fragment_members n).
Proof. intros; unfold get_union_fragment_members; ev_tac. Qed.
Lemma ev_get_iff_or_none : forall stylers n t, ev stylers [] (get_interface_fragment_implementation_or_none n t).
Proof. intros; unfold get_interface_fragment_implementation_or_none; ev_tac. Qed.
Lemma ev_is_interface_fragment : forall stylers n, ev stylers [] (is_interface_fragment n).
Proof. intros; unfold is_interface_fragment; ev_tac. Qed.
Lemma ev_get_single : forall stylers n, ev stylers [] (get_operation_single_or_none n).
Proof. intros; unfold get_operation_single_or_none; ev_tac. Qed.
#[export] Hint Resolve ev_get_inputtype_class ev_inherit_interface ev_inherit_fragment
  ev_get_fragment_type ev_get_iff ev_get_uff ev_get_iff_or_none ev_is_interface_fragment ev_get_single : evdb.
Lemma ev_reference_unset : forall stylers c, ev stylers [KImp; KBui] (reference_unset c).
Proof. intros; apply ev_reference_override. Qed.
Lemma ev_reference_unset_type : forall stylers c, ev stylers [KImp; KBui] (reference_unset_type c).
Proof. intros; apply ev_reference_override. Qed.
Lemma ev_reference_graphql_default : forall stylers c, ev stylers [KImp; KBui] (reference_graphql_default c).
Proof. intros; apply ev_reference_override. Qed.
Lemma ev_reference_deprecated : forall stylers c, ev stylers [KImp; KBui] (reference_deprecated c).
Proof. intros; apply ev_reference_override. Qed.
#[export] Hint Resolve ev_reference_unset ev_reference_unset_type ev_reference_graphql_default
  ev_reference_deprecated : evdb.
Lemma ev_reference_object : forall stylers s n p f, ev stylers [KFwd] (reference_object s n p f).
Proof. intros; apply ev_reference_generic. Qed.
Lemma ev_reference_fragment : forall stylers s n p f, ev stylers [KFwd] (reference_fragment s n p f).
Proof. intros; apply ev_reference_generic. Qed.
#[export] Hint Resolve ev_reference_object ev_reference_fragment : evdb.

Lemma ev_import_bases : forall stylers l, ev stylers [KImp] (import_bases l).
Proof. intros; unfold import_bases; ev_tac. Qed.
#[export] Hint Resolve ev_import_bases : evdb.
Lemma ev_additional_bases : forall stylers c n, ev stylers [KImp] (get_additional_bases_for_type c n).
Proof. intros; unfold get_additional_bases_for_type; ev_tac. Qed.
Lemma ev_get_interface_bases : forall stylers c, ev stylers [KImp] (get_interface_bases c).
Proof. intros; unfold get_interface_bases; ev_tac. Qed.
Lemma ev_generate_pydantic_config : forall stylers k c t, ev stylers [KImp] (generate_pydantic_config k c t).
Proof. intros; unfold generate_pydantic_config, generate_config_dict; ev_tac. Qed.
Lemma ev_annotate : forall stylers c a d e, ev stylers [KImp; KBui] (annotate_field_metadata c a d e).
Proof. intros; unfold annotate_field_metadata; ev_tac. Qed.
Lemma ev_typename_field : forall stylers c n, ev stylers [KImp] (generate_typename_field c n).
Proof. intros; unfold generate_typename_field; ev_tac. Qed.
Lemma ev_generic_typename_field : forall stylers c, ev stylers [KImp] (generate_generic_typename_field c).
Proof. intros; unfold generate_generic_typename_field; ev_tac. Qed.
#[export] Hint Resolve ev_additional_bases ev_get_interface_bases ev_generate_pydantic_config ev_annotate
  ev_typename_field ev_generic_typename_field : evdb.
Lemma ev_opt_wrap : forall stylers b e, ev stylers [KImp] (opt_wrap b e).
Proof. intros; unfold opt_wrap; ev_tac. Qed.
#[export] Hint Resolve ev_opt_wrap : evdb.

(** ** What a computation cannot change *)
Lemma evolve_rle : forall st K r r', evolve st K r r' -> rle r r'.
Proof.
  intros st K r r' H. induction H as [r|r r1 r2 k _ Hs _ IH]; [apply rle_refl|]. eapply rle_trans; [|exact IH].
  destruct Hs; split; cbn; try apply incl_refl; try apply dle_refl; try (now apply dle_dset);
    intros x Hx; apply sadd_In; auto.
Qed.
Ltac frame := match goal with |- forall st K r r', _ -> _ -> _ => intros st K r r' HK H;
  induction H as [r|r r1 r2 k Hk Hs _ IH]; [reflexivity|]; rewrite IH;
  destruct Hs; try reflexivity; contradiction end.
Lemma frame_inputs : forall st K r r', ~ In KInp K -> evolve st K r r' -> r_inputs r' = r_inputs r.
Proof. frame. Qed.
Lemma frame_enums : forall st K r r', ~ In KEnu K -> evolve st K r r' -> r_enums r' = r_enums r.
Proof. frame. Qed.
Lemma frame_scalars : forall st K r r', ~ In KSca K -> evolve st K r r' -> r_scalars r' = r_scalars r.
Proof. frame. Qed.
Lemma frame_fwd : forall st K r r', ~ In KFwd K -> evolve st K r r' -> r_fwd r' = r_fwd r.
Proof. frame. Qed.
Lemma frame_objects : forall st K r r', ~ In KObj K -> evolve st K r r' -> r_objects r' = r_objects r.
Proof. frame. Qed.
Lemma frame_frags : forall st K r r', ~ In KFra K -> evolve st K r r' -> r_frags r' = r_frags r.
Proof. frame. Qed.
Lemma frame_builtins : forall st K r r', ~ In KBui K -> evolve st K r r' -> r_builtins r' = r_builtins r.
Proof. frame. Qed.
Lemma frame_fragdocs : forall st K r r', ~ In KDoc K -> evolve st K r r' -> r_fragdocs r' = r_fragdocs r.
Proof. frame. Qed.

(** every registered class name is the styled type name *)
Definition names_styled (st : list styler) (r : reg) : Prop :=
  (forall n c, dget n (r_inputs r) = Some c -> c = style_inputtype_class st n)
  /\ (forall n c, dget n (r_enums r) = Some c -> c = style_enum_class st n)
  /\ (forall n c, dget n (r_objects r) = Some c -> c = style_objecttype_class st n)
  /\ (forall n c, dget n (r_frags r) = Some c -> c = style_fragment_class st n).
Lemma names_styled_init : forall st c, names_styled st (init_reg c).
Proof. intros st c; repeat split; intros; discriminate. Qed.
Lemma names_styled_evolve : forall st K r r', evolve st K r r' -> names_styled st r -> names_styled st r'.
Proof.
  intros st K r r' H. revert r r' H. apply (evolve_inv st K (names_styled st)).
  intros k r r' _ Hs (H1 & H2 & H3 & H4). destruct Hs; cbn; repeat split; cbn; auto;
    intros m c E; rewrite dget_dset in E; destruct (String.eqb_spec m n); subst; auto; congruence.
Qed.

(** ** loops *)
Lemma mfold_ok : forall {A S} (f : S -> A -> M S) (P : list A -> S -> reg -> Prop) l s r s' r',
  mfold f l s r = (Ok s', r') -> P [] s r ->
  (forall pre x post s r s1 r1, l = pre ++ x :: post -> P pre s r -> f s x r = (Ok s1, r1) -> P (pre ++ [x]) s1 r1) ->
  P l s' r'.
Proof.
  intros A S f P l s r s' r' H H0 HS.
  assert (G : forall suf pre s r, l = pre ++ suf -> P pre s r -> mfold f suf s r = (Ok s', r') -> P l s' r').
  { induction suf as [|x suf IH]; intros pre s0 r0 E HP HF.
    - cbn in HF. minv. now rewrite app_nil_r.
    - cbn in HF. minv. eapply (IH (pre ++ [x])); [now rewrite <- app_assoc| |eassumption]. eapply HS; eassumption. }
  exact (G l [] s r eq_refl H0 H).
Qed.
Lemma mconcat_ok : forall {A B} (f : A -> M (list B)) l r ys r',
  mconcat f l r = (Ok ys, r') -> exists yss, mmap f l r = (Ok yss, r') /\ ys = concat yss.
Proof. intros A B f l r ys r' H. unfold mconcat in H. minv. eauto. Qed.
(** states along a successful mmap *)
Lemma mmap_inv : forall {A B} (f : A -> M B) (I : reg -> Prop) (Q : A -> B -> Prop) l r ys r',
  mmap f l r = (Ok ys, r') -> I r ->
  (forall x r1 y r2, In x l -> I r1 -> f x r1 = (Ok y, r2) -> I r2 /\ Q x y) ->
  I r' /\ Forall2 Q l ys.
Proof.
  intros A B f I Q l. induction l as [|x l IH]; intros r ys r' H HI HS.
  - cbn in H. minv. auto.
  - cbn in H. minv. edestruct (HS x r) as [I1 Q1]; [now left|exact HI|eassumption|].
    edestruct IH as [I2 Q2]; [eassumption|exact I1|intros; eapply HS; [now right|eassumption|eassumption]|].
    split; [assumption|now constructor].
Qed.

(** ** forward rules *)
Lemma bind_eq : forall {A B} (m : M A) (k : A -> M B) r a r', m r = (Ok a, r') -> bind m k r = k a r'.
Proof. intros A B m k r a r' H. unfold bind. now rewrite H. Qed.
Lemma bind_err : forall {A B} (m : M A) (k : A -> M B) r e r', m r = (Err e, r') -> bind m k r = (Err e, r').
Proof. intros A B m k r a r' H. unfold bind. now rewrite H. Qed.
Lemma generate_in_eq : forall get set style n r, dget n (get r) = None ->
  generate_in get set style n r = (Ok (style n), set (dset n (style n) (get r)) r).
Proof. intros get set style n r H. unfold generate_in, bind, gets, massert, dmem. now rewrite H. Qed.
Lemma frame_iffrag : forall st K r r', ~ In KIff K -> evolve st K r r' -> r_iffrag r' = r_iffrag r.
Proof. frame. Qed.
Lemma frame_fragtypes : forall st K r r', ~ In KFty K -> evolve st K r r' -> r_fragtypes r' = r_fragtypes r.
Proof. frame. Qed.
