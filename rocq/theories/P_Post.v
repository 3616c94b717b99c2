(** What a computation returns when it succeeds, whatever the registry. *)
From Verif Require Import Base PyAst Registry P_Monad.

Definition post {A} (Q : A -> Prop) (m : M A) : Prop := forall r a r', m r = (Ok a, r') -> Q a.
Lemma post_any : forall {A} (m : M A), post (fun _ => True) m.
Proof. intros A m r a r' _. exact I. Qed.
Lemma post_ret : forall {A} (Q : A -> Prop) a, Q a -> post Q (ret a).
Proof. intros A Q a H r b r' E. apply ret_ok in E as [-> _]. exact H. Qed.
Lemma post_raise : forall {A} (Q : A -> Prop) c msg, post Q (raise c msg).
Proof. intros A Q c msg r a r' [=]. Qed.
Lemma post_bind : forall {A B} (R : A -> Prop) (Q : B -> Prop) (m : M A) (k : A -> M B),
  post R m -> (forall a, R a -> post Q (k a)) -> post Q (bind m k).
Proof. intros A B R Q m k Hm Hk r b r' H. apply bind_ok in H as (a & r1 & H1 & H). eapply Hk; eauto. Qed.
Lemma post_skip : forall {A B} (Q : B -> Prop) (m : M A) (k : A -> M B), (forall a, post Q (k a)) -> post Q (bind m k).
Proof. intros A B Q m k Hk. eapply post_bind; [apply post_any|]. auto. Qed.
Lemma post_opt : forall {A B} (Q : B -> Prop) (o : option A) c msg (k : A -> M B),
  (forall a, o = Some a -> post Q (k a)) -> post Q (bind (from_opt o c msg) k).
Proof. intros A B Q o c msg k Hk r b r' H. apply bind_ok in H as (a & r1 & H1 & H). apply from_opt_ok in H1 as [E ->]. eapply Hk; eauto. Qed.
Lemma post_mmap : forall {A B} (Q : B -> Prop) (f : A -> M B) l, (forall x, In x l -> post Q (f x)) -> post (Forall Q) (mmap f l).
Proof.
  intros A B Q f l H r ys r' E.
  eapply (mmap_inv _ (fun _ => True) (fun _ y => Q y)) in E; [|exact I|intros x ra y rb Hx _ Hr; split; [exact I|eapply H; eauto]].
  destruct E as [_ F]. clear -F. induction F; constructor; auto.
Qed.
Lemma post_mconcat : forall {A B} (Q : B -> Prop) (f : A -> M (list B)) l, (forall x, In x l -> post (Forall Q) (f x)) -> post (Forall Q) (mconcat f l).
Proof.
  intros A B Q f l H r ys r' E. apply mconcat_ok in E as (ls & E & ->). eapply post_mmap in E; [|exact H].
  apply Forall_concat. exact E.
Qed.
Lemma post_mfold : forall {A S} (Q : S -> Prop) (f : S -> A -> M S) l, (forall a x, In x l -> Q a -> post Q (f a x)) ->
  forall a, Q a -> post Q (mfold f l a).
Proof.
  intros A S Q f l H a Ha r s' r' E. eapply (mfold_ok _ (fun _ s _ => Q s)) in E; [exact E|exact Ha|].
  intros pre x post' s1 r1 s2 r2 El Hs Hx. eapply H; [|exact Hs|exact Hx]. rewrite El. apply in_elt.
Qed.
Lemma post_weaken : forall {A} (Q R : A -> Prop) m, post Q m -> (forall a, Q a -> R a) -> post R m.
Proof. intros A Q R m H HR r a r' E. apply HR. eapply H; exact E. Qed.
Lemma post_if : forall {A} (Q : A -> Prop) (b : bool) m n, post Q m -> post Q n -> post Q (if b then m else n).
Proof. intros A Q [] m n Hm Hn; assumption. Qed.
