(** Which keys a computation adds to one of the registry's tables, and that none is added twice. *)
From Verif Require Import Base PyAst Gql Config Stylers Registry Utils P_Base P_Monad.

Section Trace.
Context {V : Type}.
Variable get : reg -> dict V.
(** on success [m] has added the keys [ks], which are new and distinct, and [R] relates the
    result to them *)
Definition tr {A} (R : A -> list string -> Prop) (m : M A) : Prop := forall r a r', m r = (Ok a, r') ->
  exists ks, dkeys (get r') = dkeys (get r) ++ ks /\ NoDup ks /\ (forall k, In k ks -> ~ In k (dkeys (get r))) /\ R a ks.
Lemma tr_silent : forall {A} (m : M A), (forall r a r', m r = (Ok a, r') -> get r' = get r) -> tr (fun _ ks => ks = []) m.
Proof. intros A m H r a r' E. exists []. rewrite (H _ _ _ E), app_nil_r. repeat split; [constructor|intros k []]. Qed.
Lemma tr_ret : forall {A} (R : A -> list string -> Prop) a, R a [] -> tr R (ret a).
Proof. intros A R a H r b r' E. apply ret_ok in E as [-> ->]. exists []. rewrite app_nil_r. repeat split; [constructor|intros k []|exact H]. Qed.
Lemma tr_raise : forall {A} (R : A -> list string -> Prop) c msg, tr R (raise c msg).
Proof. intros A R c msg r a r' [=]. Qed.
Lemma tr_weaken : forall {A} (R R' : A -> list string -> Prop) m, tr R m -> (forall a ks, R a ks -> R' a ks) -> tr R' m.
Proof. intros A R R' m H HR r a r' E. destruct (H _ _ _ E) as (ks & E1 & N & D & HQ). exists ks. auto. Qed.
Lemma tr_bind : forall {A B} (R : A -> list string -> Prop) (R' : B -> list string -> Prop) (m : M A) (k : A -> M B),
  tr R m -> (forall a ks, R a ks -> tr (fun b ks' => R' b (ks ++ ks')) (k a)) -> tr R' (bind m k).
Proof.
  intros A B R R' m k Hm Hk r b r' H. apply bind_ok in H as (a & r1 & H1 & H).
  destruct (Hm _ _ _ H1) as (ks & E & N & D & HQ). destruct (Hk a ks HQ _ _ _ H) as (ks' & E' & N' & D' & HQ').
  exists (ks ++ ks'). rewrite E', E, app_assoc. split; [reflexivity|]. split; [|split; [|exact HQ']].
  - rewrite E in D'. clear -N N' D'. induction N as [|x l Hx N IH]; [exact N'|]. cbn. constructor.
    + rewrite in_app_iff. intros [H|H]; [auto|]. apply (D' _ H). rewrite in_app_iff. right. now left.
    + apply IH. intros k Hk Hin. apply (D' _ Hk). rewrite in_app_iff in *. cbn. tauto.
  - intros x Hx. apply in_app_iff in Hx as [Hx|Hx]; [auto|]. intros Hin. apply (D' _ Hx). rewrite E, in_app_iff. auto.
Qed.
Lemma tr_skip : forall {A B} (R : B -> list string -> Prop) (m : M A) (k : A -> M B),
  tr (fun _ ks => ks = []) m -> (forall a, tr R (k a)) -> tr R (bind m k).
Proof. intros A B R m k Hm Hk. eapply tr_bind; [exact Hm|]. intros a ks ->. apply Hk. Qed.
Lemma tr_mfold : forall {A S} (R : S -> list string -> Prop) (f : S -> A -> M S) l,
  (forall a ks x, In x l -> R a ks -> tr (fun a' ks' => R a' (ks ++ ks')) (f a x)) ->
  forall a ks, R a ks -> tr (fun a' ks' => R a' (ks ++ ks')) (mfold f l a).
Proof.
  intros A S R f l. induction l as [|x l IH]; intros H a ks Ha; cbn [mfold].
  - apply tr_ret. now rewrite app_nil_r.
  - eapply tr_bind; [apply H; [now left|exact Ha]|]. intros a1 ks1 H1. cbn beta in H1.
    eapply tr_weaken; [apply IH; [intros; apply H; [now right|assumption]|exact H1]|]. intros b ks'. cbn beta. now rewrite app_assoc.
Qed.
Lemma tr_mmap : forall {A B} (R : list B -> list string -> Prop) (f : A -> M B) l,
  (forall ys ks x, In x l -> R ys ks -> tr (fun y ks' => R (ys ++ [y]) (ks ++ ks')) (f x)) ->
  forall ys ks, R ys ks -> tr (fun ys' ks' => R (ys ++ ys') (ks ++ ks')) (mmap f l).
Proof.
  intros A B R f l. induction l as [|x l IH]; intros H ys ks Ha; cbn [mmap].
  - apply tr_ret. now rewrite !app_nil_r.
  - eapply tr_bind; [apply H; [now left|exact Ha]|]. intros y ks1 H1. cbn beta in H1.
    eapply tr_bind; [apply IH; [intros; apply H; [now right|assumption]|exact H1]|]. intros ys' ks2 H2. cbn beta in H2. apply tr_ret.
    rewrite app_nil_r. now rewrite <- !app_assoc in *.
Qed.
Lemma tr_mconcat : forall {A B} (R : list B -> list string -> Prop) (f : A -> M (list B)) l,
  (forall ys ks x, In x l -> R ys ks -> tr (fun y ks' => R (ys ++ y) (ks ++ ks')) (f x)) ->
  R [] [] -> tr R (mconcat f l).
Proof.
  intros A B R f l H H0. unfold mconcat. eapply tr_bind.
  - apply (tr_mmap (fun yss ks => R (concat yss) ks)) with (ys := []) (ks := []); [|exact H0].
    intros yss ks x Hx HR. eapply tr_weaken; [apply H; eassumption|]. intros y ks' Hy. cbn beta in *. rewrite concat_app. cbn. now rewrite app_nil_r.
  - intros yss ks HR. cbn beta in HR. apply tr_ret. rewrite app_nil_r. exact HR.
Qed.
Lemma tr_try : forall {A} (R : A -> list string -> Prop) m p c msg, tr R m -> tr R (try_except m p (fun _ => raise c msg)).
Proof.
  intros A R m p c msg H r a r' E. unfold try_except in E. destruct (m r) as [[b|e] r1] eqn:Em.
  - injection E as -> ->. eapply H; exact Em.
  - destruct (p e); discriminate.
Qed.
Lemma tr_if : forall {A} (R : A -> list string -> Prop) (b : bool) m n, tr R m -> tr R n -> tr R (if b then m else n).
Proof. intros A R [] m n Hm Hn; assumption. Qed.
End Trace.
Lemma dset_new : forall {A} k (v : A) d, dget k d = None -> dset k v d = d ++ [(k, v)].
Proof.
  intros A k v. induction d as [|[k' v'] d IH]; intros H; [reflexivity|]. cbn in *. destruct (String.eqb k k'); [discriminate|].
  now rewrite IH.
Qed.
Lemma dget_None_keys : forall {A} k (d : dict A), dget k d = None -> ~ In k (dkeys d).
Proof.
  intros A k. induction d as [|[k' v'] d IH]; intros H; [intros []|]. cbn in *. destruct (String.eqb_spec k k'); [discriminate|].
  intros [E|E]; [congruence|now apply IH].
Qed.
Lemma tr_generate_in : forall get set style n, (forall d r, get (set d r) = d) ->
  tr get (fun cls ks => cls = style n /\ ks = [n]) (generate_in get set style n).
Proof.
  intros get set style n HGS r a r' H. apply generate_in_spec in H as (HN & -> & ->). exists [n]. rewrite HGS, (dset_new _ _ _ HN).
  unfold dkeys. rewrite map_app. repeat split; [repeat constructor; intros []|]. intros k [<-|[]]. now apply dget_None_keys.
Qed.
