(** Hidden names. *)
From Verif Require Import Base PyAst Gql Spec_Types Spec_Names Spec_Scope Spec_Hides P_Base P_Scope2 P_Scope10.

Lemma in_found : forall b l n, In n (found b l) <-> In n l /\ In n b.
Proof. intros b l n. unfold found. rewrite filter_In, mem_In. reflexivity. Qed.
Lemma valued_cons : forall x body, valued (x :: body) = match x with SAnn n _ (Some _) => n :: valued body | _ => valued body end.
Proof. intros x l. destruct x as [n a [v|]| | | | | | | | | | | | | ]; reflexivity. Qed.
(** what is hidden is looked up, and bound by a field with a value *)
Lemma looked_runs : forall x n, In n (looked_up x) -> In n (runs x).
Proof. intros x n H. destruct x; try exact H. cbn in *. rewrite in_app_iff in H |- *. rewrite in_app_iff. tauto. Qed.
Lemma hidden_in : forall body b n, In n (hidden b body) -> In n (flat_map runs body) /\ (In n b \/ In n (valued body)).
Proof.
  assert (G : forall x body b n, In n (found b (looked_up x)) \/ (In n (flat_map runs body) /\ (In n b \/ In n (valued body))) ->
    valued (x :: body) = valued body -> In n (flat_map runs (x :: body)) /\ (In n b \/ In n (valued (x :: body)))).
  { intros x body b n H E. rewrite E. cbn [flat_map]. rewrite in_app_iff. destruct H as [H|[H1 H2]]; [|tauto].
    apply in_found in H as [H1 H2]. apply looked_runs in H1. tauto. }
  induction body as [|x body IH]; intros b n H; [destruct H|].
  destruct x as [m a v| | | | | | | | | | | | | ]; cbn [hidden] in H; try (apply in_app_or in H; apply G; [destruct H as [H|H]; [now left|right; now apply IH]|reflexivity]).
  rewrite valued_cons. cbn [flat_map runs]. rewrite !in_app_iff. apply in_app_or in H as [H|H]; [|apply in_app_or in H as [H|H]].
  - apply in_found in H as [H1 H2]. tauto.
  - apply in_found in H as [H1 H2]. destruct v; cbn in *; tauto.
  - apply IH in H as [H1 H2]. destruct v; cbn in *; tauto.
Qed.
(** the bodies of classes inside a class are run with it *)
Lemma body_runs : forall x body n, In body (class_bodies x) -> In n (flat_map runs body) -> In n (runs x).
Proof.
  fix IH 1. intros x body n H Hn. destruct x as [ | | |m b l d| | | | | | | | | | ]; try destruct H.
  - subst body. cbn [runs]. rewrite !in_app_iff. tauto.
  - cbn [runs]. rewrite !in_app_iff. right; right. clear m b d. induction l as [|y l IHl]; [destruct H|].
    apply in_app_or in H. cbn [flat_map]. rewrite in_app_iff. destruct H as [H|H]; [left; exact (IH y body n H Hn)|right; exact (IHl H)].
Qed.
Lemma hidden_bound : forall E t n, scoped (fun x => In x E) t -> In n (hidden_names t) ->
  (In n E \/ In n (binds t)) /\ exists body, In body (flat_map class_bodies t) /\ In n (valued body).
Proof.
  intros E t n H Hn. apply in_flat_map in Hn as (body & Hb & Hn). apply hidden_in in Hn as [H1 [[]|H2]]. split; [|eauto].
  apply in_flat_map in Hb as (x & Hx & Hb). exact (scoped_runs t (fun x => In x E) x n H Hx (body_runs _ _ _ Hb H1)).
Qed.
Lemma apart_hidden : forall E t, scoped (fun x => In x E) t -> fields_apart E t -> hidden_names t = [].
Proof.
  intros E t H HA. destruct (hidden_names t) as [|n l] eqn:X; [reflexivity|]. exfalso.
  destruct (hidden_bound E t n H) as [[K|K] (body & Hb & Hv)]; [rewrite X; now left| |]; destruct (HA _ _ Hb Hv); contradiction.
Qed.
