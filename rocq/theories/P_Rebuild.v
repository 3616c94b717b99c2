(** The classes rebuilt at the end of a module are bound: from what C60 says about lookups. *)
From Verif Require Import Base PyAst Gql Spec_Scope.

Lemma scoped_at : forall pre x post (E : string -> Prop) n, scoped E (pre ++ x :: post) -> In n (runs x) -> E n \/ In n (binds pre).
Proof.
  induction pre as [|y pre IH]; intros x post E n H Hn; cbn [app scoped] in H; destruct H as [H1 H2].
  - left. auto.
  - destruct (IH _ _ _ _ H2 Hn) as [[K|K]|K]; [now left| |]; right; unfold binds; cbn [flat_map]; apply in_or_app; [now left|now right].
Qed.
Lemma scoped_rebuild : forall E t, scoped E t -> forall pre call post n, t = pre ++ call :: post -> rebuilds call n -> E n \/ In n (binds pre).
Proof. intros E t H pre call post n -> R. eapply scoped_at; [exact H|]. destruct R as [-> | ->]; cbn; now left. Qed.
