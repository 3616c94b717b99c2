(** Proofs about the registry's naming functions. *)
From Verif Require Import Base PyAst Gql Config Stylers Registry Spec_Naming P_Base P_Stylers.

Lemma naming_style_with : forall sel f, In (sel, f) naming_functions ->
  forall stylers n, f stylers n = style_with sel stylers n.
Proof.
  intros sel f H stylers n; cbn in H.
  repeat (destruct H as [[= <- <-]|H]; [reflexivity|]). destruct H.
Qed.

Lemma naming_C07 : forall sel f stylers n,
  In (sel, f) naming_functions ->
  let styled := fold_left (fun n0 s => sel s n0) stylers n in
  ~ In (f stylers n) kwlist
  /\ (~ In styled kwlist -> f stylers n = styled)
  /\ (In styled kwlist -> f stylers n = styled +s+ "_").
Proof.
  intros sel f stylers n H; cbn zeta. rewrite (naming_style_with _ _ H).
  split; [apply style_with_not_keyword|split; [apply style_with_same|apply style_with_kw]].
Qed.

Lemma naming_identifier : forall sel f stylers n,
  In (sel, f) naming_functions ->
  is_name (fold_left (fun n0 s => sel s n0) stylers n) = true ->
  is_name (f stylers n) = true.
Proof.
  intros sel f stylers n H Hn. rewrite (naming_style_with _ _ H).
  unfold style_with. destruct (iskeyword _); auto using is_name_app_under.
Qed.
