(** Names of factory functions with snake case. *)
From Verif Require Import Base PyAst Gql Config Stylers Registry Spec_Naming Spec_Names Spec_Paths Spec_Inputs Spec_Classes Spec_Factories P_Base P_Stylers P_Attr P_Factories.

Lemma no_upper_app : forall a b, no_upper a -> no_upper b -> no_upper (a +s+ b).
Proof. unfold no_upper. induction a as [|x a IH]; intros b Ha Hb; [exact Hb|]. cbn in *. apply Bool.andb_true_iff in Ha as [-> Ha]. now apply IH. Qed.
Lemma styled_no_upper : forall sel st k, no_upper (fold_left (fun n s => sel s n) st k) -> no_upper (style_with sel st k).
Proof. intros sel st k H. unfold style_with. destruct (iskeyword _); [apply no_upper_app; [exact H|reflexivity]|exact H]. Qed.
Lemma parameter_keeps : forall st, Forall shipped st -> forall n, no_upper n -> no_upper (fold_left (fun n s => sty_parameter s n) st n).
Proof. intros st F. induction F as [|x st Hx F IH]; intros n H; [exact H|]. cbn [fold_left]. apply IH. destruct Hx; cbn; try exact H; apply snake_no_upper. Qed.
Lemma parameter_snake : forall st, Forall shipped st -> In snake_styler st \/ In default_styler st -> forall n, no_upper (fold_left (fun n s => sty_parameter s n) st n).
Proof.
  intros st F. induction F as [|x st Hx F IH]; intros H n; [destruct H as [[]|[]]|]. cbn [fold_left].
  destruct H as [[->|H]|[->|H]]; [apply (parameter_keeps st F), snake_no_upper|now apply IH; left|apply (parameter_keeps st F), snake_no_upper|now apply IH; right].
Qed.
Lemma upper_start : forall st, Forall shipped st -> forall n, starts_with is_upper n = true -> starts_with is_upper (fold_left (fun n s => sty_input s n) st n) = true.
Proof.
  assert (T := ascii_forall (fun x => negb (is_upper x) || is_upper (to_upper x))). cbn beta in T. specialize (T ltac:(vm_compute; reflexivity)).
  intros st F. induction F as [|x st Hx F IH]; intros n H; [exact H|]. cbn [fold_left]. apply IH. destruct n as [|a n]; [discriminate|].
  specialize (T a). cbn in H. rewrite H in T. destruct Hx; cbn; try exact H; exact T.
Qed.
Lemma class_upper : forall st k, Forall shipped st -> starts_with is_upper k = true -> starts_with is_upper (input_class st k) = true.
Proof.
  intros st k F H. apply (upper_start st F) in H. unfold input_class, style_with. destruct (iskeyword _); [|exact H].
  destruct (fold_left _ st k); [discriminate|exact H].
Qed.
Lemma upper_differs : forall a b, no_upper a -> starts_with is_upper b = true -> a <> b.
Proof. intros a [|x b] Ha Hb ->; [discriminate|]. unfold no_upper in Ha. cbn in Ha, Hb. rewrite Hb in Ha. discriminate. Qed.
Theorem snake_apart : forall st s prepend, snake_factories st s prepend ->
  factories_apart st s prepend /\ forall k, In k (input_keys s) -> factory_name st prepend k = prepend +s+ style_with sty_parameter st k.
Proof.
  intros st s prepend [F S P C N].
  assert (U : forall k, no_upper (prepend +s+ style_with sty_parameter st k)) by (intros k; apply no_upper_app; [exact P|apply styled_no_upper, parameter_snake; assumption]).
  assert (E : forall k, In k (input_keys s) -> factory_name st prepend k = prepend +s+ style_with sty_parameter st k).
  { intros k Hk. unfold factory_name. destruct (String.eqb_spec (prepend +s+ style_with sty_parameter st k) (input_class st k)) as [E|E]; [|apply app_nil_s].
    exfalso. revert E. apply upper_differs; [apply U|apply class_upper; [exact F|apply C, keys_names, Hk]]. }
  split; [|exact E]. split.
  - rewrite (map_ext_in _ (fun k => prepend +s+ style_with sty_parameter st k)) by exact E. clear E U C.
    induction (input_keys s) as [|k l IH]; [constructor|]. cbn in *. inversion N as [|? ? NI N']; subst. constructor; [|now apply IH].
    intros H. apply NI. apply in_map_iff in H as (x & Hx & Hl). apply app_inv_head_s in Hx. rewrite <- Hx. now apply in_map.
  - intros k k' Hk Hk'. rewrite E by exact Hk. apply upper_differs; [apply U|apply class_upper; [exact F|now apply C]].
Qed.
