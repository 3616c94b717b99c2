(** Proofs about names in the server scaffold. *)
From Verif Require Import Base PyAst Gql Config Stylers Registry Utils Objects Strawberry Spec_Naming Spec_Scaffold Spec_Camel P_Base P_Monad P_Stylers P_Scaffold.

Lemma upper_lower : forall c, is_upper c = true -> to_upper (to_lower c) = c.
Proof.
  assert (T := ascii_forall (fun x => implb (is_upper x) (Ascii.eqb (to_upper (to_lower x)) x))). cbn beta in T.
  intros c H. specialize (T eq_refl c). rewrite H in T. now apply Ascii.eqb_eq.
Qed.
Lemma lower_changes : forall c, is_upper c = true -> to_lower c <> c.
Proof. intros c H E. pose proof (to_lower_not_upper c) as K. rewrite E in K. congruence. Qed.
Lemma lower_not_under : forall c, is_under c = false -> is_under (to_lower c) = false.
Proof.
  assert (T := ascii_forall (fun x => is_under x || negb (is_under (to_lower x)))). cbn beta in T.
  intros c H. specialize (T eq_refl c). rewrite H in T. cbn in T. now apply negb_true_iff.
Qed.
Lemma lower_lower : forall c, to_lower (to_lower c) = to_lower c.
Proof. intros c. apply to_lower_id, to_lower_not_upper. Qed.
Lemma cons_eq : forall a b (s t : string), String a s = String b t <-> a = b /\ s = t.
Proof. intros a b s t. split; [intros E; injection E; auto|intros [-> ->]; reflexivity]. Qed.
Lemma kept_lower : forall c, to_lower c = c <-> negb (is_upper c) = true.
Proof.
  intros c. destruct (is_upper c) eqn:E; cbn; split; try discriminate; intros H; [|reflexivity|now apply to_lower_id].
  now apply lower_changes in E.
Qed.
Lemma rest_back : forall s p, no_under s -> (camel_rest false (snake_tail p s) = s <-> humps p s = true).
Proof.
  induction s as [|c s IH]; intros p H; [split; reflexivity|]. unfold no_under in *. cbn [sforall] in H. apply andb_true_iff in H as [H1 H2].
  apply negb_true_iff in H1. cbn [snake_tail humps]. pose proof (lower_not_under c H1) as L.
  destruct (word_break p c s) eqn:W.
  - rewrite orb_true_r, andb_true_l. cbn [camel_rest]. change (is_under "_"%char) with true. cbn [append]. cbn [camel_rest]. rewrite L.
    assert (U : is_upper c = true) by (unfold word_break in W; now apply andb_true_iff in W as [W _]).
    rewrite upper_lower, cons_eq by exact U. rewrite IH by exact H2. tauto.
  - rewrite orb_false_r. cbn [camel_rest]. rewrite L, lower_lower, cons_eq, andb_true_iff, IH by exact H2. now rewrite kept_lower.
Qed.
Lemma tail_back : forall s p, no_under s -> (camelize (snake_tail p s) = s <-> humps p s = true).
Proof.
  induction s as [|c s IH]; intros p H; [split; reflexivity|]. pose proof H as H0. unfold no_under in H0. cbn [sforall] in H0. apply andb_true_iff in H0 as [H1 H2].
  apply negb_true_iff in H1. cbn [snake_tail humps]. pose proof (lower_not_under c H1) as L.
  destruct (word_break p c s) eqn:W.
  - rewrite orb_true_r, andb_true_l. cbn [camelize]. change (is_under "_"%char) with true. cbn [camel_rest]. rewrite L.
    assert (U : is_upper c = true) by (unfold word_break in W; now apply andb_true_iff in W as [W _]).
    rewrite upper_lower, cons_eq by exact U. rewrite rest_back by exact H2. tauto.
  - rewrite orb_false_r. cbn [camelize]. rewrite L, cons_eq, andb_true_iff, IH by exact H2. now rewrite kept_lower.
Qed.
Theorem snake_back : forall s, no_under s -> (camelize (camel_to_snake s) = s <-> camel_name s = true).
Proof.
  intros [|c s] H; [split; reflexivity|]. rewrite camel_to_snake_spec. pose proof H as H0. unfold no_under in H0. cbn [sforall] in H0. apply andb_true_iff in H0 as [H1 H2].
  apply negb_true_iff in H1. cbn [snake_spec camelize camel_name]. rewrite (lower_not_under c H1), cons_eq, andb_true_iff, tail_back by exact H2. now rewrite kept_lower.
Qed.
Lemma camelize_plain : forall s, no_under s -> camelize s = s.
Proof.
  induction s as [|c s IH]; intros H; [reflexivity|]. unfold no_under in H. cbn [sforall] in H. apply andb_true_iff in H as [H1 H2]. apply negb_true_iff in H1.
  cbn [camelize]. now rewrite H1, IH.
Qed.
Lemma camelize_trailing : forall s, no_under s -> camelize (s +s+ "_") = s +s+ "_".
Proof.
  induction s as [|c s IH]; intros H; [reflexivity|]. unfold no_under in H. cbn [sforall] in H. apply andb_true_iff in H as [H1 H2]. apply negb_true_iff in H1.
  cbn [append camelize]. now rewrite H1, IH.
Qed.
Lemma trailing_not_plain : forall s t, no_under t -> s +s+ "_" <> t.
Proof.
  induction s as [|c s IH]; intros t H E; subst; cbn in H; unfold no_under in H; cbn in H; [discriminate|]. apply andb_true_iff in H as [_ H].
  now apply (IH (s +s+ "_") H).
Qed.
Lemma keywords_plain : forall k, In k kwlist -> no_under k.
Proof.
  assert (T : forallb (fun k => sforall (fun c => negb (is_under c)) k) kwlist = true) by reflexivity. rewrite forallb_forall in T. exact T.
Qed.
Lemma escaped_lost : forall k n, In k kwlist -> no_under n -> camelize (k +s+ "_") <> n.
Proof. intros k n H N. rewrite camelize_trailing by now apply keywords_plain. now apply trailing_not_plain. Qed.
(** attribute names under the default styler *)
Theorem node_back : forall n, no_under n ->
  (camelize (generate_node_name [default_styler] n) = n <-> camel_name n = true /\ ~ In (camel_to_snake n) kwlist).
Proof.
  intros n H. unfold generate_node_name, style_with. cbn [fold_left sty_node default_styler]. unfold iskeyword.
  destruct (mem (camel_to_snake n) kwlist) eqn:K.
  - apply mem_In in K. split; [intros E; exfalso; now apply (escaped_lost (camel_to_snake n) n)|tauto].
  - rewrite snake_back by exact H. split; [intros E; split; [exact E|]|tauto]. intros I. apply mem_In in I. congruence.
Qed.
Theorem parameter_back : forall n, no_under n ->
  (camelize (generate_parameter_name [default_styler] n) = n <-> camel_name n = true /\ ~ In (camel_to_snake n) kwlist).
Proof. exact node_back. Qed.
Theorem unstyled_back : forall n, no_under n -> (camelize (generate_node_name [] n) = n <-> ~ In n kwlist).
Proof.
  intros n H. unfold generate_node_name, style_with. cbn [fold_left]. unfold iskeyword. destruct (mem n kwlist) eqn:K.
  - apply mem_In in K. split; [intros E; exfalso; now apply (escaped_lost n n)|tauto].
  - rewrite camelize_plain by exact H. split; [|reflexivity]. intros _ I. apply mem_In in I. congruence.
Qed.
Lemma member_named : forall st s sc key kv m, member st s sc key kv m -> member_name m = generate_node_name st (fst kv).
Proof. intros st s sc key [n f] [] H; cbn in H; try contradiction; cbn; tauto. Qed.
Theorem types_names : forall c s ds ap pc r l r', names_styled [default_styler] r -> strawberry_plugin c [default_styler] s ds ap pc r = (Ok l, r') -> sb_types pc = true ->
  forall key t, In (key, t) (s_types s) -> is_interface_def t || is_object_def t = true -> skipped pc key = false ->
  Forall (fun kv => field_wf (snd kv)) (type_fields t) -> Forall (fun kv => keeps_name (fst kv)) (type_fields t) ->
  exists cls bases docs ms cfg dec, In (SClass cls bases (docs ++ ms ++ cfg) dec) l /\ Forall no_field (docs ++ cfg)
    /\ map (fun m => camelize (member_name m)) ms = map fst (type_fields t).
Proof.
  intros c s ds ap pc r l r' N H On key t I K Sk W Hn. eapply types_C55 in H as (bases & docs & ms & cfg & dec & J & _ & F1 & F2); try eassumption.
  do 6 eexists. split; [exact J|]. split; [exact F1|]. clear - F2 Hn. induction F2 as [|x y l1 l2 Q F IH]; [reflexivity|].
  inversion Hn as [|? ? (H1 & H2 & H3) H4]; subst. cbn. rewrite IH by exact H4. f_equal. rewrite (member_named _ _ _ _ _ _ Q). now apply node_back.
Qed.
Theorem inputs_names : forall c s ds ap pc r l r', names_styled [default_styler] r -> strawberry_plugin c [default_styler] s ds ap pc r = (Ok l, r') -> sb_inputs pc = true ->
  forall key de fs dirs, In (key, TInput de fs dirs) (s_types s) -> sb_skip_underscore pc && startswith "_" key = false ->
  Forall (fun kv => gty_wf (if_type (snd kv)) = true) fs -> Forall (fun kv => keeps_name (fst kv)) fs ->
  exists cls bases docs ms cfg dec, In (SClass cls bases (docs ++ ms ++ cfg) dec) l /\ Forall no_field (docs ++ cfg)
    /\ map (fun m => camelize (member_name m)) ms = map fst fs.
Proof.
  intros c s ds ap pc r l r' N H On key de fs dirs I Sk W Hn. eapply inputs_C55 in H as (bases & docs & ms & cfg & dec & J & F1 & F2); try eassumption.
  do 6 eexists. split; [exact J|]. split; [exact F1|]. clear - F2 Hn. induction F2 as [|x y l1 l2 Q F IH]; [reflexivity|].
  inversion Hn as [|? ? (H1 & H2 & H3) H4]; subst. cbn. rewrite IH by exact H4. f_equal.
  destruct y; try contradiction. destruct Q as [-> _]. cbn. now apply node_back.
Qed.
