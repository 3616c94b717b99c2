(** Proofs about the polyfill. *)
From Verif Require Import Base PyAst Polyfill Spec_Polyfill Spec_Imports P_Base.

Lemma dget_app : forall {A} (a b : dict A) x, dget x (a ++ b) = match dget x a with Some v => Some v | None => dget x b end.
Proof. induction a as [|[k v] a IH]; intros b x; [reflexivity|]. cbn. destruct (String.eqb x k); [reflexivity|apply IH]. Qed.
Lemma meaning_app : forall a b x, meaning (a ++ b) x = match meaning b x with Some o => Some o | None => meaning a x end.
Proof. intros. unfold meaning. now rewrite flat_map_app, rev_app_distr, dget_app. Qed.
Lemma imported_get : forall m (l : list string) x,
  meaning [From (Some m) (map (fun y => (y, None)) l) 0] x = if mem x l then Some (Imported 0 (Some m) x) else None.
Proof.
  intros m l x. unfold meaning. cbn. rewrite app_nil_r, map_map. cbn. rewrite <- map_rev.
  assert (E : mem x l = mem x (rev l)).
  { destruct (mem_spec x l) as [H|H], (mem_spec x (rev l)) as [H'|H']; try reflexivity; exfalso; [apply H'; now apply in_rev in H|apply H; now apply in_rev]. }
  rewrite E. clear E. induction (rev l) as [|y r IH]; [reflexivity|]. cbn. destruct (String.eqb_spec x y) as [->|N]; [reflexivity|exact IH].
Qed.
Lemma mem_iter : forall iter l x, set_order iter -> mem x (iter l) = mem x l.
Proof.
  intros iter l x HO. destruct (mem_spec x l) as [H|H], (mem_spec x (iter l)) as [H'|H']; try reflexivity; exfalso.
  - apply H'. eapply Permutation_in; [symmetry; apply HO|exact H].
  - apply H. eapply Permutation_in; [apply HO|exact H'].
Qed.
Lemma mem_filter : forall f l x, mem x (filter f l) = mem x l && f x.
Proof.
  intros f l x. destruct (mem_spec x (filter f l)) as [H|H].
  - apply filter_In in H. destruct H as [H ->]. symmetry. rewrite andb_true_r. now apply mem_In.
  - destruct (mem_spec x l) as [H'|]; [|reflexivity]. cbn. destruct (f x) eqn:E; [|reflexivity]. exfalso. apply H. now apply filter_In.
Qed.
Lemma mem_dedup : forall l x, mem x (dedup l) = mem x l.
Proof.
  intros l x. pose proof (dedup_In l x). destruct (mem_spec x l) as [H1|H1], (mem_spec x (dedup l)) as [H2|H2]; tauto.
Qed.
Lemma is_typing : forall n, from_typing n = true -> exists names level, n = From (Some "typing") names level.
Proof.
  intros [[m|] names level|s] H; try discriminate. destruct (string_dec m "typing") as [->|N]; [eauto|]. exfalso. revert N.
  cbn in H. repeat (match type of H with context [match ?x with _ => _ end] => destruct x; try discriminate H end). intros N. now apply N.
Qed.
Lemma polyfill_other : forall iter n, from_typing n = false -> polyfill_node iter n = [n].
Proof.
  intros iter [[m|] names level|s] H; try reflexivity. cbn in *.
  repeat (match goal with |- context [match ?x with _ => _ end] => destruct x; try reflexivity; try discriminate H end).
Qed.
Lemma no_asnames : forall names : list (string * option string), Forall (fun x => snd x = None) names -> map (fun y => (y, None)) (map fst names) = names.
Proof. intros names H. induction H as [|[x o] l E H IH]; [reflexivity|]. cbn in *. now rewrite E, IH. Qed.
Lemma moved_typing : forall x, moved (Imported 0 (Some "typing") x) = if String.eqb x "Literal" then Imported 0 (Some "typing_extensions") "Literal" else Imported 0 (Some "typing") x.
Proof.
  intros x. destruct (String.eqb_spec x "Literal") as [->|N]; [reflexivity|]. cbn.
  repeat (match goal with |- context [match ?x with _ => _ end] => destruct x; try reflexivity end). now contradiction N.
Qed.
Lemma moved_other : forall l m x, m <> Some "typing" -> moved (Imported l m x) = Imported l m x.
Proof.
  intros l m x N. destruct l; [|reflexivity]. destruct m as [m|]; [|reflexivity]. cbn.
  repeat (match goal with |- context [match ?x with _ => _ end] => destruct x; try reflexivity end). now contradiction N.
Qed.
Lemma meaning_node : forall iter n x, set_order iter -> absolute n -> meaning (polyfill_node iter n) x = option_map moved (meaning [n] x).
Proof.
  intros iter n x HO HA. destruct (from_typing n) eqn:ET.
  - destruct (is_typing n ET) as (names & level & ->). cbn in HA. destruct HA as [-> HA]. unfold polyfill_node.
    set (al := dedup (map fst names)). cbn zeta. rewrite meaning_app, imported_get, mem_iter, mem_filter by exact HO.
    rewrite <- (no_asnames names HA) at 1. rewrite imported_get. rewrite !mem_filter. unfold al at 1 2. rewrite mem_dedup.
    destruct (mem x (map fst names)) eqn:EM; cbn [andb option_map].
    + rewrite moved_typing. destruct (String.eqb_spec x "Literal") as [->|N]; cbn [negb]; [|reflexivity].
      destruct (filter (fun y => String.eqb y "Literal") al) as [|y0 r0] eqn:EF.
      { assert (X : In "Literal" (filter (fun y => String.eqb y "Literal") al)) by (apply filter_In; split; [apply dedup_In, mem_In, EM|reflexivity]).
        rewrite EF in X. contradiction. }
      rewrite <- EF, imported_get, mem_iter, mem_filter by exact HO. unfold al. rewrite mem_dedup, EM. reflexivity.
    + destruct (filter (fun y => String.eqb y "Literal") al) as [|y0 r0] eqn:EF; [reflexivity|]. rewrite <- EF, imported_get, mem_iter, mem_filter by exact HO. unfold al. now rewrite mem_dedup, EM.
  - rewrite polyfill_other by exact ET.
    assert (G : forall y o, In (y, o) (rev (flat_map node_binds [n])) -> moved o = o).
    { intros y o H. apply in_rev in H. cbn in H. rewrite app_nil_r in H. destruct n as [m names level|s]; cbn in H; apply in_map_iff in H.
      - destruct H as (z & [= _ <-] & _). apply moved_other. intros ->. discriminate.
      - destruct H as (z & [= _ <-] & _). reflexivity. }
    unfold meaning. destruct (dget x (rev (flat_map node_binds [n]))) as [o|] eqn:E; [|reflexivity]. cbn. apply dget_Some_In in E. now rewrite (G x o E).
Qed.
Lemma C37_meaning_lemma : forall iter l x, set_order iter -> Forall absolute l ->
  meaning (polyfill_python_seven iter l) x = option_map moved (meaning l x).
Proof.
  intros iter l x HO H. induction H as [|n l Hn H IH]; [reflexivity|]. cbn [polyfill_python_seven flat_map]. change (n :: l) with ([n] ++ l).
  rewrite !meaning_app. fold (polyfill_python_seven iter l). rewrite IH, meaning_node by assumption. now destruct (meaning l x).
Qed.
Lemma C37_untouched_lemma : forall iter l, filter untouched (polyfill_python_seven iter l) = filter untouched l.
Proof.
  intros iter l. induction l as [|n l IH]; [reflexivity|]. cbn [polyfill_python_seven flat_map]. rewrite filter_app. fold (polyfill_python_seven iter l). rewrite IH.
  destruct (from_typing n) eqn:ET.
  - assert (E : filter untouched (n :: l) = filter untouched l) by (cbn; unfold untouched at 1; now rewrite ET). rewrite E.
    destruct (is_typing n ET) as (names & level & ->). unfold polyfill_node. cbn zeta. rewrite filter_app. destruct (filter (fun x => String.eqb x "Literal") _); reflexivity.
  - rewrite polyfill_other by exact ET. cbn. now destruct (untouched n).
Qed.
Lemma C37_valid_lemma : forall iter l, set_order iter -> Forall more_than_literal l -> Forall valid_node l -> Forall valid_node (polyfill_python_seven iter l).
Proof.
  intros iter l HO H HV. induction H as [|n l Hn H IH]; [constructor|]. inversion HV; subst. cbn [polyfill_python_seven flat_map]. apply Forall_app. split; [|apply IH; assumption].
  destruct (from_typing n) eqn:ET.
  - destruct (is_typing n ET) as (names & level & ->). cbn in Hn. destruct Hn as (x & Hx & N).
    assert (V : forall m k y, In y k -> valid_node (From (Some m) (map (fun z => (z, None)) (iter k)) 0)).
    { intros m k y Hy. assert (E : In y (iter k)) by (eapply Permutation_in; [symmetry; apply HO|exact Hy]). cbn. destruct (iter k); [contradiction|exact I]. }
    cbn. apply Forall_app. split.
    + destruct (filter (fun y => String.eqb y "Literal") (dedup (map fst names))) as [|y r] eqn:EF; [constructor|]. constructor; [|constructor]. eapply V. now left.
    + constructor; [|constructor]. eapply (V _ _ x). apply filter_In. split; [now apply dedup_In|]. rewrite mem_filter.
      destruct (String.eqb_spec x "Literal"); [congruence|]. now rewrite andb_false_r.
  - rewrite polyfill_other by exact ET. constructor; [assumption|constructor].
Qed.
Lemma emitted_absolute : forall l, Forall absolute (map node_of_stmt l).
Proof.
  intros l. apply Forall_forall. intros n H. apply in_map_iff in H. destruct H as (s & <- & _). destruct s; try exact I. cbn.
  assert (G : Forall (fun x : string * option string => snd x = None) (map (fun x => (x, None)) names)) by (apply Forall_map, Forall_forall; reflexivity).
  repeat (match goal with |- context [match ?x with _ => _ end] => destruct x; try exact I end). now split.
Qed.
