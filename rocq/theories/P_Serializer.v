(** The serializer emitted for a direct oneOf union. *)
From Verif Require Import Base PyAst Gql Config Stylers Registry Utils Referencer Enums Inputs
  PySem Spec_Types Spec_Inputs P_Base.

Section Ser.
Variable glob : string -> option pv.
Variable subclass : string -> string -> bool.
Variable call : pv -> list pv -> list (string * pv) -> pres pv.
Notation ev := (eval glob subclass call).
Notation exb := (exec_block glob subclass call).
Hypothesis Gtype : glob "type" = Some (PVClass "type").
Hypothesis Ginst : glob "isinstance" = Some (PVFun "isinstance").
Hypothesis Gerr : glob "ValueError" = Some (PVClass "ValueError").
Definition locals : list string := ["value"; "handler"; "tags"; "tag"; "member_class"; "member_tag"].
Definition entry (ct : string * string) : pv * pv := (PVClass (fst ct), PVConst (CStr (snd ct))).

Lemma pset_fresh : forall c t l, ~ In c (map fst l) ->
  pset (PVClass c) (PVConst (CStr t)) (map entry l) = map entry (l ++ [(c, t)]).
Proof.
  intros c t l. induction l as [|[c' t'] l IH]; intros H; cbn in *; [reflexivity|].
  destruct (String.eqb_spec c c') as [->|]; [exfalso; apply H; now left|]. rewrite IH; tauto.
Qed.
Lemma pdict_members : forall l, NoDup (map fst l) -> pdict (map entry l) = PVDict (map entry l).
Proof.
  intros l H. unfold pdict. f_equal.
  assert (G : forall l acc, NoDup (map fst (acc ++ l)) ->
    fold_left (fun d kv => pset (fst kv) (snd kv) d) (map entry l) (map entry acc) = map entry (acc ++ l)).
  { induction l0 as [|[c t] l0 IH]; intros acc N; cbn; [now rewrite app_nil_r|].
    rewrite pset_fresh.
    - rewrite IH; rewrite <- app_assoc; [reflexivity|exact N].
    - rewrite map_app in N. apply NoDup_remove_2 in N. intros C; apply N, in_or_app; now left. }
  apply (G l []). exact H.
Qed.
Lemma pget_members : forall c l, pget (PVClass c) (map entry l) = option_map (fun t => PVConst (CStr t)) (dget c l).
Proof.
  intros c l. induction l as [|[c' t'] l IH]; cbn; [reflexivity|]. now destruct (String.eqb c c').
Qed.
Lemma eval_members : forall v h l,
  (forall c t, In (c, t) l -> glob c = Some (PVClass c) /\ ~ In c locals) ->
  pmap (fun kv : expr * expr => pbind (ev [("value", v); ("handler", h)] (fst kv)) (fun k =>
          pbind (ev [("value", v); ("handler", h)] (snd kv)) (fun v => POk (k, v))))
       (map (fun ct => (EName (fst ct), estr (snd ct))) l) = POk (map entry l).
Proof.
  intros v h l H. induction l as [|[c t] l IH]; [reflexivity|]. cbn [map pmap].
  destruct (H c t) as [G N]; [now left|]. cbn [fst snd eval]. cbn [dget].
  destruct (String.eqb_spec c "value") as [->|]; [exfalso; apply N; cbn; auto|].
  destruct (String.eqb_spec c "handler") as [->|]; [exfalso; apply N; cbn; auto|].
  rewrite G. cbn [pbind estr]. rewrite IH; [reflexivity|]. intros c1 t1 Hc; apply (H c1 t1); now right.
Qed.

Lemma exb_cons : forall x r env, exb (x :: r) env =
  pbind (exec glob subclass call x env) (fun ef => match snd ef with FNext => exb r (fst ef) | f => POk (fst ef, f) end).
Proof. reflexivity. Qed.
(** the class test: the first member whose class the value is an instance of *)
Definition first_super (cls : string) (l : list (string * string)) : option string :=
  option_map snd (find (fun ct => subclass cls (fst ct)) l).
Definition loop_body : list stmt :=
  [SIf (ECall (EName "isinstance") [EName "value"; EName "member_class"] [])
     [SAssign (EName "tag") (EName "member_tag"); SBreak]].
Lemma loop_spec : forall v h l env,
  dget "value" env = Some v -> dget "handler" env = Some h -> dget "tag" env = Some (PVConst CNone) ->
  dget "isinstance" env = None -> dget "ValueError" env = None ->
  exists env', for_loop glob subclass call ["member_class"; "member_tag"] loop_body
                 (map (fun kv => PVTuple [fst kv; snd kv]) (map entry l)) env = POk (env', FNext)
    /\ dget "value" env' = Some v /\ dget "handler" env' = Some h /\ dget "ValueError" env' = None
    /\ dget "tag" env' = Some match first_super (class_of v) l with Some t => PVConst (CStr t) | None => PVConst CNone end.
Proof.
  intros v h l. induction l as [|[c t] l IH]; intros env Hv Hh Ht Hi He.
  - exists env; cbn; auto.
  - cbn [map for_loop entry fst snd]. cbn [bind_targets length Nat.eqb combine fold_left pbind fst snd].
    set (env1 := dset "member_tag" _ (dset "member_class" _ env)).
    assert (L : forall k, dget k env1 = if String.eqb k "member_tag" then Some (PVConst (CStr t))
                            else if String.eqb k "member_class" then Some (PVClass c) else dget k env).
    { intros k. unfold env1. now rewrite !dget_dset. }
    assert (E1 : exb loop_body env1 =
      if subclass (class_of v) c then POk (dset "tag" (PVConst (CStr t)) env1, FBreak) else POk (env1, FNext)).
    { unfold loop_body. rewrite exb_cons. rewrite exec_SIf. cbn [eval pmap concat app fst snd pbind].
      rewrite !L. cbn [String.eqb Ascii.eqb Bool.eqb]. rewrite Hi, Ginst, Hv. cbn [pbind apply concat app].
      destruct (subclass (class_of v) c); cbn [pbind ptruthy]; [|reflexivity].
      rewrite !exb_cons. cbn [exec eval]. rewrite L. reflexivity. }
    rewrite E1. unfold first_super. cbn [find fst]. destruct (subclass (class_of v) c) eqn:S; cbn [pbind fst snd].
    + exists (dset "tag" (PVConst (CStr t)) env1). split; [reflexivity|].
      rewrite !dget_dset, !L. cbn. auto.
    + apply IH; rewrite L; cbn; assumption.
Qed.

Lemma serializer_run : forall key l v h res,
  (forall c t, In (c, t) l -> glob c = Some (PVClass c) /\ ~ In c locals) ->
  NoDup (map fst l) -> apply subclass call h [v] [] = POk res ->
  let run := run_body glob subclass call (serializer_body key l) [("value", v); ("handler", h)] in
  match dget (class_of v) l with
  | Some t => run = POk (PVDict [(PVConst (CStr t), res)])
  | None => match first_super (class_of v) l with
            | Some t => run = POk (PVDict [(PVConst (CStr t), res)])
            | None => exists e, run = PExn e
            end
  end.
Proof.
  intros key l v h res HG ND HC run.
  unfold run, run_body, serializer_body. clear run.
  rewrite exb_cons. cbn [docstring exec eval pbind fst snd].
  rewrite exb_cons. cbn [exec eval]. rewrite eval_members by assumption. cbn [pbind].
  rewrite pdict_members by assumption. cbn [pbind fst snd].
  set (env1 := dset "tags" _ _).
  assert (L1 : forall k, dget k env1 = if String.eqb k "value" then Some v else if String.eqb k "handler" then Some h
            else if String.eqb k "tags" then Some (PVDict (map entry l)) else None).
  { intros k. unfold env1. rewrite dget_dset. cbn [dget].
    destruct (String.eqb_spec k "tags") as [->|]; [reflexivity|]. reflexivity. }
  rewrite exb_cons. cbn [exec eval pmap concat app]. rewrite !L1. cbn [String.eqb Ascii.eqb Bool.eqb]. cbn [pbind]. rewrite Gtype.
  cbn [pbind apply concat]. rewrite pget_members.
  assert (FIN : forall env t, dget "value" env = Some v -> dget "handler" env = Some h ->
    dget "tag" env = Some (PVConst (CStr t)) ->
    pbind (exb [SIf (ECompare (EName "tag") OpIs enone)
        [SRaise (ECall (EName "ValueError") [estr ("is not a member of the @oneOf input '" +s+ key +s+ "'")] [])];
      SReturn (Some (EDict [(EName "tag", ECall (EName "handler") [EName "value"] [])]))] env)
      (fun ef => match snd ef with FReturn v => POk v | _ => POk (PVConst CNone) end)
    = POk (PVDict [(PVConst (CStr t), res)])).
  { intros env t Hv Hh Ht. rewrite exb_cons. rewrite exec_SIf. cbn [eval]. rewrite Ht.
    cbn [pbind same_object const_eqb enone eval ptruthy fst snd]. rewrite exb_cons. cbn [exec eval pmap fst snd]. rewrite Ht, Hv, Hh. cbn [pbind concat].
    rewrite HC. reflexivity. }
  destruct (dget (class_of v) l) as [t|] eqn:D; cbn [option_map].
  - cbn [pbind fst snd]. rewrite exb_cons.
    set (env2 := dset "tag" _ env1).
    assert (L2 : forall k, dget k env2 = if String.eqb k "tag" then Some (PVConst (CStr t)) else dget k env1)
      by (intros k; unfold env2; now rewrite dget_dset).
    rewrite exec_SIf. cbn [eval]. rewrite (L2 "tag"). cbn [String.eqb Ascii.eqb Bool.eqb pbind same_object const_eqb enone eval ptruthy fst snd].
    apply FIN; rewrite L2; cbn [String.eqb Ascii.eqb Bool.eqb]; rewrite ?L1; reflexivity.
  - cbn [pbind fst snd]. rewrite exb_cons.
    set (env2 := dset "tag" _ env1).
    assert (L2 : forall k, dget k env2 = if String.eqb k "tag" then Some (PVConst CNone) else dget k env1)
      by (intros k; unfold env2; now rewrite dget_dset).
    rewrite exec_SIf. cbn [eval]. rewrite (L2 "tag"). cbn [String.eqb Ascii.eqb Bool.eqb pbind same_object const_eqb enone eval ptruthy fst snd].
    rewrite exb_cons. rewrite exec_SFor. cbn [eval pmap]. rewrite (L2 "tags"), L1.
    cbn [String.eqb Ascii.eqb Bool.eqb pbind apply concat].
    destruct (loop_spec v h l env2) as (env3 & E3 & V3 & H3 & R3 & T3);
      try (rewrite L2; cbn [String.eqb Ascii.eqb Bool.eqb]; rewrite ?L1; reflexivity).
    unfold loop_body in E3. rewrite E3. cbn [pbind fst snd].
    destruct (first_super (class_of v) l) as [t|] eqn:F.
    + apply FIN; assumption.
    + change (exb [] env3) with (POk (env3, FNext)). cbn [pbind fst snd]. rewrite exb_cons. rewrite exec_SIf. cbn [eval]. rewrite T3. cbn [pbind same_object const_eqb enone eval ptruthy fst snd].
      rewrite exb_cons. cbn [exec eval pmap estr]. rewrite R3, Gerr. cbn [pbind concat].
      match goal with |- context [apply ?a ?b ?c ?d ?e] => destruct (apply a b c d e) end; cbn [pbind]; eauto.
Qed.
End Ser.

Lemma serializer_body_ok : forall key members, serializer_ok (serializer_body key members) members.
Proof.
  intros key l glob subclass call v h res G1 G2 G3 HG ND HC run.
  pose proof (serializer_run glob subclass call G1 G2 G3 key l v h res HG ND HC) as R. cbn zeta in R. fold run in R.
  assert (FS : forall t, first_super subclass (class_of v) l = Some t -> exists c, In (c, t) l /\ subclass (class_of v) c = true).
  { intros t F. unfold first_super in F. destruct (find _ l) as [[c t']|] eqn:E; [|discriminate].
    apply find_some in E. injection F as <-. exists c. exact E. }
  split; [|split].
  - intros t Ht. rewrite (dget_In_NoDup _ _ _ ND Ht) in R. exact R.
  - intros (c & t & Hin & S). destruct (dget (class_of v) l) as [t0|] eqn:D.
    + exists (class_of v), t0. split; [now apply dget_Some_In|]. auto.
    + destruct (first_super subclass (class_of v) l) as [t1|] eqn:F.
      * destruct (FS t1 eq_refl) as (c1 & I1 & S1). exists c1, t1. auto.
      * exfalso. unfold first_super in F. destruct (find _ l) eqn:E; [discriminate|].
        eapply find_none in E; [|exact Hin]. cbn in E. congruence.
  - intros N. destruct (dget (class_of v) l) as [t0|] eqn:D.
    + apply dget_Some_In in D. destruct (N _ _ D) as [N1 _]. congruence.
    + destruct (first_super subclass (class_of v) l) as [t1|] eqn:F; [|exact R].
      destruct (FS t1 eq_refl) as (c1 & I1 & S1). destruct (N _ _ I1). congruence.
Qed.
