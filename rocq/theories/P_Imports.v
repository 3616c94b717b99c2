(** Imports, and independence of iteration orders. *)
From Coq Require Import Lia.
From Verif Require Import Base PyAst Gql Config Stylers Registry Run Spec_Imports P_Base P_Monad.

Lemma rsplit_join : forall s a b, rsplit_dot s = Some (a, b) -> dotted a b = s /\ has_dot b = false.
Proof.
  induction s as [|c s IH]; cbn; [discriminate|]. intros a b.
  destruct (rsplit_dot s) as [[a' b']|] eqn:E.
  - intros [= <- <-]. destruct (IH _ _ eq_refl) as [H1 H2]. split; [|exact H2].
    unfold dotted in *; cbn in *. now f_equal.
  - destruct (is_dot c) eqn:D; [|discriminate]. intros [= <- <-]. split.
    + apply Ascii.eqb_eq in D. subst c. reflexivity.
    + unfold has_dot. now rewrite E.
Qed.
Lemma has_dot_dotted : forall m n, has_dot (dotted m n) = true.
Proof.
  intros m n. unfold has_dot, dotted. cbn [String.append]. induction m as [|c m IH]; cbn.
  - destruct (rsplit_dot n) as [[]|]; reflexivity.
  - destruct (rsplit_dot (m +s+ String "." n)) as [[a b]|]; [reflexivity|discriminate].
Qed.
Lemma rsplit_dotted : forall m n, has_dot n = false -> rsplit_dot (dotted m n) = Some (m, n).
Proof.
  intros m n H. unfold has_dot in H. unfold dotted. cbn [String.append]. induction m as [|c m IH]; cbn.
  - destruct (rsplit_dot n) as [[]|]; [discriminate|reflexivity].
  - now rewrite IH.
Qed.
Lemma dotted_parts : forall n, has_dot n = true -> dotted (module_part n) (last_comp n) = n /\ has_dot (last_comp n) = false.
Proof.
  intros n H. unfold has_dot in H. unfold module_part, last_comp.
  destruct (rsplit_dot n) as [[a b]|] eqn:E; [|discriminate]. now apply rsplit_join.
Qed.
Lemma last_comp_plain : forall n, has_dot n = false -> last_comp n = n.
Proof. intros n H. unfold has_dot in H. unfold last_comp. destruct (rsplit_dot n) as [[]|]; [discriminate|reflexivity]. Qed.
Lemma last_comp_dotted : forall m n, has_dot n = false -> last_comp (dotted m n) = n.
Proof. intros m n H. unfold last_comp. now rewrite rsplit_dotted. Qed.

(** ** grouping by module *)
Record groups_ok (names : list string) (g : dict (list string)) : Prop := {
  gk_keys : NoDup (dkeys g);
  gk_in : forall m l x, In (m, l) g -> In x l -> has_dot x = false /\ In (dotted m x) names;
  gk_nodup : forall m l, In (m, l) g -> NoDup l;
  gk_all : forall n, In n names -> exists l, In (module_part n, l) g /\ In (last_comp n) l }.

Lemma In_dset : forall {A} k (v : A) d k' v', NoDup (dkeys d) ->
  In (k', v') (dset k v d) <-> (k' = k /\ v' = v) \/ (k' <> k /\ In (k', v') d).
Proof.
  intros A k v d k' v' HN. split; intros H.
  - assert (G : dget k' (dset k v d) = Some v') by (apply dget_In_NoDup; [now apply dset_NoDup|exact H]).
    rewrite dget_dset in G. destruct (String.eqb_spec k' k) as [->|Hne].
    + left. now injection G as ->.
    + right. split; [exact Hne|now apply dget_Some_In].
  - apply dget_Some_In. rewrite dget_dset. destruct H as [[-> ->]|[Hne H]].
    + now rewrite String.eqb_refl.
    + destruct (String.eqb_spec k' k); [congruence|]. now apply dget_In_NoDup.
Qed.
Lemma groups_step : forall names g n, has_dot n = true -> groups_ok names g ->
  groups_ok (names ++ [n])
    (match dget (module_part n) g with
     | Some l => dset (module_part n) (sadd (last_comp n) l) g
     | None => dset (module_part n) [last_comp n] g
     end).
Proof.
  intros names g n Hd [K1 K2 K3 K4]. destruct (dotted_parts n Hd) as [P1 P2].
  set (old := match dget (module_part n) g with Some l => l | None => [] end).
  assert (E : (match dget (module_part n) g with
     | Some l => dset (module_part n) (sadd (last_comp n) l) g
     | None => dset (module_part n) [last_comp n] g end) = dset (module_part n) (sadd (last_comp n) old) g).
  { unfold old. destruct (dget (module_part n) g); reflexivity. }
  rewrite E. clear E.
  assert (Hold : forall x, In x old -> has_dot x = false /\ In (dotted (module_part n) x) names).
  { unfold old. intros x Hx. destruct (dget (module_part n) g) as [l|] eqn:G; [|destruct Hx].
    apply dget_Some_In in G. eauto. }
  assert (Hnd : NoDup old).
  { unfold old. destruct (dget (module_part n) g) as [l|] eqn:G; [|constructor]. apply dget_Some_In in G. eauto. }
  split.
  - now apply dset_NoDup.
  - intros m l x Hm Hx. apply In_dset in Hm; [|exact K1]. rewrite in_app_iff. destruct Hm as [[-> ->]|[Hne Hm]].
    + apply sadd_In in Hx. destruct Hx as [->|Hx].
      * split; [exact P2|]. right. left. now symmetry.
      * destruct (Hold x Hx). tauto.
    + destruct (K2 _ _ _ Hm Hx). tauto.
  - intros m l Hm. apply In_dset in Hm; [|exact K1]. destruct Hm as [[-> ->]|[Hne Hm]]; [now apply sadd_NoDup|eauto].
  - intros k Hk. rewrite in_app_iff in Hk. cbn in Hk.
    destruct (string_dec (module_part k) (module_part n)) as [Em|Hne].
    + exists (sadd (last_comp n) old). split; [apply In_dset; [exact K1|left; now rewrite Em]|].
      apply sadd_In. destruct Hk as [Hk|[->|[]]]; [|now left].
      right. destruct (K4 k Hk) as (l & Hl & Hx). unfold old. rewrite <- Em.
      rewrite (dget_In_NoDup _ _ _ K1 Hl). exact Hx.
    + destruct Hk as [Hk|[->|[]]]; [|congruence]. destruct (K4 k Hk) as (l & Hl & Hx).
      exists l. split; [apply In_dset; [exact K1|right; now split]|exact Hx].
Qed.
Lemma groups_spec : forall names, (forall n, In n names -> has_dot n = true) -> groups_ok names (module_groups names).
Proof.
  intros names H. unfold module_groups.
  assert (G : forall l pre g, (forall n, In n l -> has_dot n = true) -> groups_ok pre g ->
     groups_ok (pre ++ l) (fold_left (fun acc n =>
               let m := module_part n in
               match dget m acc with
               | Some l => dset m (sadd (last_comp n) l) acc
               | None => dset m [last_comp n] acc
               end) l g)).
  { induction l as [|n l IH]; intros pre g Hl Hg; cbn [fold_left]; [now rewrite app_nil_r|].
    replace (pre ++ n :: l) with ((pre ++ [n]) ++ l) by now rewrite <- app_assoc.
    apply IH; [intros; apply Hl; now right|]. cbv zeta. apply groups_step; [apply Hl; now left|exact Hg]. }
  apply (G names [] []); [exact H|]. split; cbn; [constructor|tauto|tauto|tauto].
Qed.

(** ** what is imported *)
Lemma bindings_app : forall a b, bindings (a ++ b) = bindings a ++ bindings b.
Proof. intros; apply flat_map_app. Qed.
Lemma bindings_lone : forall l, bindings (map (fun n => SImport [n]) l) = map (fun n => (n, n)) l.
Proof. induction l as [|n l IH]; [reflexivity|]. cbn. f_equal. exact IH. Qed.
Lemma bindings_from : forall iter (g : dict (list string)),
  bindings (map (fun g => SImportFrom (fst g) (iter (snd g))) g)
  = flat_map (fun g => map (fun n => (n, dotted (fst g) n)) (iter (snd g))) g.
Proof. induction g as [|[m l] g IH]; cbn; [reflexivity|]. f_equal. exact IH. Qed.

Lemma NoDup_flat : forall {A} (f : string * list string -> list A) (g : dict (list string)),
  NoDup (dkeys g) -> (forall p, In p g -> NoDup (f p)) ->
  (forall p q x, In p g -> In q g -> In x (f p) -> In x (f q) -> fst p = fst q) -> NoDup (flat_map f g).
Proof.
  intros A f. induction g as [|p g IH]; intros HN Hf Hd; cbn; [constructor|].
  unfold dkeys in HN; cbn in HN. inversion HN as [|? ? Hp HN']; subst.
  assert (App : forall (a b : list A), NoDup a -> NoDup b -> (forall x, In x a -> ~ In x b) -> NoDup (a ++ b)).
  { induction a as [|y a IHa]; intros b Ha Hb Hab; cbn; [exact Hb|]. inversion Ha; subst. constructor.
    - rewrite in_app_iff. intros [|]; [tauto|]. apply (Hab y); [now left|assumption].
    - apply IHa; auto. intros x Hx. apply Hab. now right. }
  apply App.
  - apply Hf. now left.
  - apply IH; [exact HN'|intros; apply Hf; now right|intros p0 q x Hp0 Hq; apply Hd; now right].
  - intros x Hx Hg. apply in_flat_map in Hg. destruct Hg as (q & Hq & Hxq).
    apply Hp. rewrite (Hd p q x); [now apply in_map|now left|now right|exact Hx|exact Hxq].
Qed.

Section Iter.
Variable iter : list string -> list string.
Hypothesis Hiter : set_order iter.
Lemma iter_In : forall l x, In x (iter l) <-> In x l.
Proof. intros. split; apply Permutation_in; [|symmetry]; apply Hiter. Qed.
Lemma iter_NoDup : forall l, NoDup l -> NoDup (iter l).
Proof. intros l H. eapply Permutation_NoDup; [symmetry; apply Hiter|exact H]. Qed.

Lemma imports_spec : forall names,
  let out := generate_imports_iter names iter in
  NoDup (bindings out) /\ (forall n d, In (n, d) (bindings out) <-> In d names /\ n = last_comp d).
Proof.
  intros names out. unfold out, generate_imports_iter. rewrite bindings_app, bindings_lone, bindings_from.
  assert (Hg := groups_spec (filter has_dot names)). specialize (Hg (fun n H => proj2 (proj1 (filter_In _ _ _) H))).
  set (g := module_groups (filter has_dot names)) in *. destruct Hg as [K1 K2 K3 K4].
  set (lone := dedup (filter (fun n => negb (has_dot n)) names)).
  assert (Hlone : forall x, In x (iter lone) <-> In x names /\ has_dot x = false).
  { intros x. rewrite iter_In. unfold lone. rewrite dedup_In, filter_In, negb_true_iff. tauto. }
  split.
  - assert (App : forall (a b : list (string * string)), NoDup a -> NoDup b -> (forall x, In x a -> ~ In x b) -> NoDup (a ++ b)).
    { induction a as [|y a IHa]; intros b Ha Hb Hab; cbn; [exact Hb|]. inversion Ha; subst. constructor.
      - rewrite in_app_iff. intros [|]; [tauto|]. apply (Hab y); [now left|assumption].
      - apply IHa; auto. intros x Hx. apply Hab. now right. }
    apply App.
    + apply FinFun.Injective_map_NoDup; [intros a b [= ->]; reflexivity|]. apply iter_NoDup, dedup_NoDup.
    + apply NoDup_flat; [exact K1| |].
      * intros [m l] Hp. apply FinFun.Injective_map_NoDup; [intros a b [= -> _]; reflexivity|]. apply iter_NoDup. cbn. eauto.
      * intros [m l] [m' l'] x Hp Hq Hx Hy. cbn [fst snd] in *. apply in_map_iff in Hx, Hy.
        destruct Hx as (a & <- & Ha). destruct Hy as (b & E0 & Hb). injection E0 as -> E.
        rewrite iter_In in Ha. destruct (K2 _ _ _ Hp Ha) as [Hnd _].
        assert (R := rsplit_dotted m a Hnd). rewrite <- E, rsplit_dotted in R by exact Hnd. congruence.
    + intros x Hx Hy. apply in_map_iff in Hx. destruct Hx as (n & <- & Hn). apply Hlone in Hn.
      apply in_flat_map in Hy. destruct Hy as ([m l] & Hp & Hy). apply in_map_iff in Hy.
      destruct Hy as (b & [= -> E] & Hb). cbn [fst snd] in *. destruct Hn as [_ Hn]. rewrite <- E, has_dot_dotted in Hn. discriminate.
  - intros n d. rewrite in_app_iff, in_map_iff, in_flat_map. split.
    + intros [(x & [= <- <-] & Hx)|([m l] & Hp & Hx)].
      * apply Hlone in Hx. destruct Hx as [Hx Hd]. split; [exact Hx|]. now rewrite last_comp_plain.
      * apply in_map_iff in Hx. destruct Hx as (x & [= -> <-] & Hx). cbn [fst snd] in *. rewrite iter_In in Hx.
        destruct (K2 _ _ _ Hp Hx) as [Hnd Hin]. apply filter_In in Hin. split; [tauto|]. now rewrite last_comp_dotted.
    + intros [Hd ->]. destruct (has_dot d) eqn:E.
      * right. destruct (K4 d) as (l & Hl & Hx); [apply filter_In; now split|].
        exists (module_part d, l). split; [exact Hl|]. apply in_map_iff. exists (last_comp d). cbn [fst snd].
        rewrite (proj1 (dotted_parts d E)). split; [reflexivity|now apply iter_In].
      * left. exists d. rewrite last_comp_plain by exact E. split; [reflexivity|]. now apply Hlone.
Qed.
Lemma imports_are_imports : forall r, Forall is_import (generate_imports iter r).
Proof.
  intros r. apply Forall_forall. intros x Hx. unfold generate_imports, generate_imports_iter in Hx.
  rewrite in_app_iff, !in_map_iff in Hx. destruct Hx as [(n & <- & _)|(n & <- & _)]; exact I.
Qed.

Lemma generate_imports_spec : forall r,
  let out := generate_imports iter r in
  NoDup (bindings out) /\ (forall n d, In (n, d) (bindings out) <-> In d (r_imports r) /\ n = last_comp d).
Proof.
  intros r. destruct (imports_spec (iter (r_imports r))) as [H1 H2]. split; [exact H1|].
  intros n d. unfold generate_imports. rewrite H2, iter_In. reflexivity.
Qed.

Lemma requests_spec : forall names r,
  let r' := snd (miter register_import names r) in
  forall d, In d (r_imports r') <-> In d (r_imports r) \/ (In d names /\ ~ In d simple_types).
Proof.
  induction names as [|n names IH]; intros r r' d; [cbn in *; unfold r'; cbn; tauto|].
  unfold r'. cbn [miter]. unfold bind, register_import at 1.
  destruct (mem_spec n py_noimport) as [Hn|Hn]; cbn [ret modify snd].
  - rewrite IH. cbn [In]. assert (n = d -> In d simple_types) by (intros <-; exact Hn). tauto.
  - rewrite IH. cbn [r_imports with_imports]. rewrite sadd_In. 
    assert (n = d -> ~ In d simple_types) by (intros <-; exact Hn). assert (n = d <-> d = n) by (split; now symmetry). cbn [In]. tauto.
Qed.

Theorem imports_exact : forall names r,
  let out := generate_imports iter (snd (miter register_import names r)) in
  NoDup (imported out)
  /\ Forall is_import out
  /\ (forall d, In d (imported out) <-> In d (r_imports r) \/ (In d names /\ ~ In d simple_types)).
Proof.
  intros names r out. destruct (generate_imports_spec (snd (miter register_import names r))) as [H1 H2].
  split; [|split; [apply imports_are_imports|]].
  - unfold imported. clear - H1 H2. set (b := bindings _) in *.
    assert (G : forall p q, In p b -> In q b -> snd p = snd q -> p = q).
    { intros [n d] [n' d'] Hp Hq E. cbn in E. subst d'. apply H2 in Hp, Hq. destruct Hp as [_ ->], Hq as [_ ->]. reflexivity. }
    clearbody b. clear H2. induction b as [|p b IH]; cbn; [constructor|]. inversion H1; subst. constructor.
    + intros Hin. apply in_map_iff in Hin. destruct Hin as (q & E & Hq).
      assert (q = p) by (apply G; [now right|now left|exact E]). congruence.
    + apply IH; [assumption|]. intros; apply G; auto; now right.
  - intros d. rewrite <- requests_spec. unfold imported. rewrite in_map_iff. split.
    + intros ([n d'] & E & Hp). cbn in E. subst d'. now apply H2 in Hp.
    + intros Hd. exists (last_comp d, d). split; [reflexivity|]. apply H2. now split.
Qed.

Theorem imports_bound : forall r, 
  (forall d d', In d (r_imports r) -> In d' (r_imports r) -> last_comp d = last_comp d' -> d = d') ->
  forall d, In d (r_imports r) -> bound_to (generate_imports iter r) (last_comp d) = Some d.
Proof.
  intros r Hinj d Hd. destruct (generate_imports_spec r) as [H1 H2]. unfold bound_to.
  apply dget_In_NoDup.
  - unfold dkeys. rewrite map_rev. apply NoDup_rev.
    set (b := bindings _) in *.
    assert (G : forall p q, In p b -> In q b -> fst p = fst q -> p = q).
    { intros [n e] [n' e'] Hp Hq E. cbn in E. subst n'. apply H2 in Hp, Hq. destruct Hp as [Hp ->], Hq as [Hq E]. f_equal. auto. }
    clearbody b. clear H2. induction b as [|p b IH]; cbn; [constructor|]. inversion H1; subst. constructor.
    + intros Hin. apply in_map_iff in Hin. destruct Hin as (q & E & Hq).
      assert (q = p) by (apply G; [now right|now left|exact E]). congruence.
    + apply IH; [assumption|]. intros; apply G; auto; now right.
  - rewrite <- in_rev. apply H2. now split.
Qed.
End Iter.

(** ** iteration orders *)
Lemma rmap_perm : forall {A B} (f : A -> res B) l l', Permutation l l' -> forall ys, rmap f l = Ok ys ->
  exists ys', rmap f l' = Ok ys' /\ Permutation ys ys'.
Proof.
  intros A B f l l' HP. induction HP; intros ys H.
  - exists ys. split; [exact H|reflexivity].
  - cbn in *. destruct (f x) as [y|] eqn:E; [|discriminate]. cbn in *. destruct (rmap f l) as [zs|] eqn:E2; [|discriminate].
    injection H as <-. destruct (IHHP _ eq_refl) as (zs' & -> & HP'). exists (y :: zs'). split; [reflexivity|now constructor].
  - cbn in *. destruct (f y) as [b|]; [|discriminate]. cbn in *. destruct (f x) as [a|]; [|discriminate]. cbn in *.
    destruct (rmap f l) as [zs|]; [|discriminate]. cbn in *. injection H as <-. exists (a :: b :: zs). split; [reflexivity|constructor].
  - destruct (IHHP1 _ H) as (y1 & H1 & P1). destruct (IHHP2 _ H1) as (y2 & H2 & P2). exists y2. split; [exact H2|].
    etransitivity; eassumption.
Qed.

Theorem pipeline_order : forall c iter iter' plugins skip t,
  set_order iter -> set_order iter' ->
  generate_ast c iter plugins skip = Ok t ->
  exists t', generate_ast c iter' plugins skip = Ok t' /\ same_up_to_order t t'.
Proof.
  intros c iter iter' plugins skip t Hi Hi' H. unfold generate_ast in *.
  destruct (run_plugins plugins (init_reg c) []) as [[tree r]|]; [|discriminate]. cbn [rbind] in *.
  unfold generate_builtins in *.
  set (f := fun k => match built_in k with Some l => Ok l | None => rraise KeyErrorC k end) in *.
  destruct (rmap f (iter (r_builtins r))) as [bs|] eqn:E; [|discriminate]. cbn [rbind] in *. injection H as <-.
  destruct (rmap_perm f (iter (r_builtins r)) (iter' (r_builtins r))) with (ys := bs) as (bs' & E' & HP).
  { etransitivity; [apply Hi|symmetry; apply Hi']. } { exact E. }
  rewrite E'. cbn [rbind]. eexists. split; [reflexivity|].
  exists (generate_imports iter r), (generate_imports iter' r), bs, bs', (tree ++ (if skip then [] else generate_forward_refs c r)).
  repeat split; auto using imports_are_imports.
  destruct (generate_imports_spec iter Hi r) as [N1 I1]. destruct (generate_imports_spec iter' Hi' r) as [N2 I2].
  apply NoDup_Permutation; auto. intros [n d]. now rewrite I1, I2.
Qed.
Theorem forward_refs_order : forall c r r', Permutation (r_fwd r) (r_fwd r') ->
  generate_forward_refs c r = generate_forward_refs c r'.
Proof. intros c r r' H. unfold generate_forward_refs. now rewrite (str_sort_Permutation _ _ H). Qed.
