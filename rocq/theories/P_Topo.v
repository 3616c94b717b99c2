(** Proofs about topological_sort and fragment ordering. *)
From Verif Require Import Base Gql Config Documents Spec_Docs P_Base P_Gql P_Documents.
From Coq Require Import Lia Permutation.

Definition emptyb (l : list string) : bool := match l with [] => true | _ => false end.
Lemma emptyb_true : forall l, emptyb l = true <-> l = [].
Proof. intros [|]; cbn; split; easy. Qed.
Definition newly (f : string) (res : list string) (g : dict (list string)) : list string :=
  map fst (filter (fun kv => mem f (snd kv) && emptyb (remove_dep f (snd kv)) && negb (mem (fst kv) res)) g).
Definition shrink (f : string) (kv : string * list string) := (fst kv, remove_dep f (snd kv)).

Lemma remove_dep_In : forall f ds x, In x (remove_dep f ds) <-> In x ds /\ x <> f.
Proof.
  intros; unfold remove_dep. rewrite filter_In, negb_true_iff, String.eqb_neq. intuition congruence.
Qed.
Lemma remove_dep_id : forall f ds, ~ In f ds -> remove_dep f ds = ds.
Proof.
  unfold remove_dep; induction ds as [|d ds IH]; cbn; intros H; [reflexivity|].
  destruct (String.eqb_spec f d) as [->|N]; [tauto|]. cbn. rewrite IH; tauto.
Qed.
Lemma newly_ext : forall f res x g, ~ In x (dkeys g) -> newly f (res ++ [x]) g = newly f res g.
Proof.
  unfold newly; induction g as [|[k ds] g IH]; cbn; intros H; [reflexivity|].
  assert (E : mem k (res ++ [x]) = mem k res).
  { destruct (mem_spec k res) as [M|M].
    - apply mem_In, in_app_iff; auto.
    - apply mem_false. rewrite in_app_iff; cbn. intuition. }
  rewrite E. destruct (_ && _ && _); cbn; rewrite IH; tauto.
Qed.
Lemma relax_fold : forall f g acc q res, NoDup (dkeys g) ->
  fold_left (relax1 f) g (Topo acc q res)
  = Topo (acc ++ map (shrink f) g) (q ++ newly f res g) (res ++ newly f res g).
Proof.
  intros f; induction g as [|[k ds] g IH]; intros acc q res ND.
  - cbn. now rewrite !app_nil_r.
  - inversion ND as [|? ? Hk ND']; subst. cbn [fold_left]. unfold relax1 at 2.
    assert (Sh : forall ds' Y Z, ds' = remove_dep f ds ->
       fold_left (relax1 f) g (Topo (acc ++ [(k, ds')]) Y Z)
       = Topo (acc ++ map (shrink f) ((k, ds) :: g)) (Y ++ newly f Z g) (Z ++ newly f Z g)).
    { intros ds' Y Z ->. rewrite IH by assumption. cbn [map]. unfold shrink at 2. cbn.
      now rewrite <- app_assoc. }
    destruct (mem f ds) eqn:M.
    + assert (Nw : newly f res ((k, ds) :: g) = (if emptyb (remove_dep f ds) && negb (mem k res)
                                                 then [k] else []) ++ newly f res g).
      { unfold newly. cbn [filter snd fst]. rewrite M. cbn [andb].
        now destruct (emptyb (remove_dep f ds) && negb (mem k res)). }
      rewrite Nw. clear Nw.
      destruct (remove_dep f ds) as [|d ds'] eqn:E; cbn [emptyb andb].
      * cbn [t_resolved t_graph t_queue]. destruct (mem k res) eqn:Mk; cbn [negb].
        -- now rewrite Sh.
        -- unfold sadd. rewrite Mk, Sh by reflexivity. rewrite newly_ext by assumption.
           rewrite <- !app_assoc. reflexivity.
      * cbn [t_resolved t_graph t_queue]. now rewrite Sh.
    + assert (Nw : newly f res ((k, ds) :: g) = newly f res g).
      { unfold newly. cbn [filter snd fst]. now rewrite M. }
      rewrite Nw. cbn [t_resolved t_graph t_queue]. apply Sh.
      symmetry; apply remove_dep_id. now apply mem_false.
Qed.

Definition gdeps (g : dict (list string)) (k x : string) : Prop := exists ds, In (k, ds) g /\ In x ds.

(** loop invariant *)
Record tinv (g0 g : dict (list string)) (q res sorted : list string) : Prop := TInv {
  ti_keys : dkeys g = dkeys g0;
  ti_res : forall x, In x res <-> In x sorted \/ In x q;
  ti_nodup : NoDup (sorted ++ q);
  ti_sub : incl (sorted ++ q) (dkeys g0);
  ti_deps : forall k x, gdeps g k x <-> gdeps g0 k x /\ ~ In x sorted;
  ti_empty : forall k ds, In (k, ds) g -> ds = [] <-> In k res;
  ti_order : forall l1 a l2, sorted = l1 ++ a :: l2 -> forall x, gdeps g0 a x -> In x l1 }.

Lemma newly_In : forall f res g k, In k (newly f res g) <->
  exists ds, In (k, ds) g /\ In f ds /\ remove_dep f ds = [] /\ ~ In k res.
Proof.
  intros; unfold newly. rewrite in_map_iff. split.
  - intros ([k' ds] & E & H). cbn in E; subst. apply filter_In in H as [H1 H2]. cbn [fst snd] in H2.
    rewrite !andb_true_iff, negb_true_iff, mem_In, emptyb_true, mem_false in H2. exists ds; tauto.
  - intros (ds & H1 & H2 & H3 & H4). exists (k, ds). split; [reflexivity|]. apply filter_In.
    split; [assumption|]. cbn [fst snd]. rewrite !andb_true_iff, negb_true_iff, mem_In, emptyb_true, mem_false. tauto.
Qed.
Lemma NoDup_map_filter : forall {A} (p : string * A -> bool) g,
  NoDup (map fst g) -> NoDup (map fst (filter p g)).
Proof.
  induction g as [|x g IH]; cbn; intros H; [constructor|]. inversion H; subst.
  destruct (p x); cbn; [constructor; auto|auto].
  intros C. apply H2. rewrite in_map_iff in *. destruct C as (y & E & C). exists y.
  apply filter_In in C. tauto.
Qed.
Lemma NoDup_app_intro : forall {A} (l l' : list A),
  NoDup l -> NoDup l' -> (forall x, In x l -> ~ In x l') -> NoDup (l ++ l').
Proof.
  induction l as [|x l IH]; cbn; intros l' H H' D; [assumption|]. inversion H; subst.
  constructor; [rewrite in_app_iff; intros [|C]; [auto|eapply D; eauto]|]. apply IH; auto.
Qed.
Lemma NoDup_keys_fun : forall {A} (g : dict A) k a b, NoDup (dkeys g) -> In (k, a) g -> In (k, b) g -> a = b.
Proof. intros A g k a b H Ha Hb. apply dget_In_NoDup in Ha, Hb; auto. congruence. Qed.

Lemma tinv_step : forall g0 g f q res sorted, NoDup (dkeys g0) ->
  tinv g0 g (f :: q) res sorted ->
  tinv g0 (map (shrink f) g) (q ++ newly f res g) (res ++ newly f res g) (sorted ++ [f]).
Proof.
  intros g0 g f q res sorted ND0 [K Rr N Sb D E O].
  assert (ND : NoDup (dkeys g)) by now rewrite K.
  assert (Kf : In f res) by (apply Rr; right; now left).
  assert (NewSub : forall x, In x (newly f res g) -> In x (dkeys g0) /\ ~ In x res).
  { intros x Hx. apply newly_In in Hx as (ds & H1 & _ & _ & H4). split; [|assumption].
    rewrite <- K. apply (in_map fst) in H1. exact H1. }
  constructor.
  - rewrite <- K. unfold dkeys. rewrite map_map. reflexivity.
  - intros x. rewrite !in_app_iff, Rr. cbn. tauto.
  - rewrite <- app_assoc. cbn [app]. rewrite app_comm_cons, app_assoc. apply NoDup_app_intro; auto.
    + apply NoDup_map_filter. exact ND.
    + intros x Hx C. apply NewSub in C as [_ C]. apply C, Rr. apply in_app_iff in Hx. exact Hx.
  - intros x Hx. rewrite <- app_assoc in Hx. cbn [app] in Hx.
    rewrite app_comm_cons, app_assoc in Hx.
    apply in_app_iff in Hx as [Hx|Hx]; [auto|now apply NewSub].
  - intros k x. split.
    + intros (ds & H1 & H2). apply in_map_iff in H1 as ([k' ds'] & [= -> <-] & H1).
      cbn in H2. apply remove_dep_In in H2 as [H2 H3].
      assert (G : gdeps g k x) by (exists ds'; auto). apply D in G as [G1 G2].
      split; [assumption|]. rewrite in_app_iff; cbn. intuition.
    + intros [H1 H2]. rewrite in_app_iff in H2; cbn in H2.
      assert (G : gdeps g k x) by (apply D; tauto). destruct G as (ds & G1 & G2).
      exists (remove_dep f ds). split; [apply in_map_iff; now exists (k, ds)|].
      apply remove_dep_In. intuition.
  - intros k ds H. apply in_map_iff in H as ([k' ds'] & [= -> <-] & H). cbn.
    rewrite in_app_iff, newly_In. split.
    + intros Z. destruct (in_dec string_dec k res) as [Hr|Hr]; [now left|right].
      destruct (in_dec string_dec f ds') as [Hf|Hf].
      * exists ds'; auto.
      * rewrite remove_dep_id in Z by assumption. apply (E k ds' H) in Z. contradiction.
    + intros [Hr|(ds2 & H1 & H2 & H3 & _)].
      * apply (E k ds' H) in Hr. subst. reflexivity.
      * now rewrite (NoDup_keys_fun g k ds' ds2 ND H H1).
  - intros l1 a l2 Eq x Hx.
    destruct l2 as [|z l2 _] using rev_ind.
    + apply app_inj_tail in Eq as [<- <-].
      destruct (in_dec string_dec x sorted) as [|Hn]; [assumption|]. exfalso.
      assert (G : gdeps g f x) by (apply D; auto). destruct G as (ds & G1 & G2).
      apply (E f ds G1) in Kf. now subst.
    + rewrite app_comm_cons, app_assoc in Eq. apply app_inj_tail in Eq as [Eq <-].
      eapply O; eauto.
Qed.

Lemma topo_loop_ok : forall g0, NoDup (dkeys g0) -> forall fuel g q res sorted,
  tinv g0 g q res sorted -> length g0 <= fuel + length sorted ->
  exists sorted' g', topo_loop fuel g q res sorted = Ok sorted'
    /\ tinv g0 g' [] sorted' sorted'.
Proof.
  intros g0 ND; induction fuel as [|fuel IH]; intros g q res sorted I L.
  - destruct q as [|f q].
    + cbn. exists sorted, g. split; [reflexivity|]. destruct I as [K Rr N Sb D E O].
      constructor; auto; [intros x; cbn; tauto|]. intros k ds H. rewrite (E k ds H), Rr. cbn; tauto.
    + exfalso. pose proof (NoDup_incl_length (ti_nodup _ _ _ _ _ I) (ti_sub _ _ _ _ _ I)) as HL.
      unfold dkeys in HL. rewrite app_length, map_length in HL. cbn in HL. lia.
  - destruct q as [|f q].
    + cbn. exists sorted, g. split; [reflexivity|]. destruct I as [K Rr N Sb D E O].
      constructor; auto; [intros x; cbn; tauto|]. intros k ds H. rewrite (E k ds H), Rr. cbn; tauto.
    + cbn [topo_loop]. unfold relax. rewrite relax_fold.
      2:{ rewrite (ti_keys _ _ _ _ _ I). assumption. }
      cbn [t_graph t_queue t_resolved app]. apply IH.
      * now apply tinv_step.
      * rewrite app_length; cbn; lia.
Qed.

Lemma tinv_init : forall g, NoDup (dkeys g) ->
  let q := map fst (filter (fun kv => match snd kv with [] => true | _ => false end) g) in
  tinv g g q q [].
Proof.
  intros g ND q. constructor; cbn; auto.
  - intros; tauto.
  - apply NoDup_map_filter. exact ND.
  - intros x Hx. apply in_map_iff in Hx as (y & <- & Hy). apply filter_In in Hy as [Hy _].
    now apply in_map.
  - intros; tauto.
  - intros k ds H. unfold q. rewrite in_map_iff. split.
    + intros ->. exists (k, []). split; [reflexivity|]. now apply filter_In.
    + intros ([k' ds'] & E & H'). cbn in E; subst. apply filter_In in H' as [H1 H2].
      cbn in H2. rewrite (NoDup_keys_fun g k ds ds' ND H H1). now destruct ds'.
  - intros [|] a l2; discriminate.
Qed.

Lemma topological_sort_ok : forall g, NoDup (dkeys g) -> exists sorted g',
  topological_sort g = Ok (sorted ++ filter (fun k => negb (mem k sorted)) (dkeys g))
  /\ tinv g g' [] sorted sorted.
Proof.
  intros g ND. unfold topological_sort. cbn zeta.
  destruct (topo_loop_ok g ND (length g) g _ _ [] (tinv_init g ND)) as (s & g' & E & I); [cbn; lia|].
  rewrite E. cbn [rbind]. eauto.
Qed.

Lemma topological_sort_perm : forall g, NoDup (dkeys g) -> exists s,
  topological_sort g = Ok s /\ Permutation s (dkeys g).
Proof.
  intros g ND. destruct (topological_sort_ok g ND) as (s & g' & E & I).
  eexists; split; [exact E|]. apply NoDup_Permutation; auto.
  - pose proof (ti_nodup _ _ _ _ _ I) as Hn. rewrite app_nil_r in Hn. apply NoDup_app_intro; auto.
    + now apply NoDup_filter.
    + intros x Hx C. apply filter_In in C as [_ C]. now apply negb_true_iff, mem_false in C.
  - intros x. pose proof (ti_sub _ _ _ _ _ I) as Hs. rewrite app_nil_r in Hs.
    rewrite in_app_iff, filter_In, negb_true_iff, mem_false. split; [intros [|]; auto; tauto|].
    intros H. destruct (in_dec string_dec x s); auto.
Qed.

(** With a transitive, irreflexive dependency relation between keys everything is resolved *)
Section Order.
Variable g : dict (list string).
Hypothesis ND : NoDup (dkeys g).
Hypothesis closed : forall k x, gdeps g k x -> In x (dkeys g).
Hypothesis trans : forall a b c, gdeps g a b -> gdeps g b c -> gdeps g a c.
Hypothesis irrefl : forall a, ~ gdeps g a a.

Definition gdepsb (k x : string) : bool := match dget k g with Some ds => mem x ds | None => false end.
Lemma gdepsb_ok : forall k x, gdepsb k x = true <-> gdeps g k x.
Proof.
  intros; unfold gdepsb, gdeps. destruct (dget k g) as [ds|] eqn:E.
  - rewrite mem_In. apply dget_Some_In in E. split; [eauto|].
    intros (ds' & H1 & H2). now rewrite (NoDup_keys_fun g k ds ds' ND E H1).
  - split; [discriminate|]. intros (ds & H & _). apply dget_None in E.
    apply (in_map fst) in H. contradiction.
Qed.
Lemma all_sorted : forall sorted g', tinv g g' [] sorted sorted -> incl (dkeys g) sorted.
Proof.
  intros sorted g' I.
  assert (Q : forall n k, length (filter (gdepsb k) (dkeys g)) <= n -> In k (dkeys g) -> In k sorted).
  { induction n as [|n IH]; intros k Hn Hk;
    (destruct (in_dec string_dec k sorted) as [|Hs]; [assumption|exfalso]);
    pose proof Hk as Hk'; rewrite <- (ti_keys _ _ _ _ _ I) in Hk'; apply in_map_iff in Hk' as ([k' ds] & E & Hi);
    cbn in E; subst; (destruct ds as [|x ds]; [apply Hs; now apply (ti_empty _ _ _ _ _ I k [])|]);
    assert (G : gdeps g' k x) by (exists (x :: ds); split; [assumption|now left]);
    apply (ti_deps _ _ _ _ _ I) in G as [G1 G2].
    - apply gdepsb_ok in G1 as G1'. assert (In x (filter (gdepsb k) (dkeys g)))
        by (apply filter_In; eauto). destruct (filter (gdepsb k) (dkeys g)); [easy|cbn in Hn; lia].
    - apply G2, IH; [|eauto].
      assert (length (filter (gdepsb x) (dkeys g)) < length (filter (gdepsb k) (dkeys g))); [|lia].
      apply filter_length_lt with (y := x); eauto.
      + intros y _. rewrite !gdepsb_ok. eauto.
      + destruct (gdepsb x x) eqn:B; [|reflexivity]. apply gdepsb_ok, irrefl in B. easy.
      + now apply gdepsb_ok. }
  intros k; eapply Q; eauto.
Qed.
Lemma topological_sort_order : forall s a b, topological_sort g = Ok s -> In a (dkeys g) ->
  gdeps g a b -> before b a s.
Proof.
  intros s a b Hs Ha Hd. destruct (topological_sort_ok g ND) as (s' & g' & E & I).
  rewrite E in Hs; injection Hs as <-. pose proof (all_sorted _ _ I) as A.
  destruct (in_split _ _ (A a Ha)) as (l1 & l2 & ->).
  assert (B : In b l1) by (eapply (ti_order _ _ _ _ _ I); eauto).
  destruct (in_split _ _ B) as (m1 & m2 & ->).
  exists m1, m2. eexists. rewrite <- !app_assoc. cbn. reflexivity.
Qed.
End Order.

(** ** documents *)
Lemma dict_of_acc : forall {A} (l acc : list (string * A)),
  NoDup (map fst (acc ++ l)) -> fold_left (fun a kv => dset (fst kv) (snd kv) a) l acc = acc ++ l.
Proof.
  induction l as [|[k v] l IH]; intros acc H; cbn; [now rewrite app_nil_r|].
  assert (D : dset k v acc = acc ++ [(k, v)]).
  { assert (~ In k (map fst acc)).
    { rewrite map_app in H. cbn in H. apply NoDup_remove_2 in H. rewrite in_app_iff in H. tauto. }
    clear -H0. induction acc as [|[k' v'] acc IH]; cbn in *; [reflexivity|].
    destruct (String.eqb_spec k k') as [->|]; [tauto|]. rewrite IH; tauto. }
  rewrite D, IH, <- app_assoc; [reflexivity|]. now rewrite <- app_assoc.
Qed.
Lemma dict_of_NoDup : forall {A} (l : list (string * A)), NoDup (map fst l) -> dict_of l = l.
Proof. intros; unfold dict_of. now rewrite dict_of_acc. Qed.
Lemma fragment_definitions_unique : forall d, unique_fragment_names d ->
  fragment_definitions d = map (fun f => (fr_name f, f)) (fragments_of d).
Proof.
  intros d H; unfold fragment_definitions. apply dict_of_NoDup. rewrite map_map. exact H.
Qed.
Definition frs_of (d : document) := map (fun f => (fr_name f, fr_sels f)) (fragments_of d).
Lemma frs_keys : forall d, dkeys (frs_of d) = map fr_name (fragments_of d).
Proof. intros; unfold frs_of, dkeys. rewrite map_map. reflexivity. Qed.

Lemma rmap_ok : forall {A B} (f : A -> res B) (P : A -> B -> Prop) l,
  (forall x, In x l -> exists y, f x = Ok y /\ P x y) ->
  exists l', rmap f l = Ok l' /\ Forall2 P l l'.
Proof.
  induction l as [|x l IH]; intros H; cbn.
  - exists []; auto.
  - destruct (H x (or_introl eq_refl)) as (y & -> & Hy).
    destruct IH as (l' & -> & Hl); [intros; apply H; now right|]. cbn. eauto.
Qed.
Lemma graph_rel : forall frs l g,
  Forall2 (fun (kv : string * list selection) (y : string * list string) =>
             fst y = fst kv /\ forall n, In n (snd y) <-> R frs (snd kv) n) l g ->
  dkeys g = dkeys l
  /\ forall k x, gdeps g k x <-> exists sels, In (k, sels) l /\ R frs sels x.
Proof.
  intros frs l g F. induction F as [|[k s] [k' ds] l g [E H] F [IH1 IH2]]; cbn in *.
  - split; [reflexivity|]. intros k x. unfold gdeps. split; intros (? & [] & _).
  - subst k'. split; [unfold dkeys in *; cbn; now f_equal|]. intros k0 x. unfold gdeps in *. split.
    + intros (ds0 & [[= <- <-]|Hi] & Hx).
      * exists s. split; [now left|]. now apply H.
      * destruct (proj1 (IH2 k0 x)) as (s0 & ? & ?); [eauto|]. exists s0; split; [now right|assumption].
    + intros (s0 & [[= <- <-]|Hi] & Hx).
      * exists ds. split; [now left|]. now apply H.
      * destruct (proj2 (IH2 k0 x)) as (ds0 & ? & ?); [eauto|]. exists ds0; split; [now right|assumption].
Qed.
Lemma graph_ok : forall d, unique_fragment_names d -> exists g,
  build_recursive_dependency_graph d = Ok g /\ dkeys g = map fr_name (fragments_of d)
  /\ forall k x, gdeps g k x <-> exists sels, In (k, sels) (frs_of d) /\ R (frs_of d) sels x.
Proof.
  intros d U. unfold build_recursive_dependency_graph. rewrite (fragment_definitions_unique d U).
  rewrite map_map. cbn zeta.
  change (map (fun x : fragment => (fst (fr_name x, x), fr_sels (snd (fr_name x, x)))) (fragments_of d))
    with (frs_of d).
  destruct (rmap_ok
    (fun kv : string * list selection =>
       let? (ds, _) := deps_list (find_deps (length (frs_of d)) (frs_of d)) (snd kv) [] in
       Ok (fst kv, ds))
    (fun kv y => fst y = fst kv /\ forall n, In n (snd y) <-> R (frs_of d) (snd kv) n)
    (frs_of d)) as (g & E & F).
  { intros [k sels] _. destruct (deps_exact (frs_of d) sels) as (ds & v' & E & H). cbn [snd fst].
    rewrite E. cbn [rbind]. eexists; split; [reflexivity|]. auto. }
  exists g; split; [exact E|]. rewrite <- frs_keys. now apply graph_rel.
Qed.
Lemma reorder_map : forall d s, unique_fragment_names d -> Permutation s (map fr_name (fragments_of d)) ->
  map fr_name (reorder_definitions d s) = s /\ Permutation (reorder_definitions d s) (fragments_of d).
Proof.
  intros d s U P. unfold reorder_definitions. rewrite (fragment_definitions_unique d U).
  set (F := fragments_of d) in *.
  assert (G : forall f, In f F -> dget (fr_name f) (map (fun f => (fr_name f, f)) F) = Some f).
  { intros f Hf. apply dget_In_NoDup.
    - unfold dkeys. rewrite map_map. exact U.
    - apply in_map_iff. eauto. }
  assert (Names : forall s', incl s' (map fr_name F) ->
    map fr_name (flat_map (fun n => match dget n (map (fun f => (fr_name f, f)) F) with
                                    | Some f => [f] | None => [] end) s') = s').
  { induction s' as [|n s' IH]; intros I; cbn; [reflexivity|].
    destruct (in_map_iff fr_name F n) as [Hm _]. destruct Hm as (f & <- & Hf); [apply I; now left|].
    rewrite (G f Hf). cbn. f_equal. apply IH. intros x Hx; apply I; now right. }
  split.
  - apply Names. intros x; apply (Permutation_in x P).
  - transitivity (flat_map (fun n => match dget n (map (fun f => (fr_name f, f)) F) with
                                    | Some f => [f] | None => [] end) (map fr_name F)).
    + now apply Permutation_flat_map.
    + assert (Q : forall L, incl L F ->
        flat_map (fun n => match dget n (map (fun f => (fr_name f, f)) F) with
                           | Some f => [f] | None => [] end) (map fr_name L) = L).
      { induction L as [|f L IH]; intros I; cbn; [reflexivity|].
        rewrite (G f) by (apply I; now left). cbn. f_equal. apply IH.
        intros x Hx; apply I; now right. }
      now rewrite Q by apply incl_refl.
Qed.

Lemma ordering_C01 : forall d, unique_fragment_names d ->
  exists l, ordered_fragments d = Ok l /\ Permutation l (fragments_of d).
Proof.
  intros d U. unfold ordered_fragments. destruct (graph_ok d U) as (g & -> & K & _). cbn [rbind].
  destruct (topological_sort_perm g) as (s & -> & P); [now rewrite K|]. cbn [rbind].
  eexists; split; [reflexivity|]. apply reorder_map; [assumption|]. now rewrite <- K.
Qed.

Lemma spread_in_mono : forall (P Q : Prop), (P -> Q) -> forall l n, spread_in P l n -> spread_in Q l n.
Proof.
  intros P Q PQ l n H; induction H; [eapply si_here|eapply si_field|eapply si_inline]; eauto.
Qed.
Lemma dep_depends : forall d a b, unique_fragment_names d ->
  dep (frs_of d) a b <-> depends False d a b.
Proof.
  intros d a b U. unfold dep, depends. split.
  - intros (sels & E & H). apply dget_Some_In in E. unfold frs_of in E. apply in_map_iff in E.
    destruct E as (f & [= <- <-] & Hf). eauto.
  - intros (f & Hf & <- & H). exists (fr_sels f). split; [|assumption]. apply dget_In_NoDup.
    + rewrite frs_keys. exact U.
    + unfold frs_of. apply in_map_iff. eauto.
Qed.
Lemma clos_mono : forall {A} (R1 R2 : A -> A -> Prop), (forall a b, R1 a b -> R2 a b) ->
  forall a b, clos_trans A R1 a b -> clos_trans A R2 a b.
Proof. intros A R1 R2 H a b C; induction C; [apply t_step; auto|eapply t_trans; eauto]. Qed.

Lemma clos_first : forall {A} (R : A -> A -> Prop) a b, clos_trans A R a b ->
  R a b \/ exists m, R a m /\ clos_trans A R m b.
Proof.
  intros A R0 a b C; induction C as [a b H|a m b C1 IH1 C2 IH2]; [now left|right].
  destruct IH1 as [H|(x & H & C)]; [eauto|]. exists x; split; [assumption|]. eapply t_trans; eauto.
Qed.
Lemma gdeps_trans_deps : forall d g, unique_fragment_names d ->
  (forall k x, gdeps g k x <-> exists sels, In (k, sels) (frs_of d) /\ R (frs_of d) sels x) ->
  forall a b, gdeps g a b <-> depends_trans False d a b.
Proof.
  intros d g U H a b. rewrite H. split.
  - intros (sels & Hi & Hr). assert (Ea : dget a (frs_of d) = Some sels)
      by (apply dget_In_NoDup; [rewrite frs_keys; exact U|assumption]).
    destruct Hr as [Hs|m Hs C].
    + apply t_step, dep_depends; [assumption|]. now exists sels.
    + apply t_trans with m.
      * apply t_step, dep_depends; [assumption|]. now exists sels.
      * revert C. apply clos_mono. intros; now apply dep_depends.
  - intros C. apply clos_first in C as [Hd|(m & Hd & C)];
      apply dep_depends in Hd as (sels & E & Hs); auto; exists sels; (split; [now apply dget_Some_In|]).
    + now apply R_here.
    + apply R_step with m; [assumption|]. revert C. apply clos_mono. intros; now apply dep_depends.
Qed.

Lemma ordering_C02 : forall d l a b,
  unique_fragment_names d -> known_spreads d -> acyclic d ->
  ordered_fragments d = Ok l -> depends_trans False d a b -> before b a (map fr_name l).
Proof.
  intros d l a b U K A E H. unfold ordered_fragments in E.
  destruct (graph_ok d U) as (g & Eg & Kg & D). rewrite Eg in E. cbn [rbind] in E.
  pose proof (gdeps_trans_deps d g U D) as D'. clear D.
  destruct (topological_sort_perm g) as (s & Es & P); [now rewrite Kg|].
  rewrite Es in E. cbn [rbind] in E. injection E as <-.
  rewrite Kg in P. destruct (reorder_map d s U P) as [-> _].
  assert (M : forall x y, depends_trans False d x y -> depends_trans True d x y).
  { apply clos_mono. intros x y (f & ? & ? & Hs). exists f; repeat split; auto.
    revert Hs; now apply spread_in_mono. }
  apply topological_sort_order with (g := g); auto.
  - now rewrite Kg.
  - intros k x Hk. rewrite Kg. apply D' in Hk. clear -Hk K.
    assert (Kf : forall p q, depends False d p q -> In q (map fr_name (fragments_of d))).
    { intros p q (f & Hf & Ef & Hs). apply (K p). exists f; repeat split; auto.
      revert Hs; now apply spread_in_mono. }
    induction Hk; eauto.
  - intros x y z Hx Hy. apply D' in Hx, Hy. apply D'. eapply t_trans; eauto.
  - intros x Hx. apply D', M in Hx. eapply A; eauto.
  - rewrite Kg. apply clos_first in H. clear -H.
    destruct H as [(f & Hf & <- & _)|(m & (f & Hf & <- & _) & _)]; now apply in_map.
  - now apply D'.
Qed.
