(** Lemmas about the base library. *)
From Verif Require Import Base.
From Coq Require Import Lia.

Lemma app_nil_r_s : forall s, s +s+ EmptyString = s.
Proof. induction s as [|c s IH]; cbn; [reflexivity|now rewrite IH]. Qed.
Lemma app_assoc_s : forall a b c, (a +s+ b) +s+ c = a +s+ (b +s+ c).
Proof. induction a as [|x a IH]; intros; cbn; [reflexivity|now rewrite IH]. Qed.
Lemma length_app_s : forall a b, String.length (a +s+ b) = String.length a + String.length b.
Proof. induction a as [|x a IH]; intros; cbn; [reflexivity|now rewrite IH]. Qed.
Lemma app_inv_head_s : forall a b c, a +s+ b = a +s+ c -> b = c.
Proof. induction a as [|x a IH]; cbn; intros b c H; [assumption|injection H; auto]. Qed.
Lemma app_inv_tail_s : forall c a b, a +s+ c = b +s+ c -> a = b.
Proof.
  intros c a; induction a as [|x a IH]; intros [|y b] H; cbn in *; auto.
  - apply (f_equal String.length) in H; cbn in H; rewrite length_app_s in H; lia.
  - apply (f_equal String.length) in H; cbn in H; rewrite length_app_s in H; lia.
  - injection H as -> H. now rewrite (IH b H).
Qed.

Lemma mem_In : forall x l, mem x l = true <-> In x l.
Proof.
  intros x l; unfold mem; rewrite existsb_exists; split.
  - intros (y & Hy & E). apply String.eqb_eq in E. now subst.
  - intros H; exists x; split; [assumption|apply String.eqb_refl].
Qed.
Lemma mem_false : forall x l, mem x l = false <-> ~ In x l.
Proof. intros; rewrite <- mem_In; destruct (mem x l); split; intros; try easy; now contradiction H. Qed.
Lemma mem_spec : forall x l, BoolSpec (In x l) (~ In x l) (mem x l).
Proof. intros; destruct (mem x l) eqn:E; constructor; [now apply mem_In|now apply mem_false]. Qed.

Lemma sadd_In : forall x y l, In y (sadd x l) <-> y = x \/ In y l.
Proof.
  intros; unfold sadd; destruct (mem_spec x l) as [H|H].
  - split; [auto|intros [->|]; auto].
  - rewrite in_app_iff; cbn; split; [intros [|[<-|[]]]; auto|intros [->|]; auto].
Qed.
Lemma NoDup_snoc : forall {A} (l : list A) x, NoDup l -> ~ In x l -> NoDup (l ++ [x]).
Proof.
  induction l as [|y l IH]; cbn; intros x H Hx.
  - constructor; [easy|constructor].
  - inversion H; subst. constructor.
    + rewrite in_app_iff; cbn; intros [|[->|[]]]; tauto.
    + apply IH; tauto.
Qed.
Lemma sadd_NoDup : forall x l, NoDup l -> NoDup (sadd x l).
Proof. intros; unfold sadd; destruct (mem_spec x l); auto using NoDup_snoc. Qed.

Lemma nodupb_NoDup : forall l, nodupb l = true <-> NoDup l.
Proof.
  induction l as [|x l IH]; cbn; [split; auto using NoDup_nil|].
  rewrite andb_true_iff, negb_true_iff, mem_false, IH, NoDup_cons_iff. tauto.
Qed.

Lemma dedup_acc_In : forall l acc x,
  In x (fold_left (fun a y => sadd y a) l acc) <-> In x acc \/ In x l.
Proof.
  induction l as [|y l IH]; cbn; intros; [tauto|].
  rewrite IH, sadd_In. firstorder subst; auto.
Qed.
Lemma dedup_In : forall l x, In x (dedup l) <-> In x l.
Proof. intros; unfold dedup; rewrite dedup_acc_In; cbn; tauto. Qed.
Lemma dedup_acc_NoDup : forall l acc, NoDup acc -> NoDup (fold_left (fun a y => sadd y a) l acc).
Proof. induction l; cbn; auto using sadd_NoDup. Qed.
Lemma dedup_NoDup : forall l, NoDup (dedup l).
Proof. intros; apply dedup_acc_NoDup; constructor. Qed.

(** ** dictionaries *)
Lemma dget_dset : forall {A} k k' (v : A) d,
  dget k (dset k' v d) = if String.eqb k k' then Some v else dget k d.
Proof.
  intros A k k' v; induction d as [|[k2 v2] d IH]; cbn; [reflexivity|].
  destruct (String.eqb_spec k' k2) as [->|N]; cbn.
  - now destruct (String.eqb k k2).
  - destruct (String.eqb_spec k k2) as [->|N2]; [|assumption].
    destruct (String.eqb_spec k2 k'); congruence.
Qed.
Lemma dget_Some_In : forall {A} k (v : A) d, dget k d = Some v -> In (k, v) d.
Proof.
  induction d as [|[k' v'] d IH]; cbn; [easy|].
  destruct (String.eqb_spec k k') as [->|]; [intros [= ->]; auto|auto].
Qed.
Lemma dget_None : forall {A} k (d : dict A), dget k d = None <-> ~ In k (dkeys d).
Proof.
  induction d as [|[k' v'] d IH]; cbn; [tauto|].
  destruct (String.eqb_spec k k') as [->|N]; [split; [easy|tauto]|].
  unfold dkeys in IH; rewrite IH; intuition congruence.
Qed.
Lemma dmem_In : forall {A} k (d : dict A), dmem k d = true <-> In k (dkeys d).
Proof.
  intros; unfold dmem; pose proof (dget_None k d) as H; destruct (dget k d).
  - split; [intros _|auto]. destruct (in_dec string_dec k (dkeys d)); [assumption|].
    now apply H in n.
  - split; [easy|]. intros HI; exfalso; now apply H in HI.
Qed.
Lemma dget_In_NoDup : forall {A} k (v : A) d, NoDup (dkeys d) -> In (k, v) d -> dget k d = Some v.
Proof.
  induction d as [|[k' v'] d IH]; cbn; [easy|]; intros ND H; inversion ND; subst.
  destruct (String.eqb_spec k k') as [->|N].
  - destruct H as [[= ->]|H]; [reflexivity|].
    contradict H2; unfold dkeys; now apply (in_map fst) in H.
  - destruct H as [[= -> ->]|H]; [easy|auto].
Qed.
Lemma dkeys_dset : forall {A} k (v : A) d,
  dkeys (dset k v d) = if dmem k d then dkeys d else dkeys d ++ [k].
Proof.
  unfold dmem; induction d as [|[k' v'] d IH]; cbn; [reflexivity|].
  destruct (String.eqb_spec k k') as [->|N]; cbn; [reflexivity|].
  unfold dkeys in IH; rewrite IH. now destruct (dget k d).
Qed.
Lemma dset_NoDup : forall {A} k (v : A) d, NoDup (dkeys d) -> NoDup (dkeys (dset k v d)).
Proof.
  intros; rewrite dkeys_dset; destruct (dmem k d) eqn:E; [assumption|].
  apply NoDup_snoc; [assumption|]. rewrite <- dmem_In; congruence.
Qed.
Lemma dset_keys_In : forall {A} k k' (v : A) d, In k' (dkeys (dset k v d)) <-> k' = k \/ In k' (dkeys d).
Proof.
  intros; rewrite dkeys_dset; destruct (dmem k d) eqn:E.
  - apply dmem_In in E. split; [auto|intros [->|]; auto].
  - rewrite in_app_iff; cbn; intuition congruence.
Qed.

(** ** sorting *)
From Coq Require Import Permutation Sorted.
Lemma insert_sorted_perm : forall x l, Permutation (insert_sorted x l) (x :: l).
Proof.
  induction l as [|y l IH]; cbn; [auto|].
  destruct (str_leb x y); [auto|]. rewrite IH. apply perm_swap.
Qed.
Lemma str_sort_perm : forall l, Permutation (str_sort l) l.
Proof.
  induction l as [|x l IH]; cbn; [auto|]. rewrite insert_sorted_perm. now constructor.
Qed.
Lemma code_inj : forall a b, code a = code b -> a = b.
Proof.
  unfold code; intros a b H. rewrite <- (ascii_nat_embedding a), <- (ascii_nat_embedding b).
  now rewrite H.
Qed.
Lemma str_leb_refl : forall a, str_leb a a = true.
Proof. induction a as [|c a IH]; cbn; [auto|]. now rewrite Ascii.eqb_refl. Qed.
Lemma str_leb_total : forall a b, str_leb a b = true \/ str_leb b a = true.
Proof.
  induction a as [|c a IH]; intros [|d b]; cbn; auto.
  destruct (Ascii.eqb_spec c d) as [->|N].
  - rewrite Ascii.eqb_refl; apply IH.
  - destruct (Ascii.eqb_spec d c) as [->|_]; [easy|].
    unfold ascii_leb; destruct (Nat.leb_spec (code c) (code d)); auto.
    right; apply Nat.leb_le; lia.
Qed.
Lemma str_leb_antisym : forall a b, str_leb a b = true -> str_leb b a = true -> a = b.
Proof.
  induction a as [|c a IH]; intros [|d b]; cbn; try easy.
  destruct (Ascii.eqb_spec c d) as [->|N].
  - rewrite Ascii.eqb_refl; intros; f_equal; auto.
  - destruct (Ascii.eqb_spec d c) as [->|_]; [easy|].
    unfold ascii_leb; rewrite !Nat.leb_le; intros. contradict N. apply code_inj; lia.
Qed.
Lemma str_leb_trans : forall a b c, str_leb a b = true -> str_leb b c = true -> str_leb a c = true.
Proof.
  induction a as [|x a IH]; intros [|y b] [|z c]; cbn; try easy.
  destruct (Ascii.eqb_spec x y) as [->|N1].
  - destruct (Ascii.eqb_spec y z) as [->|N2]; [apply IH|auto].
  - destruct (Ascii.eqb_spec y z) as [->|N2].
    + destruct (Ascii.eqb_spec x z) as [->|_]; [easy|auto].
    + unfold ascii_leb; rewrite !Nat.leb_le; intros H1 H2.
      destruct (Ascii.eqb_spec x z) as [->|_]; [contradict N1; apply code_inj; lia|].
      apply Nat.leb_le; lia.
Qed.
Definition str_le a b : Prop := str_leb a b = true.
Lemma insert_sorted_sorted : forall x l, StronglySorted str_le l -> StronglySorted str_le (insert_sorted x l).
Proof.
  induction l as [|y l IH]; cbn; intros H.
  - repeat constructor.
  - destruct (str_leb x y) eqn:E.
    + constructor; [assumption|]. inversion H; subst. constructor; [exact E|].
      eapply Forall_impl; [|exact H3]. intros z Hz. eapply str_leb_trans; eauto.
    + inversion H; subst. constructor; [auto|].
      apply Forall_forall; intros z Hz.
      apply (Permutation_in _ (insert_sorted_perm x l)) in Hz. destruct Hz as [<-|Hz].
      * destruct (str_leb_total x y) as [C|C]; [congruence|exact C].
      * eapply Forall_forall in H3; eauto.
Qed.
Lemma str_sort_sorted : forall l, StronglySorted str_le (str_sort l).
Proof. induction l; cbn; [constructor|auto using insert_sorted_sorted]. Qed.
Lemma sorted_perm_eq : forall l l', StronglySorted str_le l -> StronglySorted str_le l' ->
  Permutation l l' -> l = l'.
Proof.
  induction l as [|x l IH]; intros l' S S' P.
  - now apply Permutation_nil in P.
  - destruct l' as [|y l']; [apply Permutation_sym, Permutation_nil in P; easy|].
    inversion S; inversion S'; subst.
    assert (x = y) as ->.
    { assert (Hx : In x (y :: l')) by (apply (Permutation_in _ P); cbn; auto).
      assert (Hy : In y (x :: l)) by (apply (Permutation_in _ (Permutation_sym P)); cbn; auto).
      destruct Hx as [->|Hx]; [reflexivity|]. destruct Hy as [->|Hy]; [reflexivity|].
      rewrite Forall_forall in *. apply str_leb_antisym; [now apply H2|now apply H6]. }
    f_equal. apply IH; auto. now apply Permutation_cons_inv in P.
Qed.
Lemma str_sort_Permutation : forall l l', Permutation l l' -> str_sort l = str_sort l'.
Proof.
  intros; apply sorted_perm_eq; auto using str_sort_sorted.
  now rewrite !str_sort_perm.
Qed.
Lemma str_sort_In : forall x l, In x (str_sort l) <-> In x l.
Proof.
  intros; split; apply Permutation_in; [|symmetry]; apply str_sort_perm.
Qed.
Lemma prefix_ex : forall p s, startswith p s = true <-> exists rest, s = p +s+ rest.
Proof.
  unfold startswith. induction p as [|c p IH]; intros s.
  - split; [exists s; reflexivity|now destruct s].
  - destruct s as [|d s]; [split; [discriminate|intros (r & H); discriminate]|].
    change (prefix (String c p) (String d s)) with (if ascii_dec c d then prefix p s else false).
    destruct (ascii_dec c d) as [E|N].
    + subst d. rewrite IH. split; intros (r & H); exists r; cbn in *; congruence.
    + split; [discriminate|]. intros (r & H); cbn in H; congruence.
Qed.
