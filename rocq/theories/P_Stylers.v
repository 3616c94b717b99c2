(** Proofs about stylers. *)
From Verif Require Import Base Stylers Spec_Naming P_Base.
From Coq Require Import Lia.

(** [sub2] with an explicit previous character *)
Fixpoint sub2p (p : ascii) (s : string) : string :=
  match s with
  | EmptyString => EmptyString
  | String c r => if (is_lower p || is_digit p) && is_upper c
                  then String "_"%char (String c (sub2p c r)) else String c (sub2p c r)
  end.

Lemma upper_not_lower : forall c, is_upper c = true -> is_lower c = false.
Proof.
  unfold is_upper, is_lower; intros c H. apply andb_true_iff in H as [_ H].
  apply Nat.leb_le in H. apply andb_false_iff; left; apply Nat.leb_gt; lia.
Qed.
Lemma upper_not_digit : forall c, is_upper c = true -> is_digit c = false.
Proof.
  unfold is_upper, is_digit; intros c H. apply andb_true_iff in H as [H _].
  apply Nat.leb_le in H. apply andb_false_iff; right; apply Nat.leb_gt; lia.
Qed.

Lemma sub2_sub2p : forall n s c, String.length s <= n -> sub2 (String c s) = String c (sub2p c s).
Proof.
  induction n as [|n IH]; intros [|c2 s] c L; cbn in L; try lia; try reflexivity.
  cbn [sub2 sub2p]. destruct ((is_lower c || is_digit c) && is_upper c2) eqn:E.
  - do 2 f_equal. destruct s as [|c3 s]; [reflexivity|].
    apply andb_true_iff in E as [_ U].
    cbn in L; assert (IH3 := IH s c3 ltac:(lia)).
    f_equal. rewrite IH3. cbn [sub2p].
    now rewrite (upper_not_lower _ U), (upper_not_digit _ U).
  - f_equal. apply IH; lia.
Qed.

Fixpoint sub_spec (prev : ascii) (s : string) : string :=
  match s with
  | EmptyString => EmptyString
  | String c r => if word_break prev c r then String "_"%char (String c (sub_spec c r))
                  else String c (sub_spec c r)
  end.

Definition T (b : bool) (c : ascii) (r : string) : string :=
  if b && is_lower c then sub1 true r
  else match r with
       | String c2 (String c3 r3) =>
           if negb (Ascii.eqb c newline) && is_upper c2 && is_lower c3
           then String "_"%char (String c2 (String c3 (sub1 true r3)))
           else sub1 false r
       | _ => sub1 false r
       end.
Lemma sub1_T : forall b c r, sub1 b (String c r) = String c (T b c r).
Proof.
  intros; unfold T; cbn [sub1]. destruct (b && is_lower c); [reflexivity|].
  destruct r as [|c2 [|c3 r3]]; try reflexivity.
  now destruct (negb (Ascii.eqb c newline) && is_upper c2 && is_lower c3).
Qed.

Lemma sub2p_T : forall n r b c, String.length r <= n -> sub2p c (T b c r) = sub_spec c r.
Proof.
  induction n as [|n IH]; intros r b c L.
  - destruct r; cbn in L; [|lia]. unfold T. now destruct (b && is_lower c).
  - destruct r as [|c2 r']; [unfold T; now destruct (b && is_lower c)|].
    cbn in L. unfold T. destruct (b && is_lower c) eqn:Eb.
    + rewrite sub1_T. cbn [sub2p sub_spec].
      apply andb_true_iff in Eb as [_ Lc]. unfold word_break. rewrite Lc. cbn [orb].
      rewrite andb_true_l, andb_true_r. rewrite IH by lia. reflexivity.
    + destruct r' as [|c3 r3].
      * cbn. unfold word_break. rewrite orb_false_r, (andb_comm (is_upper c2)). reflexivity.
      * destruct (negb (Ascii.eqb c newline) && is_upper c2 && is_lower c3) eqn:E.
        -- apply andb_true_iff in E as [E L3]; apply andb_true_iff in E as [Nn U2].
           assert (H3 : sub2p c3 (sub1 true r3) = sub_spec c3 r3).
           { specialize (IH r3 true c3). unfold T in IH. rewrite L3 in IH. cbn [andb] in IH.
             apply IH. cbn in L; lia. }
           cbn [sub2p sub_spec]. rewrite H3. unfold word_break at 1.
           rewrite U2, L3, Nn. rewrite andb_true_r, orb_true_r. cbn [andb].
           assert (U3 : is_upper c3 = false).
           { destruct (is_upper c3) eqn:U3; [|reflexivity].
             apply upper_not_lower in U3; congruence. }
           unfold word_break. rewrite U3. cbn [andb].
           replace (is_upper "_"%char) with false by reflexivity.
           rewrite (upper_not_lower _ U2), (upper_not_digit _ U2).
           rewrite andb_false_r. reflexivity.
        -- rewrite sub1_T. cbn [sub2p]. rewrite IH by lia.
           assert (W : word_break c c2 (String c3 r3) = (is_lower c || is_digit c) && is_upper c2).
           { unfold word_break. destruct (is_upper c2); cbn in *; [|now rewrite andb_false_r].
             rewrite andb_true_r in *. rewrite (andb_comm (is_lower c3)), E.
             now rewrite orb_false_r. }
           rewrite <- W. reflexivity.
Qed.

Lemma lower_sub_spec : forall s p, str_lower (sub_spec p s) = snake_tail p s.
Proof.
  unfold str_lower; induction s as [|c s IH]; intros; cbn; [reflexivity|].
  destruct (word_break p c s); cbn; now rewrite IH.
Qed.

Theorem camel_to_snake_spec : forall s, camel_to_snake s = snake_spec s.
Proof.
  intros [|c r]; [reflexivity|]. unfold camel_to_snake.
  rewrite sub1_T, (sub2_sub2p _ _ _ (le_n _)), (sub2p_T _ _ _ _ (le_n _)).
  cbn [str_lower smap snake_spec]. f_equal. apply lower_sub_spec.
Qed.

(** *** character facts by enumeration *)
Lemma ascii_forall : forall (p : ascii -> bool),
  forallb p (map ascii_of_nat (seq 0 256)) = true -> forall c, p c = true.
Proof.
  intros p H c. rewrite forallb_forall in H. apply H.
  rewrite in_map_iff. exists (nat_of_ascii c). split; [apply ascii_nat_embedding|].
  apply in_seq. pose proof (nat_ascii_bounded c). lia.
Qed.
Lemma to_lower_not_upper : forall c, is_upper (to_lower c) = false.
Proof. intros c. apply negb_true_iff. revert c. apply ascii_forall. vm_compute; reflexivity. Qed.
Lemma to_lower_id : forall c, is_upper c = false -> to_lower c = c.
Proof. unfold to_lower; intros c ->; reflexivity. Qed.
Lemma to_lower_name_start : forall c, name_start c = true -> name_start (to_lower c) = true.
Proof.
  intros c. apply implb_true_iff. revert c.
  apply (ascii_forall (fun c => implb (name_start c) (name_start (to_lower c)))).
  vm_compute; reflexivity.
Qed.
Lemma to_lower_name_char : forall c, name_char c = true -> name_char (to_lower c) = true.
Proof.
  intros c. apply implb_true_iff. revert c.
  apply (ascii_forall (fun c => implb (name_char c) (name_char (to_lower c)))).
  vm_compute; reflexivity.
Qed.

Lemma snake_tail_no_upper : forall s p, no_upper (snake_tail p s).
Proof.
  unfold no_upper; induction s as [|c s IH]; intros; cbn; [reflexivity|].
  destruct (word_break p c s); cbn; rewrite to_lower_not_upper; cbn; apply IH.
Qed.
Lemma snake_no_upper : forall s, no_upper (camel_to_snake s).
Proof.
  intros; rewrite camel_to_snake_spec. destruct s as [|c s]; [reflexivity|].
  unfold no_upper; cbn. rewrite to_lower_not_upper. apply snake_tail_no_upper.
Qed.
Lemma snake_tail_id : forall s p, no_upper s -> snake_tail p s = s.
Proof.
  unfold no_upper; induction s as [|c s IH]; intros p H; cbn in *; [reflexivity|].
  apply andb_true_iff in H as [U H]. apply negb_true_iff in U.
  unfold word_break. rewrite U. cbn. now rewrite to_lower_id, IH.
Qed.
Lemma snake_id : forall s, no_upper s -> camel_to_snake s = s.
Proof.
  intros s H; rewrite camel_to_snake_spec. destruct s as [|c s]; [reflexivity|].
  unfold no_upper in H; cbn in *. apply andb_true_iff in H as [U H]. apply negb_true_iff in U.
  now rewrite to_lower_id, snake_tail_id.
Qed.
Lemma snake_idempotent : forall s, camel_to_snake (camel_to_snake s) = camel_to_snake s.
Proof. intros; apply snake_id, snake_no_upper. Qed.

Lemma snake_tail_ins : forall s p, us_ins (str_lower s) (snake_tail p s).
Proof.
  induction s as [|c s IH]; intros; cbn; [constructor|].
  destruct (word_break p c s); repeat constructor; apply IH.
Qed.
Lemma snake_ins : forall s, us_ins (str_lower s) (camel_to_snake s).
Proof.
  intros; rewrite camel_to_snake_spec. destruct s; cbn; constructor. apply snake_tail_ins.
Qed.
Lemma snake_tail_chars : forall s p, sforall name_char s = true -> sforall name_char (snake_tail p s) = true.
Proof.
  induction s as [|c s IH]; intros p H; cbn in *; [reflexivity|].
  apply andb_true_iff in H as [C H].
  destruct (word_break p c s); cbn; rewrite to_lower_name_char, IH; auto.
Qed.
Lemma snake_is_name : forall s, is_name s = true -> is_name (camel_to_snake s) = true.
Proof.
  intros s H; rewrite camel_to_snake_spec. destruct s as [|c s]; [exact H|].
  cbn in *. apply andb_true_iff in H as [S H].
  now rewrite to_lower_name_start, snake_tail_chars.
Qed.

(** *** keywords *)
Fixpoint last_is_under (s : string) : bool :=
  match s with
  | EmptyString => false
  | String c EmptyString => is_under c
  | String _ r => last_is_under r
  end.
Lemma last_under_app : forall s, last_is_under (s +s+ "_") = true.
Proof.
  induction s as [|c s IH]; [reflexivity|]. cbn [String.append last_is_under].
  destruct (s +s+ "_") eqn:E; [now destruct s|exact IH].
Qed.
Lemma kw_no_under : forall s, In s kwlist -> last_is_under s = false.
Proof.
  assert (H : forallb (fun s => negb (last_is_under s)) kwlist = true) by (vm_compute; reflexivity).
  rewrite forallb_forall in H. intros s Hs; now apply negb_true_iff, H.
Qed.
Lemma style_with_not_keyword : forall sel stylers n, ~ In (style_with sel stylers n) kwlist.
Proof.
  intros; unfold style_with.
  destruct (iskeyword (fold_left (fun n0 s => sel s n0) stylers n)) eqn:E.
  - intros H. apply kw_no_under in H. now rewrite last_under_app in H.
  - unfold iskeyword in E. now apply mem_false in E.
Qed.
Lemma style_with_same : forall sel stylers n,
  ~ In (fold_left (fun n0 s => sel s n0) stylers n) kwlist ->
  style_with sel stylers n = fold_left (fun n0 s => sel s n0) stylers n.
Proof.
  intros sel stylers n H; unfold style_with. apply mem_false in H. unfold iskeyword. now rewrite H.
Qed.
Lemma style_with_kw : forall sel stylers n,
  In (fold_left (fun n0 s => sel s n0) stylers n) kwlist ->
  style_with sel stylers n = fold_left (fun n0 s => sel s n0) stylers n +s+ "_".
Proof.
  intros sel stylers n H; unfold style_with. apply mem_In in H. unfold iskeyword. now rewrite H.
Qed.

Lemma is_name_app_under : forall s, is_name s = true -> is_name (s +s+ "_") = true.
Proof.
  intros [|c s] H; [discriminate|]. cbn in *. apply andb_true_iff in H as [-> H]. cbn.
  induction s as [|d s IH]; cbn in *; [reflexivity|]. apply andb_true_iff in H as [-> H]. auto.
Qed.

Lemma snake_C06 : forall s,
  camel_to_snake s = snake_spec s
  /\ no_upper (camel_to_snake s)
  /\ camel_to_snake (camel_to_snake s) = camel_to_snake s
  /\ us_ins (str_lower s) (camel_to_snake s)
  /\ (is_name s = true -> is_name (camel_to_snake s) = true).
Proof.
  intros; repeat split; auto using camel_to_snake_spec, snake_no_upper, snake_idempotent,
    snake_ins, snake_is_name.
Qed.
