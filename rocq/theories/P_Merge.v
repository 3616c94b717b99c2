(** Proofs about merging. *)
From Verif Require Import Base Merge Spec_Merge P_Base.
From Coq Require Import Permutation Lia.

(** ** embeddings *)
Lemma embeds_refl : forall {A : Set} (R : A -> A -> Prop) l, (forall x, In x l -> R x x) -> embeds R l l.
Proof. induction l as [|x l IH]; intros H; constructor; [apply H; now left|]. apply IH. intros y Hy. apply H. now right. Qed.
Lemma embeds_app_skip : forall {A B : Set} (R : A -> B -> Prop) p l m, embeds R l m -> embeds R l (p ++ m).
Proof. induction p; intros; cbn; [assumption|apply em_skip; auto]. Qed.
Lemma embeds_app_r : forall {A B : Set} (R : A -> B -> Prop) l m p, embeds R l m -> embeds R l (m ++ p).
Proof. intros A B R l m p H. induction H; cbn; constructor; auto. Qed.
Lemma embeds_map : forall {A B : Set} (R : A -> B -> Prop) (f : A -> B) l, (forall x, In x l -> R x (f x)) -> embeds R l (map f l).
Proof. induction l as [|x l IH]; intros H; constructor; [apply H; now left|]. apply IH. intros y Hy. apply H. now right. Qed.

(** ** inserting the missing symbols *)
Lemma weave_embeds : forall {A : Set} (R : A -> cst -> Prop) b a i l (m : list cst), embeds R l m -> embeds R l (weave b a i m).
Proof.
  intros A R b a i l m H. revert i. induction H as [m|x y l m HR H IH|y l m H IH]; intros i; cbn.
  - constructor.
  - apply embeds_app_skip, em_take, embeds_app_skip, IH. exact HR.
  - apply embeds_app_skip, em_skip, embeds_app_skip, IH.
Qed.
Lemma flat_map_split : forall {A B} (f g : A -> list B) l,
  Permutation (flat_map (fun i => f i ++ g i) l) (flat_map f l ++ flat_map g l).
Proof.
  induction l as [|x l IH]; cbn; [constructor|]. rewrite IH.
  rewrite <- !app_assoc. apply Permutation_app_head. rewrite !app_assoc. apply Permutation_app_tail, Permutation_app_comm.
Qed.
Lemma weave_perm : forall (b a : nat -> list cst) l i,
  Permutation (weave b a i l) (l ++ flat_map (fun j => b j ++ a j) (seq i (length l))).
Proof.
  induction l as [|x l IH]; intros i; cbn; [constructor|]. rewrite (IH (S i)).
  rewrite <- Permutation_middle. constructor. set (F := flat_map _ (seq (S i) _)).
  rewrite (app_assoc (b i)), (app_assoc (b i ++ a i)), (app_assoc l (b i ++ a i)). apply Permutation_app_tail, Permutation_app_comm.
Qed.
Lemma pick_one : forall (x : nat) (v : list cst) n i, (i <= x < i + n)%nat ->
  flat_map (fun j => if Nat.eqb x j then v else []) (seq i n) = v.
Proof.
  induction n as [|n IH]; intros i H; [lia|]. cbn. destruct (Nat.eqb_spec x i) as [->|N].
  - assert (E : flat_map (fun j => if Nat.eqb i j then v else []) (seq (S i) n) = []).
    { assert (G : forall l, (forall j, In j l -> (i < j)%nat) -> flat_map (fun j => if Nat.eqb i j then v else []) l = []).
      { induction l as [|j l IHl]; intros Hl; [reflexivity|]. cbn. assert (i < j)%nat by (apply Hl; now left).
        destruct (Nat.eqb_spec i j); [lia|]. apply IHl. intros; apply Hl; now right. }
      apply G. intros j Hj. apply in_seq in Hj. lia. }
    rewrite E, app_nil_r. reflexivity.
  - cbn. apply IH. lia.
Qed.
Lemma pick_all : forall (sym : string -> list cst) n before, (forall p, In p before -> (fst p < n)%nat) ->
  Permutation (flat_map (fun i => flat_map (fun p : nat * string => if Nat.eqb (fst p) i then sym (snd p) else []) before) (seq 0 n))
              (flat_map (fun p => sym (snd p)) before).
Proof.
  induction before as [|p before IH]; intros H; cbn.
  - assert (E : forall l : list nat, flat_map (fun _ => @nil cst) l = []) by (induction l; cbn; auto). rewrite E. constructor.
  - rewrite flat_map_split. apply Permutation_app.
    + rewrite pick_one; [reflexivity|]. specialize (H p (or_introl eq_refl)). lia.
    + apply IH. intros q Hq. apply H. now right.
Qed.
Lemma flat_map_pairs : forall (sym : string -> list cst) before, flat_map (fun p : nat * string => sym (snd p)) before = flat_map sym (map snd before).
Proof. induction before as [|p l IH]; cbn; [reflexivity|]. now rewrite IH. Qed.
Lemma filter_out : forall k l, NoDup l -> In k l -> Permutation l (k :: filter (fun x => negb (String.eqb x k)) l).
Proof.
  intros k l ND H. induction ND as [|x l Hx ND IH]; [contradiction|]. cbn. destruct (String.eqb_spec x k) as [->|N].
  - cbn. constructor. assert (E : filter (fun x => negb (String.eqb x k)) l = l).
    { clear - Hx. induction l as [|y l IH]; [reflexivity|]. cbn. destruct (String.eqb_spec y k) as [->|]; [exfalso; apply Hx; now left|].
      cbn. f_equal. apply IH. intros X; apply Hx; now right. }
    rewrite E. reflexivity.
  - cbn. destruct H as [->|H]; [congruence|]. rewrite (IH H) at 1. constructor.
Qed.
Section Insert.
Variables (symbols : dict cst) (implemented : list string) (positions : dict nat).
Hypothesis ND : NoDup (dkeys symbols).
Definition placed (missing0 : list string) (acc : list string * list (nat * string)) : Prop :=
  Permutation (fst acc ++ map snd (snd acc)) missing0
  /\ forall p, In p (snd acc) -> exists k, In k implemented /\ fst p = position positions k.
Lemma place_before_ok : forall missing0 k acc, NoDup missing0 -> In k implemented -> placed missing0 acc ->
  placed missing0 (place_before (dkeys symbols) positions acc k).
Proof.
  intros missing0 k acc N0 Hk. unfold place_before. revert acc. induction (take_until k (dkeys symbols)) as [|x l IH]; intros acc H; [exact H|].
  cbn [fold_left]. apply IH. destruct acc as [missing before]. destruct (mem_spec x missing) as [Hx|]; [|exact H].
  destruct H as [HP HQ]. cbn [fst snd] in *. split; cbn [fst snd].
  - rewrite map_app. cbn. rewrite app_assoc, <- Permutation_cons_append, app_comm_cons, <- filter_out; [exact HP| |exact Hx].
    eapply Permutation_NoDup in N0; [|symmetry; exact HP]. clear - N0. induction missing as [|y l IH]; [constructor|].
    inversion N0; subst. constructor; [|auto]. intros X. apply H1. apply in_or_app. now left.
  - intros p Hp. apply in_app_or in Hp. destruct Hp as [Hp|[<-|[]]]; [auto|]. cbn. eauto.
Qed.
Lemma place_all : forall missing0 l acc, NoDup missing0 -> incl l implemented -> placed missing0 acc ->
  placed missing0 (fold_left (place_before (dkeys symbols) positions) l acc).
Proof.
  induction l as [|k l IH]; intros acc N H HP; [exact HP|]. cbn. apply IH; [exact N|intros x Hx; apply H; now right|].
  apply place_before_ok; [exact N|apply H; now left|exact HP].
Qed.
Definition symbol (k : string) : list cst := match dget k symbols with Some n => [n] | None => [] end.
Definition missing : list string := filter (fun k => negb (mem k implemented)) (dkeys symbols).
Lemma insert_perm : forall body, (forall k, In k implemented -> (position positions k < length body)%nat) ->
  Permutation (insert_missing symbols implemented positions body) (body ++ flat_map symbol missing).
Proof.
  intros body HP. unfold insert_missing. fold missing.
  pose proof (place_all missing implemented (missing, []) (NoDup_filter _ ND) (incl_refl _)) as H.
  destruct (fold_left (place_before (dkeys symbols) positions) implemented (missing, [])) as [miss before].
  assert (P0 : placed missing (missing, [])) by (split; cbn; [now rewrite app_nil_r|contradiction]).
  specialize (H P0). destruct H as [H1 H2]. cbn [fst snd] in *.
  destruct (last_key implemented) as [k|] eqn:EK.
  - assert (Hk : In k implemented).
    { unfold last_key in EK. destruct (rev implemented) as [|y r] eqn:E; [discriminate|]. injection EK as ->. apply in_rev. rewrite E. now left. }
    rewrite weave_perm. apply Permutation_app_head. rewrite flat_map_split.
    rewrite (pick_all symbol).
    + rewrite flat_map_pairs. fold symbol.
      assert (E : flat_map (fun i => if Nat.eqb i (position positions k) then flat_map symbol miss else []) (seq 0 (length body)) = flat_map symbol miss).
      { etransitivity; [|apply (pick_one (position positions k) (flat_map symbol miss) (length body) 0); specialize (HP k Hk); lia].
        apply flat_map_ext. intros j. now rewrite Nat.eqb_sym. }
      fold symbol in E. rewrite E.
      rewrite <- (Permutation_flat_map symbol H1), flat_map_app. apply Permutation_app_comm.
    + intros p Hp. destruct (H2 p Hp) as (x & Hx & ->). auto.
  - apply Permutation_app_head. fold symbol.
    assert (EI : implemented = []).
    { unfold last_key in EK. destruct (rev implemented) as [|y r] eqn:E; [|discriminate]. rewrite <- (rev_involutive implemented), E. reflexivity. }
    destruct before as [|p before]; [|destruct (H2 p (or_introl eq_refl)) as (x & Hx & _); rewrite EI in Hx; contradiction].
    cbn in H1. rewrite app_nil_r in H1. now rewrite (Permutation_flat_map symbol H1).
Qed.
Lemma insert_embeds : forall {A : Set} (R : A -> cst -> Prop) l body, embeds R l body -> embeds R l (insert_missing symbols implemented positions body).
Proof.
  intros A R l body H. unfold insert_missing. destruct (fold_left _ _ _) as [miss before]. destruct (last_key implemented).
  - now apply weave_embeds.
  - now apply embeds_app_r.
Qed.
Lemma insert_nothing : forall body, missing = [] -> (forall k, In k implemented -> (position positions k < length body)%nat) ->
  insert_missing symbols implemented positions body = body.
Proof.
  intros body HM HP. unfold insert_missing. fold missing. rewrite HM.
  assert (E : forall l, fold_left (place_before (dkeys symbols) positions) l ([], []) = ([], [])).
  { induction l as [|k l IH]; [reflexivity|]. cbn. unfold place_before at 2.
    assert (G : forall ks, fold_left (fun acc key => let '(missing0, before) := acc in
        if mem key missing0 then (filter (fun x => negb (String.eqb x key)) missing0, before ++ [(position positions k, key)]) else acc) ks ([], []) = ([], [])).
    { induction ks as [|x ks IHk]; [reflexivity|]. cbn. exact IHk. }
    rewrite G. exact IH. }
  rewrite E. destruct (last_key implemented); [|cbn; apply app_nil_r].
  assert (W : forall (l : list cst) i, weave (fun i => flat_map (fun p : nat * string => if Nat.eqb (fst p) i then match dget (snd p) symbols with Some n => [n] | None => [] end else []) [])
     (fun i => if Nat.eqb i (position positions s) then flat_map (fun k => match dget k symbols with Some n => [n] | None => [] end) [] else []) i l = l).
  { induction l as [|x l IH]; intros i; [reflexivity|]. cbn. destruct (Nat.eqb _ _); cbn; now rewrite IH. }
  apply W.
Qed.
End Insert.

(** ** one level: members of a class, or statements of a module *)
Section Level.
Variables (symbols : dict cst) (step : merged -> cst -> merged) (node_of : cst -> cst) (key_of : cst -> option string).
Hypothesis ND : NoDup (dkeys symbols).
Hypothesis Hstep : forall g n, step g n = match key_of n with Some k => implement k (node_of n) g | None => keep (node_of n) g end.
Definition level (existing : list cst) : list cst :=
  let g := fold_left step existing (Merged [] [] []) in insert_missing symbols (g_implemented g) (g_positions g) (g_body g).
Definition keys (existing : list cst) : list string := flat_map (fun n => match key_of n with Some k => [k] | None => [] end) existing.
Lemma fold_level : forall existing g,
  (forall k, In k (g_implemented g) -> exists p, dget k (g_positions g) = Some p /\ (p < length (g_body g))%nat) ->
  let g' := fold_left step existing g in
  g_body g' = g_body g ++ map node_of existing /\ g_implemented g' = g_implemented g ++ keys existing
  /\ forall k, In k (g_implemented g') -> exists p, dget k (g_positions g') = Some p /\ (p < length (g_body g'))%nat.
Proof.
  induction existing as [|n existing IH]; intros g HI; cbn [fold_left map keys flat_map].
  - cbn. rewrite !app_nil_r. auto.
  - rewrite Hstep. destruct (key_of n) as [k|].
    + destruct (IH (implement k (node_of n) g)) as (A & B & C).
      { cbn. intros x Hx. rewrite dget_dset, app_length. cbn. destruct (String.eqb_spec x k) as [->|N]; [exists (length (g_body g)); split; [reflexivity|lia]|].
        apply in_app_or in Hx. destruct Hx as [Hx|[->|[]]]; [|congruence]. destruct (HI x Hx) as (p & E & L). exists p. split; [exact E|lia]. }
      cbn [g_body g_implemented implement] in *. cbn zeta. split; [rewrite A, <- app_assoc; reflexivity|]. split; [rewrite B, <- ?app_assoc; reflexivity|exact C].
    + destruct (IH (keep (node_of n) g)) as (A & B & C).
      { cbn. intros x Hx. rewrite app_length. cbn. destruct (HI x Hx) as (p & E & L). exists p. split; [exact E|lia]. }
      cbn [g_body g_implemented keep] in *. cbn zeta. split; [rewrite A, <- app_assoc; reflexivity|]. split; [rewrite B, <- ?app_assoc; reflexivity|exact C].
Qed.
Lemma level_start : forall existing, let g := fold_left step existing (Merged [] [] []) in
  g_body g = map node_of existing /\ g_implemented g = keys existing
  /\ forall k, In k (g_implemented g) -> (position (g_positions g) k < length (g_body g))%nat.
Proof.
  intros existing. destruct (fold_level existing (Merged [] [] [])) as (A & B & C); [cbn; contradiction|]. cbn zeta in *. split; [exact A|]. split; [exact B|].
  intros k Hk. destruct (C k Hk) as (p & E & L). unfold position. now rewrite E.
Qed.
Lemma level_perm : forall existing,
  Permutation (level existing) (map node_of existing ++ flat_map (symbol symbols) (missing symbols (keys existing))).
Proof.
  intros existing. destruct (level_start existing) as (A & B & C). unfold level. rewrite insert_perm by assumption. cbn zeta in *. now rewrite A, B.
Qed.
Lemma level_embeds : forall (R : cst -> cst -> Prop) existing, (forall n, In n existing -> R n (node_of n)) -> embeds R existing (level existing).
Proof.
  intros R existing H. unfold level. apply insert_embeds. destruct (level_start existing) as (A & _). cbn zeta in *. rewrite A. now apply embeds_map.
Qed.
Lemma level_fixed : forall existing, (forall n, In n existing -> node_of n = n) ->
  (forall k, In k (dkeys symbols) -> In k (keys existing)) -> level existing = existing.
Proof.
  intros existing H1 H2. destruct (level_start existing) as (A & B & C). unfold level.
  rewrite insert_nothing; cbn zeta in *.
  - rewrite A. clear - H1. induction existing as [|n l IH]; [reflexivity|]. cbn. rewrite (H1 n (or_introl eq_refl)), IH; [reflexivity|]. intros m Hm. apply H1. now right.
  - rewrite B. unfold missing. clear - H2. induction (dkeys symbols) as [|k l IH]; [reflexivity|]. cbn.
    destruct (mem_spec k (keys existing)) as [_|N]; [|exfalso; apply N, H2; now left]. cbn. apply IH. intros x Hx. apply H2. now right.
  - exact C.
Qed.
(** counting *)
Lemma count_app : forall p a b, count p (a ++ b) = (count p a + count p b)%nat.
Proof. intros. unfold count. now rewrite filter_app, app_length. Qed.
Lemma count_perm : forall p a b, Permutation a b -> count p a = count p b.
Proof. intros p a b H. unfold count. induction H; cbn; try congruence. - destruct (p x); cbn; congruence. - destruct (p y), (p x); reflexivity. Qed.
Variable p : string -> cst -> bool.
(** the symbols are named by [p] *)
Hypothesis Hsym : forall k n, dget k symbols = Some n -> forall x, p x n = String.eqb k x.
Hypothesis Hnode : forall n x, In x (dkeys symbols) -> p x n = true -> key_of n = Some x.
Hypothesis Hkey : forall n x, key_of n = Some x -> p x n = true.
Lemma count_missing : forall x l, NoDup l -> incl l (dkeys symbols) -> count (p x) (flat_map (symbol symbols) l) = if mem x l then 1%nat else 0%nat.
Proof.
  intros x l N. induction N as [|k l Hk N IH]; intros HI; [reflexivity|]. cbn [flat_map]. rewrite count_app, IH by (intros y Hy; apply HI; now right).
  unfold symbol at 1. assert (Hin : In k (dkeys symbols)) by (apply HI; now left). rewrite <- dmem_In in Hin. unfold dmem in Hin.
  destruct (dget k symbols) as [n|] eqn:E; [|discriminate].
  unfold count at 1. cbn [filter]. rewrite (Hsym k n E x).
  cbn [mem existsb]. rewrite (String.eqb_sym x k). destruct (String.eqb_spec k x) as [->|].
  - cbn. destruct (mem_spec x l); [contradiction|]. reflexivity.
  - cbn [orb]. fold (mem x l). reflexivity.
Qed.
Lemma level_count : forall existing x, (forall n, In n existing -> p x (node_of n) = p x n) ->
  count (p x) (level existing) = if mem x (dkeys symbols) then Nat.max 1 (count (p x) existing) else count (p x) existing.
Proof.
  intros existing x HN. rewrite (count_perm _ _ _ (level_perm existing)), count_app.
  assert (EM : count (p x) (map node_of existing) = count (p x) existing).
  { clear - HN. unfold count. induction existing as [|n l IH]; [reflexivity|]. cbn. rewrite (HN n (or_introl eq_refl)).
    destruct (p x n); cbn; rewrite IH; auto; intros m Hm; apply HN; now right. }
  rewrite EM, count_missing; [|now apply NoDup_filter|intros y Hy; unfold missing in Hy; apply filter_In in Hy; apply Hy].
  assert (EK : In x (dkeys symbols) -> (In x (keys existing) <-> (0 < count (p x) existing)%nat)).
  { intros Hx. unfold keys. rewrite in_flat_map. split.
    - intros (n & Hn & HK). assert (PN : p x n = true) by (apply Hkey; destruct (key_of n); [destruct HK as [->|[]]; reflexivity|contradiction]).
      unfold count. assert (In n (filter (p x) existing)) by (now apply filter_In). destruct (filter (p x) existing); [contradiction|cbn; lia].
    - intros HC. unfold count in HC. destruct (filter (p x) existing) as [|n l] eqn:EF; [cbn in HC; lia|].
      assert (Hn : In n (filter (p x) existing)) by (rewrite EF; now left). apply filter_In in Hn. destruct Hn as [Hn PN]. exists n. split; [exact Hn|].
      rewrite (Hnode n x Hx PN). now left. }
  unfold missing. destruct (mem_spec x (dkeys symbols)) as [Hx|Hx].
  - specialize (EK Hx). destruct (mem_spec x (filter (fun k => negb (mem k (keys existing))) (dkeys symbols))) as [Hm|Hm].
    + apply filter_In in Hm. destruct Hm as [_ Hm]. destruct (mem_spec x (keys existing)) as [|N]; [discriminate|]. destruct (count (p x) existing); [reflexivity|exfalso; apply N, EK; lia].
    + assert (In x (keys existing)).
      { destruct (in_dec string_dec x (keys existing)) as [|N]; [assumption|]. exfalso. apply Hm, filter_In. split; [exact Hx|].
        destruct (mem_spec x (keys existing)); [contradiction|reflexivity]. }
      apply EK in H. lia.
  - destruct (mem_spec x (filter (fun k => negb (mem k (keys existing))) (dkeys symbols))) as [Hm|Hm]; [apply filter_In in Hm; tauto|]. lia.
Qed.
End Level.

(** ** the dictionaries of symbols *)
Section Symbols.
Variable key : cst -> option string.
Definition sym_add (d : dict cst) (n : cst) : dict cst := match key n with Some k => dset k n d | None => d end.
Definition sym (l : list cst) : dict cst := fold_left sym_add l [].
Lemma sym_snoc : forall l n, sym (l ++ [n]) = sym_add (sym l) n.
Proof. intros. unfold sym. now rewrite fold_left_app. Qed.
Lemma sym_NoDup : forall l, NoDup (dkeys (sym l)).
Proof.
  induction l as [|n l IH] using rev_ind; [constructor|]. rewrite sym_snoc. unfold sym_add. destruct (key n); [now apply dset_NoDup|exact IH].
Qed.
Variable p : string -> cst -> bool.
Hypothesis Hp : forall k n, p k n = true <-> key n = Some k.
Lemma sym_final : forall l k n, dget k (sym l) = Some n <-> final (p k) l n.
Proof.
  induction l as [|x l IH] using rev_ind; intros k n.
  - split; [discriminate|]. intros (pre & post & E & _). destruct pre; discriminate.
  - rewrite sym_snoc. unfold sym_add. destruct (p k x) eqn:EP.
    + rewrite (proj1 (Hp k x) EP), dget_dset, String.eqb_refl. split.
      * intros [= <-]. exists l, []. split; [reflexivity|]. split; [exact EP|]. contradiction.
      * intros (pre & post & E & E1 & E2). destruct (exists_last (l := n :: post)) as (q & y & EQ); [discriminate|].
        rewrite EQ, app_assoc in E. apply app_inj_tail in E. destruct E as [_ <-]. destruct post as [|z post].
        { destruct q as [|a [|b q]]; try discriminate. injection EQ as ->. reflexivity. }
        assert (In x (z :: post)) by (destruct q as [|a q]; [discriminate|]; injection EQ as _ ->; apply in_or_app; right; now left).
        rewrite (E2 x H) in EP. discriminate.
    + assert (E0 : dget k (match key x with Some k0 => dset k0 x (sym l) | None => sym l end) = dget k (sym l)).
      { destruct (key x) as [k0|] eqn:EK; [|reflexivity]. rewrite dget_dset. destruct (String.eqb_spec k k0) as [->|]; [|reflexivity].
        apply Hp in EK. congruence. }
      rewrite E0, IH. split; intros (pre & post & E & E1 & E2).
      * exists pre, (post ++ [x]). rewrite E, <- app_assoc. split; [reflexivity|]. split; [exact E1|]. intros m Hm. apply in_app_or in Hm. destruct Hm as [Hm|[<-|[]]]; auto.
      * destruct (exists_last (l := n :: post)) as (q & y & EQ); [discriminate|].
        rewrite EQ, app_assoc in E. apply app_inj_tail in E. destruct E as [E <-]. destruct q as [|a q]; [injection EQ as -> ->; congruence|].
        injection EQ as <- ->. exists pre, q. split; [exact E|]. split; [exact E1|]. intros m Hm. apply E2, in_or_app. now left.
Qed.
Lemma sym_key : forall l k n, dget k (sym l) = Some n -> key n = Some k.
Proof. intros l k n H. apply sym_final in H. destruct H as (_ & _ & _ & H & _). now apply Hp. Qed.
Lemma sym_mem : forall l k, mem k (dkeys (sym l)) = existsb (p k) l.
Proof.
  induction l as [|x l IH] using rev_ind; intros k; [reflexivity|]. rewrite existsb_app, <- IH, sym_snoc. unfold sym_add. cbn.
  destruct (p k x) eqn:EP.
  - rewrite (proj1 (Hp k x) EP). rewrite orb_comm. cbn. apply mem_In, dset_keys_In. now left.
  - cbn. rewrite orb_false_r. destruct (key x) as [k0|] eqn:EK; [|reflexivity].
    assert (k0 <> k) by (intros ->; apply Hp in EK; congruence).
    destruct (mem_spec k (dkeys (dset k0 x (sym l)))) as [H1|H1], (mem_spec k (dkeys (sym l))) as [H2|H2]; try reflexivity.
    + apply dset_keys_In in H1. destruct H1; [congruence|contradiction].
    + exfalso. apply H1, dset_keys_In. now right.
Qed.
End Symbols.

Definition def_key (n : cst) : option string := match n with CClass k _ _ | CFunc k _ _ => Some k | _ => None end.
Definition mem_key (n : cst) : option string := match n with CFunc k _ _ => Some k | CLine st _ => retrieve_symbol_name st | _ => None end.
Lemma defines_key : forall k n, defines k n = true <-> def_key n = Some k.
Proof. intros k [c h b|c h b|st tr|t|]; cbn; try (rewrite String.eqb_eq; split; [now intros ->|now intros [= ->]]); split; discriminate. Qed.
Lemma annotates_key : forall k st, annotates k st = true <-> retrieve_symbol_name st = Some k.
Proof.
  induction st as [|[x t|t|t] st IH]; cbn; [split; discriminate| |split; discriminate|exact IH].
  rewrite String.eqb_eq. split; [now intros ->|now intros [= ->]].
Qed.
Lemma member_key : forall k n, member k n = true <-> mem_key n = Some k.
Proof.
  intros k [c h b|c h b|st tr|t|]; cbn; try (split; discriminate); [|apply annotates_key].
  rewrite String.eqb_eq. split; [now intros ->|now intros [= ->]].
Qed.
Lemma module_symbols_sym : forall l, module_symbols l = sym def_key l.
Proof.
  intros l. unfold module_symbols, sym. generalize (@nil (string * cst)). induction l as [|n l IH]; intros d; [reflexivity|].
  cbn [fold_left]. rewrite IH. f_equal. now destruct n.
Qed.
Lemma member_symbols_sym : forall l, member_symbols l = sym mem_key l.
Proof.
  intros l. unfold member_symbols, sym. generalize (@nil (string * cst)). induction l as [|n l IH]; intros d; [reflexivity|].
  cbn [fold_left]. rewrite IH. f_equal. now destruct n.
Qed.

(** ** members of a class *)
Definition found (key : cst -> option string) (symbols : dict cst) (n : cst) : option string :=
  match key n with Some k => if dmem k symbols then Some k else None | None => None end.
Definition new_member (symbols : dict cst) (n : cst) : cst :=
  match mem_key n with
  | Some k => match dget k symbols with
              | Some x => match n with CLine _ _ => merge_statements x n | _ => merge_functions x n end
              | None => n
              end
  | None => n
  end.
Lemma merge_member_step : forall symbols g n,
  merge_member symbols g n = match found mem_key symbols n with Some k => implement k (new_member symbols n) g | None => keep (new_member symbols n) g end.
Proof.
  intros symbols g n. unfold found, new_member, dmem. destruct n as [c h b|c h b|st tr|t|]; cbn; try reflexivity.
  - destruct (dget c symbols); reflexivity.
  - destruct (retrieve_symbol_name st) as [k|]; [|reflexivity]. destruct (dget k symbols); reflexivity.
Qed.
Definition class_body (gb body : list cst) : list cst := level (member_symbols gb) (merge_member (member_symbols gb)) body.
Lemma merge_class_eq : forall g k h body, merge_class g (CClass k h body) = CClass k h (class_body (block_of g) body).
Proof. reflexivity. Qed.
Lemma member_final : forall gb k x, dget k (member_symbols gb) = Some x <-> final (member k) gb x.
Proof. intros. rewrite member_symbols_sym. apply sym_final. exact member_key. Qed.
Lemma member_mem : forall gb k, mem k (dkeys (member_symbols gb)) = existsb (member k) gb.
Proof. intros. rewrite member_symbols_sym. apply sym_mem. exact member_key. Qed.
Lemma member_ND : forall gb, NoDup (dkeys (member_symbols gb)).
Proof. intros. rewrite member_symbols_sym. apply sym_NoDup. Qed.
Lemma member_sym_key : forall gb k x, dget k (member_symbols gb) = Some x -> mem_key x = Some k.
Proof. intros gb k x H. rewrite member_symbols_sym in H. exact (sym_key _ _ member_key gb k x H). Qed.
(** an unbroken new member *)
Lemma new_member_cases : forall gb n, new_member (member_symbols gb) n <> CBroken ->
  n = CBroken
  \/ (new_member (member_symbols gb) n = n /\ (forall k, member k n = true -> dget k (member_symbols gb) = None))
  \/ (exists k h hx b bx, n = CFunc k h b /\ dget k (member_symbols gb) = Some (CFunc k hx bx) /\ new_member (member_symbols gb) n = CFunc k hx b)
  \/ (exists k st st' tr tr', n = CLine st tr /\ annotates k st = true /\ annotates k st' = true
        /\ dget k (member_symbols gb) = Some (CLine st' tr') /\ new_member (member_symbols gb) n = CLine st' tr).
Proof.
  intros gb n. unfold new_member. destruct (mem_key n) as [k|] eqn:EK.
  - destruct (dget k (member_symbols gb)) as [x|] eqn:EX.
    + pose proof (member_sym_key gb k x EX) as Hx.
      destruct n as [c h b|c h b|st tr|t|]; try discriminate.
      * injection EK as ->. destruct x as [c' h' b'|c' h' b'|st' tr'|t'|]; try discriminate.
        -- injection Hx as ->. intros _. right. right. left. exists k, h, h', b, b'. repeat split; assumption.
        -- intros X. now contradiction X.
      * destruct x as [c' h' b'|c' h' b'|st' tr'|t'|]; try discriminate.
        -- intros X. now contradiction X.
        -- intros _. right. right. right. exists k, st, st', tr, tr'. repeat split; try assumption; now apply annotates_key.
    + intros _. right. left. split; [reflexivity|]. intros x Hx. apply member_key in Hx. congruence.
  - intros _. right. left. split; [reflexivity|]. intros x Hx. apply member_key in Hx. congruence.
Qed.
Lemma found_key : forall key symbols n k, found key symbols n = Some k -> key n = Some k.
Proof. intros key symbols n k. unfold found. destruct (key n) as [x|]; [|discriminate]. destruct (dmem x symbols); [|discriminate]. auto. Qed.
Lemma key_found : forall key symbols n k, key n = Some k -> In k (dkeys symbols) -> found key symbols n = Some k.
Proof. intros key symbols n k E H. unfold found. rewrite E. apply dmem_In in H. now rewrite H. Qed.
Lemma class_body_embeds : forall gb body (R : cst -> cst -> Prop), (forall n, In n body -> R n (new_member (member_symbols gb) n)) -> embeds R body (class_body gb body).
Proof. intros. unfold class_body. eapply level_embeds; [apply merge_member_step|assumption]. Qed.
Lemma class_body_new : forall gb body n, In n body -> In (new_member (member_symbols gb) n) (class_body gb body).
Proof.
  intros gb body n H. unfold class_body.
  eapply Permutation_in; [symmetry; eapply level_perm; [apply member_ND|apply merge_member_step]|].
  apply in_or_app. left. now apply in_map.
Qed.
Definition whole (n : cst) : Prop := n <> CBroken.
Lemma class_body_whole : forall gb body, Forall whole (class_body gb body) -> forall n, In n body -> new_member (member_symbols gb) n <> CBroken.
Proof. intros gb body H n Hn. rewrite Forall_forall in H. apply H. now apply class_body_new. Qed.
Lemma class_members_kept : forall gb body, Forall whole (class_body gb body) -> embeds (member_kept gb) body (class_body gb body).
Proof.
  intros gb body H. apply class_body_embeds. intros n Hn. pose proof (class_body_whole gb body H n Hn) as W.
  destruct (new_member_cases gb n W) as [->|[[E _]|[(k & h & hx & b & bx & -> & E & ->)|(k & st & st' & tr & tr' & -> & E1 & E2 & E3 & ->)]]].
  - reflexivity.
  - rewrite E. destruct n; cbn; auto. eauto.
  - cbn. eauto.
  - right. exists k, st'. split; [exact E1|]. split; [|reflexivity]. rewrite <- member_mem. apply mem_In. apply dmem_In. unfold dmem. now rewrite E3.
Qed.
Lemma class_members_brought : forall gb body, Forall whole (class_body gb body) -> brought gb body (class_body gb body).
Proof.
  intros gb body H. pose proof (class_body_whole gb body H) as W. split.
  - intros k. rewrite <- member_mem. unfold class_body.
    apply (level_count (member_symbols gb) (merge_member (member_symbols gb)) (new_member (member_symbols gb)) (found mem_key (member_symbols gb)) (member_ND gb) (merge_member_step _) member).
    + intros x n E y. apply member_sym_key in E. destruct (member y n) eqn:EM.
      * apply member_key in EM. rewrite E in EM. injection EM as ->. now rewrite String.eqb_refl.
      * destruct (String.eqb_spec x y) as [->|]; [|reflexivity]. apply member_key in E. congruence.
    + intros n x Hx E. apply key_found; [now apply member_key|exact Hx].
    + intros n x E. apply member_key. now apply found_key in E.
    + intros n Hn. destruct (new_member_cases gb n (W n Hn)) as [->|[[E _]|[(c & h & hx & b & bx & -> & E & ->)|(c & st & st' & tr & tr' & -> & E1 & E2 & E3 & ->)]]].
      * reflexivity.
      * now rewrite E.
      * reflexivity.
      * cbn. apply annotates_key in E1, E2. destruct (annotates k st) eqn:A1, (annotates k st') eqn:A2; try reflexivity.
        -- apply annotates_key in A1. rewrite A1 in E1. injection E1 as ->. apply annotates_key in E2. congruence.
        -- apply annotates_key in A2. rewrite A2 in E2. injection E2 as ->. apply annotates_key in E1. congruence.
  - intros k g n HF Hn HM. apply member_final in HF.
    assert (In n (map (new_member (member_symbols gb)) body ++ flat_map (symbol (member_symbols gb)) (missing (member_symbols gb) (keys (found mem_key (member_symbols gb)) body)))).
    { eapply Permutation_in; [|exact Hn]. eapply level_perm; [apply member_ND|apply merge_member_step]. }
    apply in_app_or in H0. destruct H0 as [H0|H0].
    + apply in_map_iff in H0. destruct H0 as (e & <- & He).
      destruct (new_member_cases gb e (W e He)) as [->|[[E N]|[(c & h & hx & b & bx & -> & E & E0)|(c & st & st' & tr & tr' & -> & E1 & E2 & E3 & E0)]]].
      * discriminate.
      * rewrite E in HM. rewrite (N k HM) in HF. discriminate.
      * rewrite E0 in *. cbn in HM. apply String.eqb_eq in HM. subst c. rewrite E in HF. injection HF as <-. cbn. eauto.
      * rewrite E0 in *. cbn in HM. apply annotates_key in HM. apply annotates_key in E2. rewrite HM in E2. injection E2 as ->.
        rewrite E3 in HF. injection HF as <-. cbn. eauto.
    + apply in_flat_map in H0. destruct H0 as (x & _ & Hx). unfold symbol in Hx. destruct (dget x (member_symbols gb)) as [y|] eqn:EX; [|contradiction].
      destruct Hx as [->|[]]. pose proof (member_sym_key gb x n EX) as E. apply member_key in HM. rewrite E in HM. injection HM as ->.
      rewrite EX in HF. injection HF as <-. destruct n; cbn in *; try discriminate; eauto.
Qed.
(** everything in the new class body is found there again *)
Lemma new_member_fixed : forall gb n, (forall k g, final (member k) gb g -> member k n = true -> updated_member g n) ->
  new_member (member_symbols gb) n = n.
Proof.
  intros gb n H. unfold new_member. destruct (mem_key n) as [k|] eqn:EK; [|reflexivity]. destruct (dget k (member_symbols gb)) as [x|] eqn:EX; [|reflexivity].
  apply member_final in EX. assert (EM : member k n = true) by (now apply member_key). specialize (H k x EX EM).
  destruct x as [c h b|c h b|st tr|t|]; cbn in H; try contradiction.
  - destruct H as (b' & ->). reflexivity.
  - destruct H as (tr' & ->). reflexivity.
Qed.
Lemma class_body_fixed : forall gb body,
  (forall k g n, final (member k) gb g -> In n body -> member k n = true -> updated_member g n) ->
  (forall k, existsb (member k) gb = true -> (0 < count (member k) body)%nat) ->
  class_body gb body = body.
Proof.
  intros gb body H1 H2. unfold class_body. eapply level_fixed; [apply merge_member_step| |].
  - intros n Hn. apply new_member_fixed. intros k g Hg. exact (H1 k g n Hg Hn).
  - intros k Hk. pose proof Hk as Hk'. apply mem_In in Hk. rewrite member_mem in Hk. specialize (H2 k Hk). unfold count in H2.
    destruct (filter (member k) body) as [|n l] eqn:EF; [cbn in H2; lia|]. assert (Hn : In n (filter (member k) body)) by (rewrite EF; now left).
    apply filter_In in Hn. destruct Hn as [Hn EM]. unfold keys. apply in_flat_map. exists n. split; [exact Hn|].
    rewrite (key_found mem_key _ n k); [now left|now apply member_key|exact Hk'].
Qed.

(** ** statements of a module *)
Definition new_node (symbols : dict cst) (n : cst) : cst :=
  match def_key n with
  | Some k => match dget k symbols with
              | Some x => match n with CClass _ _ _ => merge_class x n | _ => merge_functions x n end
              | None => n
              end
  | None => n
  end.
Lemma merge_node_step : forall symbols g n,
  merge_node symbols g n = match found def_key symbols n with Some k => implement k (new_node symbols n) g | None => keep (new_node symbols n) g end.
Proof.
  intros symbols g n. unfold found, new_node, dmem. destruct n as [c h b|c h b|st tr|t|]; cbn [def_key merge_node]; try reflexivity;
    destruct (dget c symbols); reflexivity.
Qed.
Lemma merge_bodies_level : forall ex gen, merge_bodies ex gen = level (module_symbols gen) (merge_node (module_symbols gen)) ex.
Proof. reflexivity. Qed.
Lemma module_final : forall gb k x, dget k (module_symbols gb) = Some x <-> final (defines k) gb x.
Proof. intros. rewrite module_symbols_sym. apply sym_final. exact defines_key. Qed.
Lemma module_mem : forall gb k, mem k (dkeys (module_symbols gb)) = existsb (defines k) gb.
Proof. intros. rewrite module_symbols_sym. apply sym_mem. exact defines_key. Qed.
Lemma module_ND : forall gb, NoDup (dkeys (module_symbols gb)).
Proof. intros. rewrite module_symbols_sym. apply sym_NoDup. Qed.
Lemma module_sym_key : forall gb k x, dget k (module_symbols gb) = Some x -> def_key x = Some k.
Proof. intros gb k x H. rewrite module_symbols_sym in H. exact (sym_key _ _ defines_key gb k x H). Qed.
Lemma new_node_key : forall gen n, def_key (new_node (module_symbols gen) n) = def_key n.
Proof.
  intros gen n. unfold new_node. destruct (def_key n) as [k|] eqn:EK; [|assumption]. destruct (dget k (module_symbols gen)) as [x|] eqn:EX; [|assumption].
  pose proof (module_sym_key gen k x EX). destruct n as [c h b|c h b|st tr|t|]; try discriminate.
  - rewrite merge_class_eq. exact EK.
  - destruct x; cbn in *; try discriminate; assumption.
Qed.
Lemma defines_new : forall gen n k, defines k (new_node (module_symbols gen) n) = defines k n.
Proof.
  intros gen n k. pose proof (new_node_key gen n) as E.
  destruct (defines k n) eqn:E1.
  - apply defines_key in E1. rewrite E1 in E. now apply defines_key.
  - destruct (defines k (new_node (module_symbols gen) n)) eqn:E2; [|reflexivity]. apply defines_key in E2. rewrite E2 in E. symmetry in E. apply defines_key in E. congruence.
Qed.
Lemma merge_count : forall ex gen k,
  count (defines k) (merge_bodies ex gen) = if existsb (defines k) gen then Nat.max 1 (count (defines k) ex) else count (defines k) ex.
Proof.
  intros ex gen k. rewrite <- module_mem, merge_bodies_level.
  apply (level_count (module_symbols gen) (merge_node (module_symbols gen)) (new_node (module_symbols gen)) (found def_key (module_symbols gen)) (module_ND gen) (merge_node_step _) defines).
  - intros x n E y. apply module_sym_key in E. destruct (defines y n) eqn:EM.
    + apply defines_key in EM. rewrite E in EM. injection EM as ->. now rewrite String.eqb_refl.
    + destruct (String.eqb_spec x y) as [->|]; [|reflexivity]. apply defines_key in E. congruence.
  - intros n x Hx E. apply key_found; [now apply defines_key|exact Hx].
  - intros n x E. apply defines_key. now apply found_key in E.
  - intros n _. apply defines_new.
Qed.
Lemma merge_modules_ok : forall old gen out, merge_modules old gen = Ok out ->
  out = CModule "" (merge_bodies (m_body old) (m_body gen)) "" /\ Forall (fun n => printable n = true) (merge_bodies (m_body old) (m_body gen)).
Proof.
  intros old gen out H. unfold merge_modules in H. destruct (forallb printable _) eqn:E; [|discriminate]. injection H as <-. split; [reflexivity|].
  apply Forall_forall. now apply forallb_forall.
Qed.
Lemma merge_In : forall ex gen n, In n (merge_bodies ex gen) ->
  (exists e, In e ex /\ n = new_node (module_symbols gen) e) \/ exists k, final (defines k) gen n /\ count (defines k) ex = 0%nat.
Proof.
  intros ex gen n H. rewrite merge_bodies_level in H. eapply Permutation_in in H; [|eapply level_perm; [apply module_ND|apply merge_node_step]].
  apply in_app_or in H. destruct H as [H|H].
  - apply in_map_iff in H. destruct H as (e & <- & He). left. eauto.
  - right. apply in_flat_map in H. destruct H as (x & HM & Hx). unfold symbol in Hx. destruct (dget x (module_symbols gen)) as [y|] eqn:EX; [|contradiction].
    destruct Hx as [->|[]]. exists x. split; [now apply module_final|]. unfold missing in HM. apply filter_In in HM. destruct HM as [HK HM].
    destruct (mem_spec x (keys (found def_key (module_symbols gen)) ex)) as [|NM]; [discriminate|].
    unfold count. destruct (filter (defines x) ex) as [|z l] eqn:EF; [reflexivity|]. exfalso. apply NM.
    assert (Hz : In z (filter (defines x) ex)) by (rewrite EF; now left). apply filter_In in Hz. destruct Hz as [Hz Ez].
    unfold keys. apply in_flat_map. exists z. split; [exact Hz|]. rewrite (key_found def_key _ z x); [now left|now apply defines_key|exact HK].
Qed.
Lemma merge_new : forall ex gen e, In e ex -> In (new_node (module_symbols gen) e) (merge_bodies ex gen).
Proof.
  intros ex gen e H. rewrite merge_bodies_level. eapply Permutation_in; [symmetry; eapply level_perm; [apply module_ND|apply merge_node_step]|].
  apply in_or_app. left. now apply in_map.
Qed.
Lemma printable_whole : forall l, forallb printable l = true -> Forall whole l.
Proof. intros l H. rewrite forallb_forall in H. apply Forall_forall. intros n Hn ->. specialize (H _ Hn). discriminate. Qed.
Section Merge.
Variables (ex gen : list cst).
Hypothesis HP : Forall (fun n => printable n = true) (merge_bodies ex gen).
Hypothesis HK : same_kinds ex gen.
Lemma new_node_cases : forall e, In e ex ->
  (new_node (module_symbols gen) e = e /\ forall k, defines k e = true -> dget k (module_symbols gen) = None)
  \/ (exists k h hx b bx, e = CFunc k h b /\ final (defines k) gen (CFunc k hx bx) /\ new_node (module_symbols gen) e = CFunc k hx b)
  \/ (exists k h hx b gb, e = CClass k h b /\ final (defines k) gen (CClass k hx gb) /\ new_node (module_symbols gen) e = CClass k h (class_body gb b)
        /\ Forall whole (class_body gb b)).
Proof.
  intros e He. pose proof (merge_new ex gen e He) as Hin. rewrite Forall_forall in HP. specialize (HP _ Hin). clear Hin.
  unfold new_node in *. destruct (def_key e) as [k|] eqn:EK.
  - destruct (dget k (module_symbols gen)) as [x|] eqn:EX.
    + pose proof (module_sym_key gen k x EX) as Hx. pose proof (proj1 (module_final gen k x) EX) as EF.
      specialize (HK k e x He EF (proj2 (defines_key k e) EK)).
      destruct e as [c h b|c h b|st tr|t|]; try discriminate; injection EK as ->.
      * destruct x as [c' h' b'|c' h' b'|st' tr'|t'|]; try contradiction. injection Hx as ->. right. right. exists k, h, h', b, b'.
        split; [reflexivity|]. split; [exact EF|]. split; [apply merge_class_eq|]. apply printable_whole. exact HP.
      * destruct x as [c' h' b'|c' h' b'|st' tr'|t'|]; try contradiction. injection Hx as ->. right. left. exists k, h, h', b, b'. auto.
    + left. split; [reflexivity|]. intros x Hx. apply defines_key in Hx. congruence.
  - left. split; [reflexivity|]. intros x Hx. apply defines_key in Hx. congruence.
Qed.
Lemma merge_kept : embeds (kept gen) ex (merge_bodies ex gen).
Proof.
  rewrite merge_bodies_level. eapply level_embeds; [apply merge_node_step|]. intros e He.
  destruct (new_node_cases e He) as [[-> _]|[(k & h & hx & b & bx & -> & E & ->)|(k & h & hx & b & gb & -> & E & -> & W)]].
  - destruct e; cbn; auto. eauto.
  - cbn. eauto.
  - right. exists (CClass k hx gb), (class_body gb b). split; [exact E|]. split; [reflexivity|]. now apply class_members_kept.
Qed.
Lemma merge_origin : forall n, In n (merge_bodies ex gen) -> (exists e, In e ex /\ kept gen e n) \/ In n gen.
Proof.
  intros n H. destruct (merge_In ex gen n H) as [(e & He & ->)|(k & (pre & post & -> & _) & _)].
  - left. exists e. split; [exact He|]. destruct (new_node_cases e He) as [[-> _]|[(k & h & hx & b & bx & -> & E & ->)|(k & h & hx & b & gb & -> & E & -> & W)]].
    + destruct e; cbn; auto. eauto.
    + cbn. eauto.
    + right. exists (CClass k hx gb), (class_body gb b). split; [exact E|]. split; [reflexivity|]. now apply class_members_kept.
  - right. apply in_or_app. right. now left.
Qed.
Lemma merge_updated : forall k g n, final (defines k) gen g -> In n (merge_bodies ex gen) -> defines k n = true -> updated ex g n.
Proof.
  intros k g n HF Hn HD. apply module_final in HF. destruct (merge_In ex gen n Hn) as [(e & He & ->)|(x & Hx & _)].
  - destruct (new_node_cases e He) as [[E N]|[(c & h & hx & b & bx & -> & E & E0)|(c & h & hx & b & gb & -> & E & E0 & W)]].
    + rewrite E in HD. rewrite (N k HD) in HF. discriminate.
    + rewrite E0 in *. cbn in HD. apply String.eqb_eq in HD. subst c. apply module_final in E. rewrite E in HF. injection HF as <-. cbn. eauto.
    + rewrite E0 in *. cbn in HD. apply String.eqb_eq in HD. subst c. apply module_final in E. rewrite E in HF. injection HF as <-. cbn.
      right. exists h, b, (class_body gb b). split; [exact He|]. split; [reflexivity|]. now apply class_members_brought.
  - apply module_final in Hx. pose proof (module_sym_key gen x n Hx) as E. apply defines_key in HD. rewrite E in HD. injection HD as ->.
    rewrite Hx in HF. injection HF as <-. destruct n; cbn in *; try discriminate; eauto.
Qed.
Hypothesis HU : unique_members gen.
Lemma own_body : forall gb, (forall k, (count (member k) gb <= 1)%nat) -> class_body gb gb = gb.
Proof.
  intros gb H. apply class_body_fixed.
  - intros k g n (pre & post & -> & E & NP) Hn Em. specialize (H k). rewrite count_app in H. unfold count in H at 2. cbn [filter] in H. rewrite E in H. cbn in H.
    assert (n = g).
    { apply in_app_or in Hn. destruct Hn as [Hn|[->|Hn]]; [|reflexivity|rewrite (NP n Hn) in Em; discriminate].
      assert (In n (filter (member k) pre)) by (now apply filter_In). unfold count in H. destruct (filter (member k) pre); [contradiction|cbn in H; lia]. }
    subst n. destruct g; cbn in *; try discriminate; eauto.
  - intros k Hk. apply existsb_exists in Hk. destruct Hk as (n & Hn & E). unfold count. assert (In n (filter (member k) gb)) by (now apply filter_In).
    destruct (filter (member k) gb); [contradiction|cbn; lia].
Qed.
Lemma merge_fixed : merge_bodies (merge_bodies ex gen) gen = merge_bodies ex gen.
Proof.
  rewrite (merge_bodies_level (merge_bodies ex gen)). eapply level_fixed; [apply merge_node_step| |].
  - intros n Hn. unfold new_node. destruct (def_key n) as [k|] eqn:EK; [|reflexivity]. destruct (dget k (module_symbols gen)) as [x|] eqn:EX; [|reflexivity].
    apply module_final in EX. pose proof (merge_updated k x n EX Hn (proj2 (defines_key k n) EK)) as U. destruct x as [c h b|c h b|st tr|t|]; cbn in U; try contradiction.
    + destruct U as [->|(h' & body & body' & _ & -> & B1 & B2)].
      * rewrite merge_class_eq. cbn [block_of]. rewrite own_body; [reflexivity|]. intros y. destruct EX as (pre & post & E & _). eapply (HU c h b y). rewrite E. apply in_or_app. right. now left.
      * rewrite merge_class_eq. cbn [block_of]. rewrite class_body_fixed; [reflexivity|exact B2|]. intros y Hy. rewrite B1, Hy. lia.
    + destruct U as (b' & ->). reflexivity.
  - intros k Hk. pose proof Hk as Hk'. apply mem_In in Hk. rewrite module_mem in Hk. pose proof (merge_count ex gen k) as C. rewrite Hk in C. unfold count in C.
    destruct (filter (defines k) (merge_bodies ex gen)) as [|n l] eqn:EF; [cbn [length] in C; lia|]. assert (Hn : In n (filter (defines k) (merge_bodies ex gen))) by (rewrite EF; now left).
    apply filter_In in Hn. destruct Hn as [Hn ED]. unfold keys. apply in_flat_map. exists n. split; [exact Hn|].
    rewrite (key_found def_key _ n k); [now left|now apply defines_key|exact Hk'].
Qed.
End Merge.

Lemma C35_kept_lemma : forall old gen out, merge_modules old gen = Ok out -> same_kinds (m_body old) (m_body gen) ->
  embeds (kept (m_body gen)) (m_body old) (m_body out)
  /\ forall n, In n (m_body out) -> (exists e, In e (m_body old) /\ kept (m_body gen) e n) \/ In n (m_body gen).
Proof.
  intros old gen out H HK. apply merge_modules_ok in H. destruct H as [-> HP]. cbn. split; [now apply merge_kept|]. intros n. now apply merge_origin.
Qed.
Lemma C36_count_lemma : forall old gen out, merge_modules old gen = Ok out ->
  forall k, count (defines k) (m_body out) =
            if existsb (defines k) (m_body gen) then Nat.max 1 (count (defines k) (m_body old)) else count (defines k) (m_body old).
Proof. intros old gen out H. apply merge_modules_ok in H. destruct H as [-> _]. intros k. apply merge_count. Qed.
Lemma C36_updated_lemma : forall old gen out, merge_modules old gen = Ok out -> same_kinds (m_body old) (m_body gen) ->
  forall k g n, final (defines k) (m_body gen) g -> In n (m_body out) -> defines k n = true -> updated (m_body old) g n.
Proof. intros old gen out H HK. apply merge_modules_ok in H. destruct H as [-> HP]. cbn. intros k g n. now apply merge_updated. Qed.
Lemma C36_again_lemma : forall old gen out, merge_modules old gen = Ok out -> same_kinds (m_body old) (m_body gen) -> unique_members (m_body gen) ->
  merge_modules out gen = Ok out.
Proof.
  intros old gen out H HK HU. apply merge_modules_ok in H. destruct H as [-> HP]. unfold merge_modules. cbn [m_body].
  rewrite merge_fixed by assumption.
  assert (E : forallb printable (merge_bodies (m_body old) (m_body gen)) = true) by (apply forallb_forall; now apply Forall_forall). now rewrite E.
Qed.
