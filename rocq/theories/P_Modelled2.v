(** The fields of operations and fragments. *)
From Coq Require Import Lia.
From Verif Require Import Base PyAst Gql Config Stylers Registry Utils Documents Inline Inputs Recurse Fragments Operations
  Spec_Types Spec_Inputs Spec_Annot Spec_Fields Spec_Selection P_Base P_Gql P_Monad P_Types P_Inputs P_Annot P_InlineProps P_Recurse P_Fields P_Selection P_Args P_Modelled.

Lemma get_field_def_schema : forall s n name fd, get_field_def s n name = Some fd -> name <> "__typename" -> schema_field s n name fd.
Proof.
  intros s n name fd E N. unfold get_field_def in E. apply String.eqb_neq in N. rewrite N in E.
  destruct (get_type s n) as [t|] eqn:HT; [|discriminate]. destruct (type_fields t) as [fs|] eqn:TF; [|discriminate].
  exists t, fs. split; [exact HT|]. split; [|exact E]. destruct t; try discriminate; exact TF.
Qed.
Lemma calls_all : forall c st s r0 n sels C body, calls c st s r0 n sels C body ->
  carries (modelled st s r0 (c_create_catchall c) C) s n sels body.
Proof. intros. eapply calls_carries; [intros; apply modelled_all|apply incl_refl|eassumption]. Qed.

Section Ops.
Variable c : gconfig.
Variable st : list styler.
Variable s : schema.
Variable pc : ocfg.
Variable po : operation -> string.
Variable add : string -> res string.
Variable doc_of : operation -> option string.
Lemma root_walk : forall root cls sels r0 r acc r', fsame r0 r ->
  mfold (root_item c st s root cls) sels ([], []) r = (Ok acc, r') ->
  calls c st s r0 root sels (fst acc) (List.concat (snd acc)) /\ (forall x, In x sels -> exists g, x = SelField g).
Proof.
  intros root cls sels r0 r acc r' F H.
  eapply (mfold_ok _ (fun pre acc r => fsame r0 r /\ calls c st s r0 root pre (fst acc) (List.concat (snd acc)) /\ (forall x, In x pre -> exists g, x = SelField g))) in H.
  - exact (proj2 H).
  - split; [exact F|]. split; [apply calls_nil|contradiction].
  - clear H F r r' acc. intros pre x post acc r acc' r' _ (F & C & A) H. destruct x as [g|f ds|cond ds m]; cbn [root_item] in H; try discriminate.
    apply bind_ok in H as (fd & r1 & H1 & H). apply from_opt_ok in H1 as [E ->]. apply bind_ok in H as (res & r2 & H2 & H).
    apply ret_ok in H as [-> ->]. cbn [fst snd]. assert (F2 := tfn_fsame _ _ _ _ _ _ _ _ _ H2).
    split; [eapply fsame_trans; eassumption|]. split.
    + destruct (String.eqb_spec (fn_name g) "__typename") as [Hn|Hn].
      * apply calls_skip; [|intros h [= <-]; exact Hn]. eapply calls_mono; [| |exact C]; [apply incl_appl, incl_refl|].
        rewrite List.concat_app. apply incl_appl, incl_refl.
      * rewrite List.concat_app. cbn [List.concat]. rewrite app_nil_r.
        eapply calls_add; [exact C|apply incl_appl, incl_refl|apply incl_appl, incl_refl|eapply get_field_def_schema; eassumption|].
        eapply called_now; eassumption.
    + intros x Hx. apply in_app_iff in Hx as [Hx|[<-|[]]]; [auto|eauto].
Qed.
Lemma operation_C45 : forall o r l r', generate_operation c st s pc po add doc_of o r = (Ok l, r') ->
  exists root classes cls bases body, root_type s (op_kind o) = Some root /\ l = classes ++ [SClass cls bases body []]
    /\ carries (modelled st s r (c_create_catchall c) classes) s root (op_sels o) body
    /\ forall x, In x (op_sels o) -> exists g, x = SelField g.
Proof.
  intros o r l r' H. unfold generate_operation in H.
  apply bind_ok in H as (name & r1 & H1 & H). apply from_opt_ok in H1 as [EN ->].
  apply bind_ok in H as (cb & r2 & H2 & H). apply bind_ok in H as (root & r3 & H3 & H). apply from_opt_ok in H3 as [ER ->]. cbn zeta in H.
  apply bind_ok in H as (acc & r4 & H4 & H). apply bind_ok in H as (u & r5 & H5 & H). apply bind_ok in H as (doc & r6 & H6 & H).
  apply bind_ok in H as (args & r7 & H7 & H). apply bind_ok in H as (cfg & r8 & H8 & H). apply ret_ok in H as [-> ->].
  assert (F2 : fsame r r2).
  { assert (E2 : evolve st Kop r r2) by (eapply ev_ok; [|exact H2]; unfold operation_class, bases_or_default, Kop; ev_go).
    repeat split; [eapply frame_frags|eapply frame_iffrag|eapply frame_scalars|eapply frame_fragtypes]; try exact E2; nosca. }
  eapply root_walk in H4 as [C A]; [|exact F2].
  exists root, (fst acc). do 3 eexists. split; [exact ER|]. split; [reflexivity|]. split; [|exact A].
  apply calls_all. eapply calls_mono; [apply incl_refl| |exact C]. intros x Hx. rewrite !in_app_iff. auto.
Qed.
End Ops.

Section Frags.
Variable c : gconfig.
Variable st : list styler.
Variable s : schema.
Variable pc : frcfg.
Variable pf : fragment -> string.
Variable add : string -> res string.
Notation Tfn := (type_field_node c st s).
Lemma fold_dset_get : forall (f : string -> string) l m i, In i l \/ dget i m = Some (f i) ->
  dget i (fold_left (fun m i => dset i (f i) m) l m) = Some (f i).
Proof.
  intros f l. induction l as [|j l IH]; intros m i H; [now destruct H|]. cbn [fold_left]. apply IH. rewrite dget_dset.
  destruct (String.eqb_spec i j) as [->|N]; [auto|]. destruct H as [[->|H]|H]; [contradiction|auto|auto].
Qed.
Lemma frame_ufrag : forall st' K r r', ~ In KUff K -> evolve st' K r r' -> r_ufrag r' = r_ufrag r.
Proof. frame. Qed.
Lemma ev_ufrag : forall {A} (m : M A) r a r', ev st Ksel m -> m r = (Ok a, r') -> r_ufrag r' = r_ufrag r.
Proof. intros A m r a r' H E. eapply frame_ufrag; [|eapply ev_ok; eassumption]. nosca. Qed.
(** ** on an interface *)
Lemma interface_fragment_shape : forall f d i fields r l r', get_type s (fr_on f) = Some (TInterface d i fields) ->
  interface_fragment c st s pc f d fields r = (Ok l, r') ->
  exists ifs, dget (fr_name f) (r_iffrag r') = Some ifs /\ r_frags r' = r_frags r /\ r_fragtypes r' = r_fragtypes r
    /\ interface_fragment_ok st s r (c_create_catchall c) l (fr_on f) (fr_sels f) ifs.
Proof.
  intros f d i fields r l r' HT H. unfold interface_fragment in H. cbn zeta in H.
  apply bind_ok in H as (ad & r1 & H1 & H). apply bind_ok in H as (p & r2 & H2 & H). apply bind_ok in H as (ib & r3 & H3 & H).
  apply bind_ok in H as (t & r4 & H4 & H). apply bind_ok in H as (ic & r5 & H5 & H). apply bind_ok in H as (u & r6 & H6 & H).
  apply ret_ok in H as [-> ->].
  assert (F1 : fsame r r1) by (eapply (ev_fsame st); [|exact H1]; ev_tac).
  eapply (iface_walk c st s (fr_on f)) with (r0 := r) in H2; [|exact HT|reflexivity|exact F1].
  assert (F2 := proj1 H2).
  assert (F5 : fsame r r5).
  { eapply fsame_trans; [exact F2|]. eapply fsame_trans; [eapply (ev_fsame st); [|exact H3]; ev_tac|].
    eapply fsame_trans; [eapply (ev_fsame st); [|exact H4]; ev_one|]. eapply (ev_fsame st); [|exact H5].
    apply ev_mmap. intros. apply ev_implementing_class. }
  unfold register_interface_fragment_implementations in H6. cbv [modify] in H6. injection H6 as _ <-.
  destruct F5 as (A1 & A2 & A3 & A4).
  eexists. split; [cbn [with_iffrag r_iffrag]; rewrite dget_dset, String.eqb_refl; reflexivity|]. split; [exact A1|]. split; [exact A4|].
  set (base := style_fragment_class st (fr_name f)) in *. set (mother := base +s+ "Base") in *.
  set (classes := ip_classes p ++ _) in *.
  exists mother, (ad ++ ib), (ip_fields p). split; [unfold classes; rewrite !in_app_iff; right; left; now left|].
  assert (H2' := H2). destruct H2' as (_ & C & _).
  split; [apply calls_all; eapply calls_mono; [|apply incl_refl|exact C]; apply incl_appl, incl_refl|]. split.
  - intros j Hj. eapply (impl_classes_shape c st s (fr_on f) r) with (classes := classes) in H5; [|exact H2|apply incl_appl, incl_refl|apply incl_appr, incl_appr, incl_refl|exact Hj].
    destruct H5 as (bases & body & Hc & Hm & Ht & Hi & Hs). exists (base +s+ j), bases, body. split; [exact Hc|].
    split; [apply (fold_dset_get (fun j => base +s+ j)); auto|]. split; [exact Hm|]. split; [exact Ht|]. split; [|exact Hs].
    intros ds m Hin. apply calls_all. eapply Hi; exact Hin.
  - intros _. do 3 eexists. split; [unfold classes; rewrite !in_app_iff; right; left; right; left; reflexivity|]. split; [exact I|].
    split; [now left|]. eapply generic_typename_ok; [exact H4|]. right. now left.
Qed.
(** ** on an object *)
Definition ofrag_inv (n : string) (r0 : reg) (b0 : list stmt) (pre : list selection) (acc : list stmt * list expr * list stmt) (r : reg) : Prop :=
  let '(classes, bases, body) := acc in
  fsame r0 r /\ calls c st s r0 n pre classes body /\ inherits_spreads r0 n pre bases /\ incl b0 body.
Lemma object_fragment_shape : forall f cls d r l r',
  object_fragment c st s pc pf add f cls d r = (Ok l, r') ->
  fsame r r' /\ object_fragment_ok st s r (c_create_catchall c) l (fr_on f) (fr_sels f) cls.
Proof.
  intros f cls d r l r' H. unfold object_fragment in H.
  apply bind_ok in H as (ad & r1 & H1 & H). apply bind_ok in H as (t & r2 & H2 & H). apply bind_ok in H as ([[classes bases] body] & r3 & H3 & H).
  apply bind_ok in H as (meta & r4 & H4 & H). apply bind_ok in H as (fb & r5 & H5 & H). apply bind_ok in H as (cfg & r6 & H6 & H).
  apply ret_ok in H as [-> ->].
  assert (F2 : fsame r r2).
  { eapply fsame_trans; [eapply (ev_fsame st); [|exact H1]; ev_tac|eapply (ev_fsame st); [|exact H2]; ev_one]. }
  eapply (mfold_ok _ (ofrag_inv (fr_on f) r [documented pc d; t])) in H3; cycle 1.
  { split; [exact F2|]. split; [apply calls_nil|]. split; [intros g ds []|apply incl_refl]. }
  { clear - c st s pc pf add. intros pre x post [[classes bases] body] ra [[classes' bases'] body'] rb _ (F & C & I & Ib) Hx.
    destruct x as [g|g ds|cond ds m]; cbn [object_fragment_item] in Hx.
    - destruct (String.eqb (fn_name g) "__typename") eqn:T.
      + apply ret_ok in Hx as [[= -> -> ->] ->]. split; [exact F|].
        split; [apply calls_skip; [exact C|intros h [= <-]; now apply String.eqb_eq]|].
        split; [eapply inherits_snoc; [exact I|apply incl_refl|discriminate]|exact Ib].
      + apply bind_ok in Hx as (fd & rc & H1 & Hx). apply from_opt_ok in H1 as [E ->]. apply bind_ok in Hx as (res & rd & H2 & Hx).
        apply ret_ok in Hx as [[= -> -> ->] ->]. assert (F2 := tfn_fsame _ _ _ _ _ _ _ _ _ H2).
        split; [eapply fsame_trans; eassumption|].
        split; [eapply calls_add; [exact C|apply incl_appl, incl_refl|apply incl_appl, incl_refl| |eapply called_now; eassumption]|].
        { eapply get_field_def_schema; [exact E|now apply String.eqb_neq]. }
        split; [eapply inherits_snoc; [exact I|apply incl_refl|discriminate]|now apply incl_appl].
    - apply bind_ok in Hx as (m & rc & H1 & Hx). apply gets_ok in H1 as [-> ->]. apply bind_ok in Hx as (b & rd & H2 & Hx).
      apply ret_ok in Hx as [[= -> -> ->] ->].
      assert (Hk : (dget g (r_frags ra) = Some b \/ exists m, dget g (r_iffrag ra) = Some m /\ dget (fr_on f) m = Some b) /\ rd = ra).
      { destruct (dget g (r_iffrag ra)) as [m|] eqn:E.
        - apply from_opt_ok in H2 as [H2 ->]. split; [right; eauto|reflexivity].
        - unfold inherit_fragment in H2. minv. auto. }
      destruct Hk as [Hk ->]. assert (F' := F). destruct F' as (A1 & A2 & _).
      split; [exact F|]. split; [apply calls_skip; [exact C|discriminate]|]. split; [|exact Ib].
      eapply inherits_snoc; [exact I|apply incl_tl, incl_refl|]. intros g' ds' [= <- <-]. exists b. rewrite A1, A2 in Hk.
      split; [exact Hk|now left].
    - apply ret_ok in Hx as [[= -> -> ->] ->]. split; [exact F|]. split; [apply calls_skip; [exact C|discriminate]|].
      split; [eapply inherits_snoc; [exact I|apply incl_refl|discriminate]|exact Ib]. }
  destruct H3 as (F3 & C & I & Ib). split.
  - eapply fsame_trans; [exact F3|]. eapply fsame_trans; [|eapply fsame_trans; [eapply (ev_fsame st); [|exact H5]|eapply (ev_fsame st); [|exact H6]]]; cycle 1.
    + unfold get_fragment_bases. ev_tac.
    + ev_one.
    + eapply (ev_fsame st); [|exact H4]. unfold fragment_meta. destruct (fr_meta pc); [|apply ev_ret].
      apply ev_bind; [eapply ev_incl; [|apply ev_replace]; intros ? []|intros; apply ev_ret].
  - exists (bases ++ fb), (body ++ cfg ++ meta). split; [apply in_or_app; right; now left|].
    split; [eapply typename_field_ok; [exact H2|]; apply in_or_app; left; apply Ib; right; now left|].
    split; [apply calls_all; eapply calls_mono; [| |exact C]; apply incl_appl, incl_refl|].
    intros g ds Hg. destruct (I g ds Hg) as (k & Hk & Hb). exists k. split; [exact Hk|]. apply in_or_app. now left.
Qed.
(** ** on a union *)
Lemma union_inline_walk : forall cls on sub r0 r acc r', fsame r0 r ->
  mfold (union_inline c st s cls on) sub ([], [], []) r = (Ok acc, r') ->
  let '(classes, bases, body) := acc in
  fsame r0 r' /\ calls c st s r0 on sub classes body /\ forall f ds, In (SelSpread f ds) sub -> In f bases.
Proof.
  intros cls on sub r0 r acc r' F H.
  eapply (mfold_ok _ (fun pre acc r => let '(classes, bases, body) := acc in
    fsame r0 r /\ calls c st s r0 on pre classes body /\ forall f ds, In (SelSpread f ds) pre -> In f bases)) in H; [exact H| |].
  { split; [exact F|]. split; [apply calls_nil|intros f ds []]. }
  clear H F r r' acc. intros pre x post [[classes bases] body] r [[classes' bases'] body'] r' _ (F & C & S) Hx.
  assert (NS : forall y, (forall f ds, y <> SelSpread f ds) -> forall f ds, In (SelSpread f ds) (pre ++ [y]) -> In f bases).
  { intros y Hy f ds Hin. apply in_app_iff in Hin as [Hin|[E|[]]]; [eauto|]. exfalso. eapply Hy; exact E. }
  destruct x as [g|f ds|cond ds m]; cbn [union_inline] in Hx.
  - destruct (String.eqb (fn_name g) "__typename") eqn:T.
    + apply ret_ok in Hx as [[= -> -> ->] ->]. split; [exact F|].
      split; [apply calls_skip; [exact C|intros h [= <-]; now apply String.eqb_eq]|apply NS; discriminate].
    + apply bind_ok in Hx as (t & ra & H0 & Hx). apply from_opt_ok in H0 as [_ ->].
      apply bind_ok in Hx as (fd & r1 & H1 & Hx). apply from_opt_ok in H1 as [E ->]. apply bind_ok in Hx as (res & r2 & H2 & Hx).
      apply ret_ok in Hx as [[= -> -> ->] ->]. assert (F2 := tfn_fsame _ _ _ _ _ _ _ _ _ H2).
      split; [eapply fsame_trans; eassumption|].
      split; [eapply calls_add; [exact C|apply incl_appl, incl_refl|apply incl_appl, incl_refl| |eapply called_now; eassumption]|apply NS; discriminate].
      eapply get_field_def_schema; [exact E|now apply String.eqb_neq].
  - apply ret_ok in Hx as [[= -> -> ->] ->]. split; [exact F|]. split; [apply calls_skip; [exact C|discriminate]|].
    intros f' ds' Hin. apply in_or_app. apply in_app_iff in Hin as [Hin|[[= <- _]|[]]]; [left; eauto|right; now left].
  - apply ret_ok in Hx as [[= -> -> ->] ->]. split; [exact F|]. split; [apply calls_skip; [exact C|discriminate]|apply NS; discriminate].
Qed.
Definition ufrag_inv (r0 : reg) (pre : list selection) (p : iparts) (r : reg) : Prop :=
  fsame r0 r /\ r_ufrag r = r_ufrag r0
  /\ (forall i ds m, In (SelInline (Some i) ds m) pre -> calls c st s r0 i m (ip_classes p) (dget_list i (ip_inline p))
        /\ forall f ds', In (SelSpread f ds') m -> In f (dget_list i (ip_bases p)))
  /\ (forall i f ds u k, In (SelSpread f ds) pre -> dget f (r_ufrag r0) = Some u -> dget i u = Some k -> In k (dget_list i (ip_bases p))).
Lemma union_fragment_walk : forall cls sels r0 r p r', fsame r0 r -> r_ufrag r = r_ufrag r0 ->
  walk (union_fragment_item c st s cls) (Some sels) (IParts [] [] [] []) r = (Ok p, r') -> ufrag_inv r0 sels p r'.
Proof.
  intros cls sels r0 r p r' F U H. unfold walk in H. eapply (mfold_ok _ (ufrag_inv r0)) in H; [exact H| |].
  { split; [exact F|]. split; [exact U|]. split; [intros i ds m []|intros i f ds u k []]. }
  clear H F U r r' p. intros pre x post p r p' r' _ (F & U & I & S) Hx.
  assert (KEEP : forall y r1 q, fsame r0 r1 -> r_ufrag r1 = r_ufrag r0 -> incl (ip_classes p) (ip_classes q) ->
    (forall i, incl (dget_list i (ip_inline p)) (dget_list i (ip_inline q))) -> (forall i, incl (dget_list i (ip_bases p)) (dget_list i (ip_bases q))) ->
    (forall i ds m, y = SelInline (Some i) ds m -> calls c st s r0 i m (ip_classes q) (dget_list i (ip_inline q))
        /\ forall f ds', In (SelSpread f ds') m -> In f (dget_list i (ip_bases q))) ->
    (forall i f ds u k, y = SelSpread f ds -> dget f (r_ufrag r0) = Some u -> dget i u = Some k -> In k (dget_list i (ip_bases q))) ->
    ufrag_inv r0 (pre ++ [y]) q r1).
  { intros y r1 q F1 U1 Hc Hi Hb Hy Hz. split; [exact F1|]. split; [exact U1|]. split.
    - intros i ds m Hin. apply in_app_iff in Hin as [Hin|[E|[]]]; [|eauto]. destruct (I i ds m Hin) as [A B]. split.
      + eapply calls_mono; [exact Hc|apply Hi|exact A].
      + intros f ds' Hf. apply Hb. eauto.
    - intros i f ds u k Hin Hu Hk. apply in_app_iff in Hin as [Hin|[E|[]]]; [|eauto]. apply Hb. eauto. }
  destruct (is_typename_field x) eqn:T.
  { apply ret_ok in Hx as [-> ->]. apply typename_field in T as (g & ->).
    apply KEEP; [exact F|exact U|apply incl_refl|intros; apply incl_refl|intros; apply incl_refl|discriminate|discriminate]. }
  destruct x as [g|f ds|cond ds m]; cbn [union_fragment_item] in Hx; [discriminate| |].
  - apply bind_ok in Hx as (u & r1 & H1 & Hx). apply ret_ok in Hx as [-> ->]. unfold get_union_fragment_members in H1. minv.
    apply KEEP; [exact F|exact U|apply incl_refl|intros; apply incl_refl|intros; apply fold_dextend_incl|discriminate|].
    intros i f' ds' u' k [= <- <-] Hu Hk. cbn [ip_bases]. apply fold_dextend_In. apply dget_Some_In. congruence.
  - apply bind_ok in Hx as (on & r1 & H1 & Hx). apply from_opt_ok in H1 as [-> ->].
    apply bind_ok in Hx as ([[classes bases] body] & r2 & H2 & Hx). apply ret_ok in Hx as [-> ->].
    assert (U2 : r_ufrag r2 = r_ufrag r).
    { eapply ev_ufrag; [|exact H2]. apply ev_mfold. intros [[? ?] ?] y _. destruct y; cbn [union_inline]; ev_tac. }
    eapply (union_inline_walk _ _ _ r0) in H2 as (F2 & C & S2); [|exact F].
    apply KEEP; [exact F2|congruence|apply incl_appl, incl_refl|intros; apply dextend_incl|intros; apply dextend_incl| |discriminate].
    intros i ds' m' [= -> <- <-]. cbn [ip_classes ip_inline ip_bases]. split.
    + eapply calls_mono; [| |exact C]; [apply incl_appr, incl_refl|]. intros y Hy. now apply dextend_In.
    + intros f ds' Hf. apply dextend_In. eauto.
Qed.
Lemma union_fragment_shape : forall f d ms r l r',
  union_fragment c st s pc f d ms r = (Ok l, r') ->
  fsame r r' /\ exists ufs, dget (fr_name f) (r_ufrag r') = Some ufs
    /\ union_fragment_ok st s r (c_create_catchall c) l ms (fr_sels f) ufs.
Proof.
  intros f d ms r l r' H. unfold union_fragment in H. cbn zeta in H.
  apply bind_ok in H as (ad & r1 & H1 & H). apply bind_ok in H as (p & r2 & H2 & H). apply bind_ok in H as (cl & r3 & H3 & H).
  apply bind_ok in H as (u & r4 & H4 & H). apply bind_ok in H as (u2 & r5 & H5 & H). apply ret_ok in H as [-> ->].
  assert (F1 : fsame r r1) by (eapply (ev_fsame st); [|exact H1]; ev_tac).
  assert (U1 : r_ufrag r1 = r_ufrag r) by (eapply ev_ufrag; [|exact H1]; ev_tac).
  eapply union_fragment_walk in H2; [|exact F1|exact U1]. destruct H2 as (F2 & U2 & I & S).
  unfold register_union_fragment_members in H4. cbv [modify] in H4. injection H4 as _ <-.
  set (base := style_fragment_class st (fr_name f)) in *.
  assert (F3 : fsame r2 r3).
  { eapply (ev_fsame st); [|exact H3]. apply ev_mmap. intros i _. unfold get_fragment_bases. ev_tac. }
  split.
  { eapply fsame_trans; [exact F2|]. eapply fsame_trans; [exact F3|]. eapply (fsame_trans _ (with_ufrag _ r3)); [|eapply (ev_fsame st); [|exact H5]; ev_one].
    repeat split. }
  assert (U5 : r_ufrag r5 = r_ufrag (with_ufrag (dset (fr_name f) (fold_left (fun m i => dset i (base +s+ i) m) ms []) (r_ufrag r3)) r3)) by (eapply ev_ufrag; [|exact H5]; ev_one). cbn [with_ufrag r_ufrag] in U5.
  eexists. split; [rewrite U5, dget_dset, String.eqb_refl; reflexivity|].
  intros i Hi. eapply (mmap_inv _ (fun _ => True)) with (Q := fun i x => exists fb t ra rb, generate_typename_field c i ra = (Ok t, rb) /\
    x = SClass (base +s+ i) (map EName (dget_list i (ip_bases p)) ++ fb) (t :: dget_list i (ip_inline p)) []) in H3 as [_ H3]; [|exact Logic.I|].
  - assert (G : exists x, In x cl /\ exists fb t ra rb, generate_typename_field c i ra = (Ok t, rb) /\
      x = SClass (base +s+ i) (map EName (dget_list i (ip_bases p)) ++ fb) (t :: dget_list i (ip_inline p)) []).
    { clear -H3 Hi. induction H3 as [|j x ms l Hx H IH]; [contradiction|]. destruct Hi as [->|Hi].
      - exists x. split; [now left|assumption].
      - destruct (IH Hi) as (y & Hy & Hb). exists y. split; [now right|assumption]. }
    destruct G as (x & Hx & fb & t & ra & rb & Ht & ->). do 3 eexists. split; [apply in_or_app; right; apply in_or_app; left; exact Hx|].
    split; [apply (fold_dset_get (fun j => base +s+ j)); auto|]. split; [eapply typename_field_ok; [exact Ht|now left]|]. split.
    + intros ds m Hin. destruct (I i ds m Hin) as [A B]. split.
      * apply calls_all. eapply calls_mono; [| |exact A]; [apply incl_appl, incl_refl|apply incl_tl, incl_refl].
      * intros g ds' Hg. apply in_or_app. left. apply in_map. eauto.
    + intros g ds v k Hg Hu Hk. apply in_or_app. left. apply in_map. eauto.
  - intros j ra x rb _ _ Hx. split; [exact Logic.I|]. apply bind_ok in Hx as (fb & rc & Ha & Hx). apply bind_ok in Hx as (t & rd & Hb & Hx).
    apply ret_ok in Hx as [-> ->]. do 4 eexists. split; [exact Hb|reflexivity].
Qed.
Lemma fragment_C45 : forall f r l r', generate_fragment c st s pc pf add f r = (Ok l, r') ->
  exists t rm cls, get_type s (fr_on f) = Some t
    /\ r_frags rm = r_frags r' /\ r_fragtypes rm = r_fragtypes r' /\ r_iffrag rm = r_iffrag r /\ r_ufrag rm = r_ufrag r
    /\ dget (fr_name f) (r_fragtypes r') = Some (fr_on f) /\ dget (fr_name f) (r_frags r') = Some cls
    /\ match t with
       | TObject _ _ _ _ => object_fragment_ok st s rm (c_create_catchall c) l (fr_on f) (fr_sels f) cls
       | TInterface _ _ _ => exists ifs, dget (fr_name f) (r_iffrag r') = Some ifs
                             /\ interface_fragment_ok st s rm (c_create_catchall c) l (fr_on f) (fr_sels f) ifs
       | TUnion _ ms => exists ufs, dget (fr_name f) (r_ufrag r') = Some ufs
                        /\ union_fragment_ok st s rm (c_create_catchall c) l ms (fr_sels f) ufs
       | _ => False
       end.
Proof.
  intros f r l r' H. unfold generate_fragment in H. apply bind_ok in H as (t & r1 & H1 & H). apply from_opt_ok in H1 as [HT ->].
  apply bind_ok in H as (name & r1 & H1 & H). apply bind_ok in H as (u & r2 & H2 & H). apply bind_ok in H as (u2 & rm & H3 & H).
  assert (K : r_iffrag rm = r_iffrag r /\ r_ufrag rm = r_ufrag r /\ dget (fr_name f) (r_frags rm) = Some name /\ dget (fr_name f) (r_fragtypes rm) = Some (fr_on f)).
  { unfold register_fragment_type in H3. cbv [modify] in H3. injection H3 as _ <-.
    unfold register_fragment_document in H2. unfold generate_fragment_class, generate_in in H1. minv.
    cbn. rewrite !dget_dset, !String.eqb_refl. auto. }
  destruct K as (K1 & K2 & K3 & K4). exists t, rm, name. split; [exact HT|].
  destruct t as [d|d vs|d i fs dirs|d i fs|d ms|]; try discriminate.
  - apply object_fragment_shape in H as [(A1 & A2 & A3 & A4) H]. rewrite A1, A4. auto 10.
  - eapply interface_fragment_shape in H as (ifs & E & A1 & A2 & H); [|exact HT]. rewrite A1, A2. do 6 (split; [auto|]). eauto.
  - apply union_fragment_shape in H as ((A1 & A2 & A3 & A4) & ufs & E & H). rewrite A1, A4. do 6 (split; [auto|]). eauto.
Qed.
End Frags.
