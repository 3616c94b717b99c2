(** Classes, unions and the whole input plugin. *)
From Verif Require Import Base PyAst Gql Config Stylers Registry Utils Referencer Enums Inputs
  Spec_Types Spec_Inputs P_Base P_Monad P_Types P_Inputs.

(** ** classes *)
Lemma class_fields_app : forall a b, class_fields (a ++ b) = class_fields a ++ class_fields b.
Proof. intros; apply flat_map_app. Qed.
Lemma config_no_fields : forall k c t r l r', generate_pydantic_config k c t r = (Ok l, r') ->
  class_fields l = [].
Proof.
  intros k c t r l r' H. unfold generate_pydantic_config, generate_config_dict, generate_config_class_pydantic in H.
  destruct (String.eqb _ _).
  - destruct (freeze_kws k c t ++ _); minv; reflexivity.
  - minv. destruct (freeze_kws k c t ++ _); reflexivity.
Qed.
Lemma concat_fields : forall (ll : list (list stmt)), class_fields (concat ll) = concat (map class_fields ll).
Proof. induction ll as [|l ll IH]; cbn [concat map]; [reflexivity|]. now rewrite class_fields_app, IH. Qed.
Lemma Forall2_filter_concat : forall {A B} (p : A -> bool) (Q : A -> B -> Prop) l (ll : list (list B)),
  Forall2 (fun x ys => if p x then ys = [] else exists y, ys = [y] /\ Q x y) l ll ->
  Forall2 Q (filter (fun x => negb (p x)) l) (concat ll).
Proof.
  intros A B p Q l ll H. induction H as [|x ys l ll Hx _ IH]; cbn; [constructor|].
  destruct (p x); cbn; [subst; exact IH|]. destruct Hx as (y & -> & Hy). now constructor.
Qed.
Lemma Forall2_map_r : forall {A B C} (Q : A -> C -> Prop) (f : B -> C) l m,
  Forall2 (fun x y => Q x (f y)) l m -> Forall2 Q l (map f m).
Proof. intros A B C Q f l m H. induction H; cbn; constructor; auto. Qed.
Lemma Forall2_map_l : forall {A B C} (Q : C -> B -> Prop) (f : A -> C) l m,
  Forall2 (fun x y => Q (f x) y) l m -> Forall2 Q (map f l) m.
Proof. intros A B C Q f l m H. induction H; cbn; constructor; auto. Qed.
Lemma Forall2_weaken : forall {A B} (P Q : A -> B -> Prop) l m, Forall2 P l m -> (forall x y, In x l -> P x y -> Q x y) -> Forall2 Q l m.
Proof.
  intros A B P Q l m H. induction H; intros HQ; constructor; [apply HQ; [now left|assumption]|].
  apply IHForall2. intros; apply HQ; [now right|assumption].
Qed.


(** ** unionElementOf directives *)
Lemma dget_app : forall {A} k (a b : dict A), dget k (a ++ b) = match dget k a with Some v => Some v | None => dget k b end.
Proof. intros A k a b. induction a as [|[k' v] a IH]; cbn; [reflexivity|]. destruct (String.eqb k k'); auto. Qed.
Lemma dget_dict_of : forall {A} (l : list (string * A)) k, dget k (dict_of l) = dget k (rev l).
Proof.
  intros A l k. unfold dict_of.
  assert (G : forall acc, dget k (fold_left (fun acc kv => dset (fst kv) (snd kv) acc) l acc)
              = match dget k (rev l) with Some v => Some v | None => dget k acc end).
  { induction l as [|[k' v] l IH]; intros acc; cbn; [reflexivity|]. rewrite IH, dget_app, dget_dset. cbn.
    destruct (dget k (rev l)); [reflexivity|]. now destruct (String.eqb k k'). }
  rewrite G. now destruct (dget k (rev l)).
Qed.
Lemma rmap_Forall2 : forall {A B} (f : A -> res B) l ys, rmap f l = Ok ys -> Forall2 (fun x y => f x = Ok y) l ys.
Proof.
  intros A B f l. induction l as [|x l IH]; intros ys H; cbn in H; [injection H as <-; constructor|].
  destruct (f x) eqn:E; [|discriminate]. cbn in H. destruct (rmap f l) eqn:R; [|discriminate].
  cbn in H. injection H as <-. constructor; [exact E|]. now apply IH.
Qed.
Lemma rfold_ok : forall {A S} (f : A -> S -> res S) (P : list A -> S -> Prop) l s s',
  rfold f l s = Ok s' -> P [] s ->
  (forall pre x post s s1, l = pre ++ x :: post -> P pre s -> f x s = Ok s1 -> P (pre ++ [x]) s1) -> P l s'.
Proof.
  intros A S f P l s s' H H0 HS.
  assert (G : forall suf pre s, l = pre ++ suf -> P pre s -> rfold f suf s = Ok s' -> P l s').
  { induction suf as [|x suf IH]; intros pre s0 E HP HF; cbn in HF.
    - injection HF as <-. now rewrite E, app_nil_r.
    - destruct (f x s0) as [s1|] eqn:F; [|discriminate]. cbn in HF.
      apply (IH (pre ++ [x]) s1); [now rewrite <- app_assoc|eapply HS; eassumption|exact HF]. }
  exact (G l [] s eq_refl H0 H).
Qed.
Lemma arg_value_text : forall v x, arg_value v = Ok x -> arg_text v = Some x.
Proof. intros [] x H; cbn in *; try discriminate; try congruence; destruct b; congruence. Qed.
Lemma args_dir_arg : forall d args n v,
  rmap (fun kv => let? v := arg_value (snd kv) in Ok (fst kv, v)) (dir_args d) = Ok args ->
  dget n (dict_of args) = Some v -> dir_arg d n = Some v.
Proof.
  intros d args n v H Hg. rewrite dget_dict_of in Hg. unfold dir_arg. apply rmap_Forall2 in H.
  assert (R : Forall2 (fun kv kv' => fst kv = fst kv' /\ arg_value (snd kv) = Ok (snd kv')) (rev (dir_args d)) (rev args)).
  { assert (F : Forall2 (fun kv kv' => fst kv = fst kv' /\ arg_value (snd kv) = Ok (snd kv')) (dir_args d) args).
    { clear Hg. induction H as [|x y l m E _ IH]; constructor; [|exact IH].
      destruct (arg_value (snd x)) eqn:V; [|discriminate]. cbn in E. injection E as <-. auto. }
    clear - F. induction F as [|x y l m E _ IH]; cbn; [constructor|]. apply Forall2_app; [exact IH|now constructor]. }
  clear H. induction R as [|[k x] [k' y] l m [E1 E2] _ IH]; cbn in *; [discriminate|]. subst k'.
  destruct (String.eqb n k); [|now apply IH]. injection Hg as ->. now apply arg_value_text.
Qed.

(** the names of the referenced input types, if any are skipped *)
Definition refd (rf : option refs) : option (list string) := option_map rf_inputs rf.
Lemma wanted_dec : forall rf u,
  match rf with Some r => negb (mem u (rf_inputs r)) | None => false end = false <-> wanted (refd rf) u.
Proof.
  intros [r|] u; unfold wanted, refd; cbn.
  - rewrite negb_false_iff, mem_In. split; [intros H l [= <-]; exact H|auto].
  - split; [discriminate|reflexivity].
Qed.
Lemma read_spec : forall rf dirs discr0 ms discr,
  rfold (read_membership rf) dirs ([], discr0) = Ok (ms, discr) ->
  (forall u dn k, In (Membership u dn k) ms <-> belongs dirs u dn k /\ wanted (refd rf) u)
  /\ dle discr0 discr
  /\ (forall m, In m ms -> dget (mb_union m) discr = Some (mb_discr m))
  /\ (forall u dn, dget u discr = Some dn -> dget u discr0 = Some dn \/ exists k, In (Membership u dn k) ms).
Proof.
  intros rf dirs discr0 ms discr H.
  pose (P := fun (pre : list directive) (st : list membership * dict string) =>
    (forall u dn k, In (Membership u dn k) (fst st) <-> belongs pre u dn k /\ wanted (refd rf) u)
    /\ dle discr0 (snd st)
    /\ (forall m, In m (fst st) -> dget (mb_union m) (snd st) = Some (mb_discr m))
    /\ (forall u dn, dget u (snd st) = Some dn -> dget u discr0 = Some dn \/ exists k, In (Membership u dn k) (fst st))).
  apply (rfold_ok _ P) in H; [exact H| |]; clear H.
  - unfold P; cbn. repeat split; try contradiction; auto using dle_refl.
    intros [(d & [] & _) _].
  - intros pre d post [ms0 discr1] st1 _ (P1 & P2 & P3 & P4) H. cbn [fst snd] in *.
    assert (BA : forall u dn k, belongs (pre ++ [d]) u dn k <-> belongs pre u dn k \/ belongs [d] u dn k).
    { intros u dn k. unfold belongs. split.
      - intros (x & Hx & R). apply in_app_or in Hx. destruct Hx; [left|right]; eauto.
      - intros [(x & Hx & R)|(x & Hx & R)]; exists x; (split; [apply in_or_app; auto|exact R]). }
    cbn in H. destruct (String.eqb_spec (dir_name d) "unionElementOf") as [E|E]; cbn [negb] in H.
    2: { injection H as <-. unfold P; cbn [fst snd]. split; [|auto]. intros u dn k. rewrite P1, BA.
         split; [tauto|]. intros [[B|(x & [<-|[]] & N & _)] W]; [tauto|contradiction]. }
    destruct (rmap _ (dir_args d)) as [args|] eqn:R; [|discriminate]. cbn [rbind] in H.
    destruct (dget "union" (dict_of args)) as [u0|] eqn:U; [|discriminate].
    destruct (dget "discriminator" (dict_of args)) as [d0|] eqn:D; [|discriminate].
    destruct (dget "key" (dict_of args)) as [k0|] eqn:K; [|discriminate].
    eapply args_dir_arg in U; [|exact R]. eapply args_dir_arg in D; [|exact R]. eapply args_dir_arg in K; [|exact R].
    assert (B1 : forall u dn k, belongs [d] u dn k <-> u = u0 /\ dn = d0 /\ k = k0).
    { intros u dn k. split.
      - intros (x & [<-|[]] & _ & Q1 & Q2 & Q3). repeat split; congruence.
      - intros (-> & -> & ->). exists d; cbn; auto 6. }
    destruct (match rf with Some r => negb (mem u0 (rf_inputs r)) | None => false end) eqn:W.
    { injection H as <-. unfold P; cbn [fst snd]. split; [|auto]. intros u dn k. rewrite P1, BA, B1. split; [tauto|].
      intros [[B|(-> & _)] HW]; [tauto|]. apply wanted_dec in HW. congruence. }
    apply wanted_dec in W.
    assert (PP : forall discr2, dle discr1 discr2 -> dget u0 discr2 = Some d0 ->
      (forall u dn, dget u discr2 = Some dn -> dget u discr1 = Some dn \/ (u = u0 /\ dn = d0)) ->
      P (pre ++ [d]) (ms0 ++ [Membership u0 d0 k0], discr2)).
    { intros discr2 L G2 G3. unfold P; cbn [fst snd]. repeat split.
      - apply BA. apply in_app_or in H0. destruct H0 as [H0|[[= <- <- <-]|[]]]; [left; now apply P1 in H0|].
        right; now apply B1.
      - apply in_app_or in H0. destruct H0 as [H0|[[= <- <- <-]|[]]]; [now apply P1 in H0|exact W].
      - intros [HB HW]. apply in_or_app. apply BA in HB. destruct HB as [HB|HB]; [left; apply P1; auto|].
        apply B1 in HB. destruct HB as (-> & -> & ->). right; now left.
      - eapply dle_trans; eassumption.
      - intros m Hm. apply in_app_or in Hm. destruct Hm as [Hm|[<-|[]]]; [now apply L, P3|exact G2].
      - intros u dn Hg. apply G3 in Hg. destruct Hg as [Hg|[-> ->]].
        + apply P4 in Hg. destruct Hg as [Hg|(k & Hk)]; [auto|]. right; exists k. apply in_or_app; auto.
        + right; exists k0. apply in_or_app; right; now left. }
    destruct (dget u0 discr1) as [dn'|] eqn:G1.
    + destruct (String.eqb_spec dn' d0) as [->|]; [|discriminate]. injection H as <-.
      apply PP; auto using dle_refl.
    + injection H as <-. apply PP; [now apply dle_dset|rewrite dget_dset; now rewrite String.eqb_refl|].
      intros u dn Hg. rewrite dget_dset in Hg. destruct (String.eqb_spec u u0); [right; split; congruence|auto].
Qed.
Lemma collect_spec : forall ms ds, collect_discriminators ms = Ok ds ->
  NoDup (dkeys ds) /\ (forall dn k, In (dn, k) ds <-> exists u, In (Membership u dn k) ms).
Proof.
  intros ms ds H. unfold collect_discriminators in H.
  pose (P := fun (pre : list membership) (d : dict string) =>
    NoDup (dkeys d) /\ (forall dn k, In (dn, k) d <-> exists u, In (Membership u dn k) pre)).
  apply (rfold_ok _ P) in H; [exact H| |]; clear H.
  - split; [constructor|]. cbn. intros; split; [contradiction|intros (u & [])].
  - intros pre [u0 d0 k0] post d d1 _ [P1 P2] H. cbn in H.
    assert (E : d1 = dset d0 k0 d /\ (forall v, dget d0 d = Some v -> v = k0)).
    { destruct (dget d0 d) as [v|]; [destruct (String.eqb_spec v k0); [|discriminate]|]; injection H as <-;
        split; congruence. }
    destruct E as [-> E]. split; [now apply dset_NoDup|]. intros dn k.
    assert (ND := dset_NoDup d0 k0 d P1).
    split.
    + intros Hin. apply (dget_In_NoDup _ _ _ ND) in Hin. rewrite dget_dset in Hin.
      destruct (String.eqb_spec dn d0) as [->|]; [injection Hin as <-; exists u0; apply in_or_app; right; now left|].
      apply dget_Some_In, P2 in Hin. destruct Hin as (u & Hu). exists u; apply in_or_app; auto.
    + intros (u & Hu). apply dget_Some_In. rewrite dget_dset. apply in_app_or in Hu.
      destruct Hu as [Hu|[[= <- <- <-]|[]]]; [|now rewrite String.eqb_refl].
      assert (Hd : In (dn, k) d) by (apply P2; eauto). apply (dget_In_NoDup _ _ _ P1) in Hd.
      destruct (String.eqb_spec dn d0) as [->|]; [|exact Hd]. f_equal; symmetry; auto.
Qed.
Lemma add_member_spec : forall name ms unions,
  (forall u l, dget u unions = Some l -> NoDup l /\ l <> []) ->
  let un := fold_left (add_member name) ms unions in
  (forall u l, dget u un = Some l -> NoDup l /\ l <> [])
  /\ (forall u n, (exists l, dget u un = Some l /\ In n l) <->
        (exists l, dget u unions = Some l /\ In n l) \/ (n = name /\ exists m, In m ms /\ mb_union m = u))
  /\ (forall u, dget u un <> None <-> dget u unions <> None \/ exists m, In m ms /\ mb_union m = u).
Proof.
  intros name ms. induction ms as [|m ms IH]; intros unions ND un; cbn [fold_left] in un.
  - subst un. split; [exact ND|]. split; intros; (split; [auto|]).
    + intros [H|(_ & m & [] & _)]; exact H.
    + intros [H|(m & [] & _)]; exact H.
  - set (l0 := match dget (mb_union m) unions with Some l => l | None => [] end).
    set (l1 := if mem name l0 then l0 else l0 ++ [name]).
    assert (G : forall u, dget u (add_member name unions m) = if String.eqb u (mb_union m) then Some l1 else dget u unions).
    { intros u. unfold add_member. rewrite dget_dset. reflexivity. }
    assert (N0 : NoDup l0) by (unfold l0; destruct (dget (mb_union m) unions) eqn:E; [apply (ND _ _ E)|constructor]).
    assert (N1 : NoDup l1) by (unfold l1; destruct (mem_spec name l0); [exact N0|now apply NoDup_snoc]).
    assert (I1 : forall n, In n l1 <-> n = name \/ In n l0).
    { intros n. unfold l1. destruct (mem_spec name l0) as [Hi|Hi]; [|rewrite in_app_iff; cbn; intuition].
      split; [auto|]. intros [->|]; auto. }
    destruct (IH (add_member name unions m)) as (H1 & H2 & H3).
    { intros u l Hg. rewrite G in Hg. destruct (String.eqb u (mb_union m)); [|eapply ND; eassumption].
      injection Hg as <-. split; [exact N1|]. intros E. specialize (I1 name). rewrite E in I1. cbn in I1. tauto. }
    fold un in H1, H2, H3. split; [exact H1|]. split.
    + intros u n. rewrite H2. split.
      * intros [(l & Hg & Hl)|(-> & m' & Hm & E)]; [|right; split; [reflexivity|]; exists m'; split; [now right|exact E]].
        rewrite G in Hg. destruct (String.eqb_spec u (mb_union m)) as [->|]; [|left; eauto].
        injection Hg as <-. apply I1 in Hl. destruct Hl as [->|Hl]; [right; split; [reflexivity|exists m; split; [now left|reflexivity]]|].
        left. unfold l0 in Hl. destruct (dget (mb_union m) unions) as [l|]; [eauto|contradiction].
      * intros [(l & Hg & Hl)|(-> & m' & [<-|Hm] & E)].
        -- left. rewrite G. destruct (String.eqb_spec u (mb_union m)) as [->|]; [|eauto].
           exists l1; split; [reflexivity|]. apply I1. right. unfold l0. now rewrite Hg.
        -- left. rewrite G, <- E, String.eqb_refl. exists l1; split; [reflexivity|]. apply I1; auto.
        -- right; split; [reflexivity|]; exists m'; auto.
    + intros u. rewrite H3, G. destruct (String.eqb_spec u (mb_union m)) as [->|N].
      * split; [|left; discriminate]. intros _. right; exists m; split; [now left|reflexivity].
      * split; [intros [H|(m' & Hm & E)]; [auto|right; exists m'; split; [now right|exact E]]|].
        intros [H|(m' & [<-|Hm] & E)]; [auto|congruence|right; eauto].
Qed.

Section Inputs2.
Variables (c : gconfig) (st : list styler) (pc : inputs_config) (s : schema).
Hypothesis HB : no_helper_enum s.
Let good (sc : dict string) (r : reg) : Prop := r_scalars r = sc /\ names_styled st r.

Lemma input_class_spec : forall key desc fields bases ds r cls r',
  names_styled st r ->
  input_class c st pc s (style_with sty_input st key) key desc fields bases ds r = (Ok cls, r') ->
  represents_input (tuple_for_inputs c) (input_leaf s (r_scalars r) st) st key
    (map (fun d => (di_name d, di_value d)) ds) fields cls.
Proof.
  intros key desc fields bases ds r cls r' HN H. unfold input_class in H.
  apply bind_ok in H. destruct H as (dfs & r1 & H1 & H).
  apply bind_ok in H. destruct H as (fs & r2 & H2 & H). cbn zeta in H.
  apply bind_ok in H. destruct H as (cf & r3 & H3 & H). apply ret_ok in H. destruct H as [-> ->].
  assert (E1 : ev st [KImp] (mmap discriminator_field ds)) by ev_tac.
  destruct (ev_scalars st [KImp] _ _ _ _ E1 ltac:(nosca) H1 HN) as [S1 N1].
  pose proof (config_no_fields _ _ _ _ _ _ H3) as C.
  set (post := match ds with [] => [] | _ => if String.eqb (c_pydantic_version c) "v2" then [post_init ds] else [] end).
  assert (P : class_fields post = []) by (unfold post; destruct ds; [reflexivity|]; destruct (String.eqb _ _); reflexivity).
  exists (bases ++ input_bases pc), (class_doc desc :: dfs ++ fs ++ post ++ cf), [], (class_fields dfs), (class_fields fs).
  split; [reflexivity|]. split.
  { change (class_doc desc :: dfs ++ fs ++ post ++ cf) with ([class_doc desc] ++ dfs ++ fs ++ post ++ cf).
    rewrite !class_fields_app, P, C, !app_nil_r. reflexivity. }
  split.
  - assert (D : Forall2 (fun d y => exists fld, y = SAnn (fst (fst fld)) (snd (fst fld)) (snd fld)
        /\ literal_field (di_name d, di_value d) fld) ds dfs).
    { eapply (mmap_inv _ (fun _ => True)); [exact H1|exact I|]. intros d ra y rb _ _ Hd. split; [exact I|].
      unfold discriminator_field in Hd. minv. eexists (_, _, _); cbn; split; [reflexivity|reflexivity]. }
    clear - D. induction D as [|d y ds dfs (fld & -> & Hf) _ IH]; cbn; [constructor|].
    constructor; [|exact IH]. now destruct fld as [[? ?] ?].
  - apply mconcat_ok in H2. destruct H2 as (yss & H2 & ->). rewrite concat_fields.
    rewrite map_map. cbn [fst]. change (map (fun x : discriminator => di_name x)) with (map di_name).
    set (p := fun kv : string * inputfield => mem (generate_node_name st (fst kv)) (map di_name ds)).
    apply (Forall2_filter_concat p). apply Forall2_map_r.
    eapply (mmap_inv _ (good (r_scalars r))); [exact H2|split; [assumption|assumption]|].
    intros kv ra ys rb _ [G1 G2] Hkv. unfold p in *. destruct (mem _ _).
    + minv. split; [split; assumption|reflexivity].
    + pose proof (ev_scalars st input_kinds _ _ _ _ (ev_generate_input_field c st s _ _ _) ltac:(nosca) Hkv G2) as [G3 G4].
      split; [split; congruence|]. destruct (input_field_spec _ _ _ _ _ _ _ _ _ HB G2 Hkv) as (fld & F1 & _ & F2).
      exists fld. rewrite G1 in F2. auto.
Qed.
End Inputs2.
