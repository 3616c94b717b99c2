(** The classes generated for a selection carry the selected fields. *)
From Coq Require Import Lia.
From Verif Require Import Base PyAst Gql Config Stylers Registry Utils Documents Inline Inputs Recurse Fragments Operations
  Spec_Types Spec_Inputs Spec_Annot Spec_Fields Spec_Selection P_Base P_Gql P_Monad P_Types P_Inputs P_Annot P_Recurse P_Fields P_Selection.

(** ** dict (list A) *)
Lemma dget_list_dextend : forall {A} k k' (l : list A) d,
  dget_list k (dextend k' l d) = if String.eqb k k' then dget_list k d ++ l else dget_list k d.
Proof.
  intros A k k' l d. unfold dget_list, dextend. destruct (String.eqb k k') eqn:E.
  - apply String.eqb_eq in E. subst k'. destruct (dget k d) eqn:G; rewrite dget_dset, String.eqb_refl; reflexivity.
  - destruct (dget k' d) eqn:G; rewrite dget_dset, E; reflexivity.
Qed.
Lemma dextend_incl : forall {A} k k' (l : list A) d, incl (dget_list k d) (dget_list k (dextend k' l d)).
Proof. intros. rewrite dget_list_dextend. destruct (String.eqb k k'); [apply incl_appl|]; apply incl_refl. Qed.
Lemma dextend_In : forall {A} k (l : list A) d x, In x l -> In x (dget_list k (dextend k l d)).
Proof. intros. rewrite dget_list_dextend, String.eqb_refl. apply in_or_app. now right. Qed.
Lemma fold_dextend_incl : forall {A} (m : list (string * A)) d k,
  incl (dget_list k d) (dget_list k (fold_left (fun b kv => dextend (fst kv) [snd kv] b) m d)).
Proof.
  induction m as [|[i x] m IH]; intros d k; [apply incl_refl|]. cbn [fold_left]. eapply incl_tran; [|apply IH]. apply dextend_incl.
Qed.
Lemma fold_dextend_In : forall {A} (m : list (string * A)) d i x, In (i, x) m ->
  In x (dget_list i (fold_left (fun b kv => dextend (fst kv) [snd kv] b) m d)).
Proof.
  induction m as [|[j y] m IH]; intros d i x H; [contradiction|]. cbn [fold_left]. destruct H as [[= -> ->]|H].
  - apply fold_dextend_incl. cbn [fst snd]. apply dextend_In. now left.
  - now apply IH.
Qed.

(** ** values that contain an instance of a class *)
Lemma occurs_seq : forall k tup l x, In x l -> occurs_in k x -> occurs_in k (JSeq tup l).
Proof.
  intros k tup l x H Hx.  induction l as [|y l IH]; [contradiction|].
  destruct H as [->|H]; [left; exact Hx|right; exact (IH H)].
Qed.
Lemma holds_leaf : forall e L k, leaf_expr e L -> L k -> holds e k.
Proof. intros e L k [_ H] Hk. exists (JLeaf k). split; [apply H; eauto|reflexivity]. Qed.
Lemma holds_optional : forall e k, no_tuple e -> holds e k -> holds (optional_of e) k.
Proof. intros e k N (v & Ha & Ho). exists v. split; [|assumption]. rewrite accepts_optional by assumption. now right. Qed.
Lemma holds_seq : forall tup e k, no_tuple e -> holds e k -> holds (seq_of tup e) k.
Proof.
  intros tup e k N (v & Ha & Ho). exists (JSeq tup [v]). split; [|eapply occurs_seq; [left; reflexivity|assumption]].
  rewrite accepts_seq by assumption. eexists. split; [reflexivity|]. intros x [->|[]]. assumption.
Qed.
Lemma holds_same : forall a b k, (forall v, accepts a v <-> accepts b v) -> holds b k -> holds a k.
Proof. intros a b k H (v & Ha & Ho). exists v. split; [now apply H|assumption]. Qed.

Section Modelled.
Variable c : gconfig.
Variable st : list styler.
Variable s : schema.
Notation tfn := (type_field_node c st s).
(** the field was generated, its classes and statements are there *)
Definition called (r0 : reg) (g : fieldnode) (fd : fielddef) (classes body : list stmt) : Prop :=
  exists parent ra rb res, fsame r0 ra /\ tfn g parent fd ra = (Ok res, rb) /\ incl (fst res) classes /\ incl (snd res) body.
Lemma called_mono : forall r0 g fd cl cl' b b', incl cl cl' -> incl b b' -> called r0 g fd cl b -> called r0 g fd cl' b'.
Proof. intros r0 g fd cl cl' b b' H H' (p & ra & rb & res & F & E & I1 & I2). exists p, ra, rb, res. split; [assumption|]. split; [assumption|]. split; eapply incl_tran; eassumption. Qed.
(** all direct fields were *)
Definition calls (r0 : reg) (n : string) (sels : list selection) (classes body : list stmt) : Prop :=
  forall g, In (SelField g) sels -> fn_name g <> "__typename" ->
    exists fd, schema_field s n (fn_name g) fd /\ called r0 g fd classes body.
Lemma calls_nil : forall r0 n cl b, calls r0 n [] cl b.
Proof. intros r0 n cl b g []. Qed.
Lemma calls_mono : forall r0 n sels cl cl' b b', incl cl cl' -> incl b b' -> calls r0 n sels cl b -> calls r0 n sels cl' b'.
Proof. intros r0 n sels cl cl' b b' H H' C g Hg Hn. destruct (C g Hg Hn) as (fd & Hf & Hc). eauto using called_mono. Qed.
Lemma calls_skip : forall r0 n sels x cl b, calls r0 n sels cl b ->
  (forall g, x = SelField g -> fn_name g = "__typename") -> calls r0 n (sels ++ [x]) cl b.
Proof. intros r0 n sels x cl b C H g Hg Hn. apply in_app_iff in Hg as [Hg|[->|[]]]; [auto|]. exfalso. now apply Hn, H. Qed.
Lemma calls_add : forall r0 n sels g fd cl b cl' b', calls r0 n sels cl b -> incl cl cl' -> incl b b' ->
  schema_field s n (fn_name g) fd -> called r0 g fd cl' b' -> calls r0 n (sels ++ [SelField g]) cl' b'.
Proof.
  intros r0 n sels g fd cl b cl' b' C I1 I2 Hf Hc h Hg Hn. apply in_app_iff in Hg as [Hg|[[= ->]|[]]]; [|eauto].
  destruct (C h Hg Hn) as (fd' & Hf' & Hc'). eauto using called_mono.
Qed.
Lemma called_now : forall r0 r g p fd res r', fsame r0 r -> tfn g p fd r = (Ok res, r') -> forall cl b, called r0 g fd (cl ++ fst res) (b ++ snd res).
Proof. intros r0 r g p fd res r' F H cl b. exists p, r, r', res. split; [assumption|]. split; [assumption|]. split; apply incl_appr, incl_refl. Qed.
Lemma tfn_fsame : forall g p fd r res r', tfn g p fd r = (Ok res, r') -> fsame r r'.
Proof. intros g p fd r res r' H. eapply ev_fsame; [apply ev_type_field_node|exact H]. Qed.
Lemma is_typename_name : forall x g, is_typename_field x = true -> x = SelField g -> fn_name g = "__typename".
Proof. intros x g H ->. now apply String.eqb_eq in H. Qed.

(** ** objects *)
Definition object_inv (n : string) (r0 : reg) (b0 : list stmt) (pre : list selection) (acc : list stmt * list string * list stmt) (r : reg) : Prop :=
  let '(classes, bases, body) := acc in
  fsame r0 r /\ calls r0 n pre classes body /\ inherits_spreads r0 n pre (map EName bases)
  /\ (forall cond ds m, ~ In (SelInline cond ds m) pre) /\ incl b0 body.
Lemma impl_or_none : forall f n r i r', get_interface_fragment_implementation_or_none f n r = (Ok (Some i), r') ->
  exists m, dget f (r_iffrag r) = Some m /\ dget n m = Some i.
Proof.
  intros f n r i r' H. unfold get_interface_fragment_implementation_or_none in H. apply bind_ok in H as (m & r1 & H1 & H).
  apply gets_ok in H1 as [-> ->]. destruct (dget f (r_iffrag r)) as [impls|] eqn:E; [|discriminate].
  destruct (dget n impls) as [k|] eqn:En; [|minv; destruct (dget f (r_fragtypes r)); try discriminate; destruct (String.eqb _ _); discriminate].
  apply ret_ok in H as [[= ->] ->]. eauto.
Qed.
Lemma inherits_snoc : forall r0 n pre x bases bases', inherits_spreads r0 n pre bases -> incl bases bases' ->
  (forall f ds, x = SelSpread f ds -> exists k,
    (dget f (r_frags r0) = Some k \/ exists m, dget f (r_iffrag r0) = Some m /\ dget n m = Some k) /\ In (EName k) bases') ->
  inherits_spreads r0 n (pre ++ [x]) bases'.
Proof.
  intros r0 n pre x bases bases' H Hi Hx f ds Hf. apply in_app_iff in Hf as [Hf|[->|[]]].
  - destruct (H f ds Hf) as (k & Hk & Hb). exists k. auto.
  - eauto.
Qed.
Lemma no_inline_snoc : forall pre x, (forall cond ds m, ~ In (SelInline cond ds m) pre) ->
  (forall cond ds m, x <> SelInline cond ds m) -> forall cond ds m, ~ In (SelInline cond ds m) (pre ++ [x]).
Proof. intros pre x H Hx cond ds m Hin. apply in_app_iff in Hin as [Hin|[E|[]]]; [eapply H|eapply Hx]; eassumption. Qed.
Lemma map_incl : forall {A B} (f : A -> B) l l', incl l l' -> incl (map f l) (map f l').
Proof. intros A B f l l' H x Hx. apply in_map_iff in Hx as (y & <- & Hy). apply in_map. auto. Qed.
Lemma object_walk : forall n cls fields t r0 b0 sels r acc r', get_type s n = Some t -> output_fields t = Some fields -> fsame r0 r ->
  walk (object_item tfn n cls fields) sels ([], [], b0) r = (Ok acc, r') ->
  object_inv n r0 b0 (match sels with Some l => l | None => [] end) acc r'.
Proof.
  intros n cls fields t r0 b0 sels r acc r' HT HF F H.
  assert (B : object_inv n r0 b0 [] ([], [], b0) r).
  { split; [assumption|]. split; [apply calls_nil|]. split; [intros f ds []|]. split; [intros cond ds m []|apply incl_refl]. }
  destruct sels as [l|]; unfold walk in H; [|apply ret_ok in H as [-> ->]; exact B].
  eapply (mfold_ok _ (object_inv n r0 b0)) in H; [exact H|exact B|]. clear H B F r r' acc.
  intros pre x post [[classes bases] body] r [[classes' bases'] body'] r' _ (F & C & I & N & Ib) Hx.
  destruct (is_typename_field x) eqn:T.
  { apply ret_ok in Hx as [[= -> -> ->] ->]. assert (TF := T). apply typename_field in TF as (g & ->).
    split; [assumption|]. split; [apply calls_skip; [assumption|intros h E; eapply is_typename_name; eassumption]|].
    split; [eapply inherits_snoc; [eassumption|apply incl_refl|discriminate]|].
    split; [apply no_inline_snoc; [assumption|discriminate]|assumption]. }
  destruct x as [g|f ds|cond ds m]; cbn [object_item] in Hx; [| |discriminate].
  - change (is_typename_field (SelField g)) with (String.eqb (fn_name g) "__typename") in T. rewrite T in Hx.
    apply bind_ok in Hx as (fd & r1 & H1 & Hx). apply from_opt_ok in H1 as [E ->]. apply bind_ok in Hx as (res & r2 & H2 & Hx).
    apply ret_ok in Hx as [[= -> -> ->] ->]. assert (F2 := tfn_fsame _ _ _ _ _ _ H2).
    split; [eapply fsame_trans; eassumption|].
    split; [eapply calls_add; [eassumption|apply incl_appl, incl_refl|apply incl_appl, incl_refl|exists t, fields; split; [exact HT|split; [exact HF|exact E]]|eapply called_now; eassumption]|].
    split; [eapply inherits_snoc; [eassumption|apply incl_refl|discriminate]|].
    split; [apply no_inline_snoc; [assumption|discriminate]|now apply incl_appl].
  - apply bind_ok in Hx as (i & r1 & H1 & Hx). apply bind_ok in Hx as (b & r2 & H2 & Hx). apply ret_ok in Hx as [[= -> -> ->] ->].
    assert (G := H1). apply (impl_or_none_class st) in G as [-> _].
    assert (Hk : (dget f (r_frags r) = Some b \/ exists m, dget f (r_iffrag r) = Some m /\ dget n m = Some b) /\ r2 = r).
    { destruct i as [k|].
      - apply ret_ok in H2 as [-> ->]. apply impl_or_none in H1. auto.
      - unfold inherit_fragment in H2. minv. auto. }
    destruct Hk as [Hk ->]. destruct F as (F1 & F2 & F3 & F4).
    split; [repeat split; assumption|]. split; [apply calls_skip; [assumption|discriminate]|].
    split; [|split; [apply no_inline_snoc; [assumption|discriminate]|assumption]].
    eapply inherits_snoc; [eassumption|apply map_incl, incl_appl, incl_refl|]. intros f' ds' [= <- <-]. exists b.
    rewrite F1, F2 in Hk. split; [assumption|]. rewrite map_app. apply in_or_app. right. now left.
Qed.
Lemma typename_field_ok : forall n r t r', generate_typename_field c n r = (Ok t, r') -> forall body, In t body -> tagged body n.
Proof.
  intros n r t r' H body Hb. unfold generate_typename_field in H. minv. eexists. split.
  - apply in_flat_map. eexists. split; [exact Hb|]. left. reflexivity.
  - reflexivity.
Qed.
Lemma generic_typename_ok : forall r t r', generate_generic_typename_field c r = (Ok t, r') -> forall body, In t body -> any_tag body.
Proof.
  intros r t r' H body Hb. unfold generate_generic_typename_field in H. minv. eexists. split.
  - apply in_flat_map. eexists. split; [exact Hb|]. left. reflexivity.
  - reflexivity.
Qed.
(** what the annotation [e0] (before Optional) stands for *)
Definition object_shape (r0 : reg) (n : string) (sels : list selection) (classes : list stmt) (e0 : expr) : Prop :=
  (exists fr ds k, filter (fun x => negb (is_typename_field x)) sels = [SelSpread fr ds] /\ fragment_class st r0 fr k /\ holds e0 k)
  \/ exists cls bases body, In (SClass cls bases body []) classes /\ holds e0 cls /\ tagged body n
     /\ calls r0 n sels classes body /\ inherits_spreads r0 n sels bases /\ (forall cond ds m, ~ In (SelInline cond ds m) sels).
Lemma object_annotation_shape : forall parent target n d i fields dirs sels o r0 r res r',
  get_type s n = Some (TObject d i fields dirs) -> fsame r0 r ->
  object_annotation c st tfn parent target n d fields sels o r = (Ok res, r') ->
  exists e0, snd res = (if o then optional_of e0 else e0) /\ no_tuple e0
    /\ object_shape r0 n (match sels with Some l => l | None => [] end) (fst res) e0.
Proof.
  intros parent target n d i fields dirs sels o r0 r res r' HT F H. unfold object_annotation in H. cbn zeta in H.
  apply bind_ok in H as (t & r1 & H1 & H).
  assert (F1 : fsame r r1) by (eapply (ev_fsame st); [|exact H1]; ev_one).
  assert (G : (let* r := walk (object_item tfn n (parent +s+ py_capitalize target) fields) sels ([], [], [doc_stmt d; t]) in
      let '(classes, bases, body) := r in
      let* add := match bases with [] => get_additional_bases_for_type c n | _ => ret (map EName bases) end in
      let* cfg := generate_pydantic_config (KT KObject) c None in
      let* e := optional_if o (ret (EName (parent +s+ py_capitalize target))) in
      ret (classes ++ [SClass (parent +s+ py_capitalize target) (add ++ names_of (c_object_bases c)) (body ++ cfg) []], e)) r1 = (Ok res, r') ->
      exists e0, snd res = (if o then optional_of e0 else e0) /\ no_tuple e0
        /\ object_shape r0 n (match sels with Some l => l | None => [] end) (fst res) e0).
  { clear H. intros H. apply bind_ok in H as ([[classes bases] body] & r2 & H2 & H). apply bind_ok in H as (add & r3 & H3 & H).
    apply bind_ok in H as (cfg & r4 & _ & H). apply bind_ok in H as (e & r5 & H5 & H). apply ret_ok in H as [-> ->].
    apply (optional_if_ok st) in H5 as (rx & e0 & _ & H5 & ->). apply ret_ok in H5 as [-> ->].
    eapply (object_walk n) with (r0 := r0) in H2; [|exact HT|reflexivity|eapply fsame_trans; eassumption]. destruct H2 as (F2 & C & I & N & Ib).
    eexists. split; [reflexivity|]. split; [auto with nt|]. right. do 3 eexists. cbn [fst].
    split; [apply in_or_app; right; left; reflexivity|]. split; [eapply holds_leaf; [apply leaf_name|reflexivity]|].
    split; [eapply typename_field_ok; [exact H1|]; apply in_or_app; left; apply Ib; right; now left|].
    split; [eapply calls_mono; [| |exact C]; apply incl_appl, incl_refl|]. split; [|assumption].
    intros f ds Hf. destruct (I f ds Hf) as (k & Hk & Hb). exists k. split; [assumption|]. apply in_or_app. left.
    destruct bases as [|b bases]; [contradiction|]. apply ret_ok in H3 as [-> _]. exact Hb. }
  destruct (option_map non_typename sels) as [[|[g|f ds|cond ds m] [|y l]]|] eqn:E; try (apply G; exact H).
  clear G. apply bind_ok in H as (x & r2 & H2 & H). apply bind_ok in H as (e & r3 & H3 & H). apply bind_ok in H as (e' & r4 & H4 & H).
  apply ret_ok in H as [-> ->]. apply (optional_if_ok st) in H4 as (rx & e0 & _ & H4 & ->). apply ret_ok in H4 as [-> ->].
  apply (impl_or_none_class st) in H2 as [-> Hi].
  assert (Hk : exists k, (e = EName k \/ e = estr k) /\ fragment_class st r1 f k).
  { destruct x as [b|].
    - apply ret_ok in H3 as [-> ->]. eauto.
    - apply reference_generic_ok in H3. eexists. split; [exact H3|]. right. right. reflexivity. }
  destruct Hk as (k & Hk & Hf). exists e. split; [reflexivity|]. split; [destruct Hk as [->| ->]; auto with nt|].
  left. exists f, ds, k. split; [destruct sels as [l|]; [|discriminate]; now injection E as E|].
  split; [eapply fragment_class_same; [eapply fsame_trans; eassumption|exact Hf]|].
  destruct Hk as [->| ->]; [eapply holds_leaf; [apply leaf_name|reflexivity]|eapply holds_leaf; [apply leaf_str|reflexivity]].
Qed.

(** ** interfaces *)
Lemma inline_fields_ok : forall strict parent on sub r0 r acc r', fsame r0 r ->
  inline_fields s tfn strict parent on sub r = (Ok acc, r') ->
  fsame r0 r' /\ calls r0 on sub (fst acc) (snd acc).
Proof.
  intros strict parent on sub r0 r acc r' F H. unfold inline_fields in H.
  eapply (mfold_ok _ (fun pre acc r => fsame r0 r /\ calls r0 on pre (fst acc) (snd acc))) in H; [exact H|split; [assumption|apply calls_nil]|].
  clear H F r r' acc. intros pre x post acc r acc' r' _ [F C] H. destruct x as [g|f ds|cond ds m].
  - destruct (String.eqb (fn_name g) "__typename") eqn:T.
    + apply ret_ok in H as [-> ->]. split; [assumption|]. apply calls_skip; [assumption|]. intros h [= <-]. now apply String.eqb_eq.
    + apply bind_ok in H as (fd & r1 & H1 & H). apply from_opt_ok in H1 as [E ->]. apply bind_ok in H as (res & r2 & H2 & H).
      apply ret_ok in H as [-> ->]. cbn [fst snd]. assert (F2 := tfn_fsame _ _ _ _ _ _ H2). split; [eapply fsame_trans; eassumption|].
      unfold get_field_def in E. rewrite T in E. destruct (get_type s on) as [t|] eqn:HT; [|discriminate].
      destruct (type_fields t) as [fs|] eqn:TF; [|discriminate].
      assert (HF : output_fields t = Some fs) by (destruct t; try discriminate; exact TF).
      eapply calls_add; [eassumption|apply incl_appl, incl_refl|apply incl_appl, incl_refl|exists t, fs; split; [exact HT|split; [exact HF|exact E]]|].
      eapply called_now; eassumption.
  - apply ret_ok in H as [-> ->]. split; [assumption|]. apply calls_skip; [assumption|discriminate].
  - apply ret_ok in H as [-> ->]. split; [assumption|]. apply calls_skip; [assumption|discriminate].
Qed.
Lemma spread_bases_ok : forall f b r b' r', spread_bases f b r = (Ok b', r') ->
  r' = r /\ (forall i, incl (dget_list i b) (dget_list i b')) /\ (forall i k, fragment_for r f i k -> In k (dget_list i b')).
Proof.
  intros f b r b' r' H. unfold spread_bases in H. apply bind_ok in H as (m & r1 & H1 & H). apply gets_ok in H1 as [-> ->].
  destruct (dget f (r_iffrag r)) as [impls|] eqn:E.
  - apply ret_ok in H as [-> ->]. split; [reflexivity|]. split; [intros; apply fold_dextend_incl|].
    intros i k [m Hm Hk|Hn _ _]; [|congruence]. rewrite E in Hm. injection Hm as <-. apply fold_dextend_In. now apply dget_Some_In.
  - apply bind_ok in H as (x & r1 & H1 & H). apply bind_ok in H as (n & r2 & H2 & H). apply ret_ok in H as [-> ->].
    unfold get_fragment_type in H1. unfold inherit_fragment in H2. minv.
    split; [reflexivity|]. split; [intros; apply dextend_incl|].
    intros i k [m Hm Hk|_ Hi Hk]; [congruence|]. assert (x = i) by congruence. assert (n = k) by congruence. subst. apply dextend_In. now left.
Qed.
Definition iface_inv (n : string) (r0 : reg) (b0 : list stmt) (pre : list selection) (p : iparts) (r : reg) : Prop :=
  fsame r0 r /\ calls r0 n pre (ip_classes p) (ip_fields p) /\ incl b0 (ip_fields p)
  /\ (forall i ds m, In (SelInline (Some i) ds m) pre ->
        calls r0 i m (ip_classes p) (dget_list i (ip_inline p)))
  /\ (forall i f ds k, In (SelSpread f ds) pre -> fragment_for r0 f i k -> In k (dget_list i (ip_bases p))).
Lemma fragment_for_same : forall r0 r f i k, fsame r0 r -> fragment_for r0 f i k -> fragment_for r f i k.
Proof.
  intros r0 r f i k (A & B & _ & D) [m Hm Hk|Hn Ht Hk]; [eapply ff_interface|apply ff_object]; rewrite ?A, ?B, ?D; eassumption.
Qed.
Lemma iface_walk : forall n parent strict fields t r0 b0 sels r p r', get_type s n = Some t -> output_fields t = Some fields -> fsame r0 r ->
  walk (iface_item s tfn strict fields parent) sels (IParts [] b0 [] []) r = (Ok p, r') ->
  iface_inv n r0 b0 (match sels with Some l => l | None => [] end) p r'.
Proof.
  intros n parent strict fields t r0 b0 sels r p r' HT HF F H.
  assert (B : iface_inv n r0 b0 [] (IParts [] b0 [] []) r).
  { split; [assumption|]. split; [apply calls_nil|]. split; [apply incl_refl|]. split; [intros i ds m []|intros i f ds k []]. }
  destruct sels as [l|]; unfold walk in H; [|apply ret_ok in H as [-> ->]; exact B].
  eapply (mfold_ok _ (iface_inv n r0 b0)) in H; [exact H|exact B|]. clear H B F r r' p.
  intros pre x post p r p' r' _ (F & C & Ib & I & S) Hx.
  destruct (is_typename_field x) eqn:T.
  { apply ret_ok in Hx as [-> ->]. assert (TF := T). apply typename_field in TF as (g & ->).
    split; [assumption|]. split; [apply calls_skip; [assumption|intros h E; eapply is_typename_name; eassumption]|].
    split; [assumption|]. split.
    - intros i ds m Hin. apply in_app_iff in Hin as [Hin|[Hin|[]]]; [eauto|discriminate].
    - intros i f ds k Hin. apply in_app_iff in Hin as [Hin|[Hin|[]]]; [eauto|discriminate]. }
  destruct x as [g|f ds|cond ds m]; cbn [iface_item] in Hx.
  - apply bind_ok in Hx as (fd & r1 & H1 & Hx). apply from_opt_ok in H1 as [E ->]. apply bind_ok in Hx as (res & r2 & H2 & Hx).
    apply ret_ok in Hx as [-> ->]. assert (F2 := tfn_fsame _ _ _ _ _ _ H2). cbn [ip_classes ip_fields ip_bases ip_inline].
    split; [eapply fsame_trans; eassumption|].
    split; [eapply calls_add; [eassumption|apply incl_appl, incl_refl|apply incl_appl, incl_refl|exists t, fields; split; [exact HT|split; [exact HF|exact E]]|eapply called_now; eassumption]|].
    split; [now apply incl_appl|]. split.
    + intros i ds m Hin. apply in_app_iff in Hin as [Hin|[Hin|[]]]; [|discriminate].
      eapply calls_mono; [| |eapply I; eassumption]; [apply incl_appl, incl_refl|apply incl_refl].
    + intros i f ds k Hin. apply in_app_iff in Hin as [Hin|[Hin|[]]]; [eauto|discriminate].
  - apply bind_ok in Hx as (b & r1 & H1 & Hx). apply ret_ok in Hx as [-> ->]. apply spread_bases_ok in H1 as (-> & Hi & Hk).
    cbn [ip_classes ip_fields ip_bases ip_inline]. split; [assumption|]. split; [apply calls_skip; [assumption|discriminate]|].
    split; [assumption|]. split.
    + intros i ds' m Hin. apply in_app_iff in Hin as [Hin|[Hin|[]]]; [eauto|discriminate].
    + intros i f' ds' k Hin Hf. apply in_app_iff in Hin as [Hin|[[= <- <-]|[]]]; [apply Hi; eauto|].
      apply Hk. eapply fragment_for_same; eassumption.
  - apply bind_ok in Hx as (on & r1 & H1 & Hx). apply from_opt_ok in H1 as [-> ->]. apply bind_ok in Hx as (u & r1 & H1 & Hx).
    apply bind_ok in Hx as (res & r2 & H2 & Hx). apply ret_ok in Hx as [-> ->]. cbn [ip_classes ip_fields ip_bases ip_inline].
    assert (r1 = r) as -> by (destruct (get_type s on) as [[]|]; destruct strict; minv; reflexivity).
    assert (F2 : fsame r r2).
    { eapply (ev_fsame st); [|exact H2]. apply ev_inline_fields. intros g _ ? ?. apply ev_type_field_node. }
    split; [eapply fsame_trans; eassumption|].
    split; [apply calls_skip; [eapply calls_mono; [| |exact C]; [apply incl_appl, incl_refl|apply incl_refl]|discriminate]|].
    split; [assumption|]. split.
    + intros i ds' m' Hin. apply in_app_iff in Hin as [Hin|[[= -> <- <-]|[]]].
      * eapply calls_mono; [| |eapply I; eassumption]; [apply incl_appl, incl_refl|apply dextend_incl].
      * eapply inline_fields_ok in H2 as [_ C2]; [|exact F].
        eapply calls_mono; [| |exact C2]; [apply incl_appr, incl_refl|]. intros y Hy. now apply dextend_In.
    + intros i f ds' k Hin. apply in_app_iff in Hin as [Hin|[Hin|[]]]; [eauto|discriminate].
Qed.
Lemma implementing_class_parts : forall mother cls p i r x r', implementing_class c s mother cls p i r = (Ok x, r') ->
  exists bases body, x = SClass cls (map EName (dget_list i (ip_bases p)) ++ bases) body [] /\ In (EName mother) bases
    /\ tagged body i /\ incl (dget_list i (ip_inline p)) body.
Proof.
  intros mother cls p i r x r' H. unfold implementing_class in H. cbn zeta in H.
  apply bind_ok in H as (add & r1 & _ & H). apply bind_ok in H as (ib & r2 & _ & H). apply bind_ok in H as (t & r3 & H3 & H).
  apply ret_ok in H as [-> ->]. do 2 eexists. split; [reflexivity|]. split; [now left|].
  split; [eapply typename_field_ok; [exact H3|right; now left]|]. apply incl_appr, incl_refl.
Qed.
(** the classes for a selection on an interface, [alternative] naming those for one type *)
Definition iface_shape (r0 : reg) (n : string) (sels : list selection) (classes : list stmt) (alternative : string -> string -> Prop) (mother : string) : Prop :=
  exists mbases mbody, In (SClass mother mbases mbody []) classes /\ calls r0 n sels classes mbody
  /\ (forall i, In i (implementations s n) -> exists cls bases body,
        In (SClass cls bases body []) classes /\ alternative i cls /\ In (EName mother) bases /\ tagged body i
        /\ (forall ds m, In (SelInline (Some i) ds m) sels -> calls r0 i m classes body)
        /\ inherits_for r0 i sels bases).
Lemma impl_classes_shape : forall n r0 b0 sels p rp mother (cls : string -> string) impls r l r' classes,
  iface_inv n r0 b0 sels p rp ->
  mmap (fun i => implementing_class c s mother (cls i) p i) impls r = (Ok l, r') ->
  incl (ip_classes p) classes -> incl l classes ->
  forall i, In i impls -> exists bases body,
    In (SClass (cls i) bases body []) classes /\ In (EName mother) bases /\ tagged body i
    /\ (forall ds m, In (SelInline (Some i) ds m) sels -> calls r0 i m classes body)
    /\ inherits_for r0 i sels bases.
Proof.
  intros n r0 b0 sels p rp mother cls impls r l r' classes (F & C & Ib & I & S) H Ip Il.
  eapply (mmap_inv _ (fun _ => True)) with (Q := fun i x => exists bases body,
    x = SClass (cls i) (map EName (dget_list i (ip_bases p)) ++ bases) body [] /\ In (EName mother) bases
    /\ tagged body i /\ incl (dget_list i (ip_inline p)) body) in H as [_ H]; [|trivial|].
  - intros i Hi. assert (G : exists x, In x l /\ exists bases body,
      x = SClass (cls i) (map EName (dget_list i (ip_bases p)) ++ bases) body [] /\ In (EName mother) bases
      /\ tagged body i /\ incl (dget_list i (ip_inline p)) body).
    { clear -H Hi. induction H as [|j x impls l Hx H IH]; [contradiction|]. destruct Hi as [->|Hi].
      - exists x. split; [now left|assumption].
      - destruct (IH Hi) as (y & Hy & Hb). exists y. split; [now right|assumption]. }
    destruct G as (x & Hx & bases & body & -> & Hm & Ht & Hb). do 2 eexists. split; [apply Il; exact Hx|].
    split; [apply in_or_app; now right|]. split; [exact Ht|]. split.
    + intros ds m Hin. eapply calls_mono; [exact Ip|exact Hb|]. eapply I; eassumption.
    + intros f ds k Hin Hf. apply in_or_app. left. apply in_map. eapply S; eassumption.
  - intros i ra x rb _ _ Hx. split; [trivial|]. eapply implementing_class_parts; exact Hx.
Qed.
Definition catch_shape (classes : list stmt) (alternative : string -> Prop) (mother : string) : Prop :=
  exists cls bases body, In (SClass cls bases body []) classes /\ alternative cls /\ In (EName mother) bases /\ any_tag body.
Lemma interface_annotation_shape : forall parent target n d i fields sels o r0 r res r',
  get_type s n = Some (TInterface d i fields) -> fsame r0 r ->
  interface_annotation c s tfn parent target n d fields sels o r = (Ok res, r') ->
  exists e0 mother, snd res = (if o then optional_of e0 else e0) /\ no_tuple e0
    /\ iface_shape r0 n (match sels with Some l => l | None => [] end) (fst res) (fun _ => holds e0) mother
    /\ (c_create_catchall c = true -> catch_shape (fst res) (holds e0) mother).
Proof.
  intros parent target n d i fields sels o r0 r res r' HT F H. unfold interface_annotation in H. cbn zeta in H.
  apply bind_ok in H as (p & r1 & H1 & H). apply bind_ok in H as (add & r2 & H2 & H). apply bind_ok in H as (ib & r3 & H3 & H).
  apply bind_ok in H as (cfg & r4 & H4 & H). apply bind_ok in H as (ic & r5 & H5 & H). apply bind_ok in H as (u1 & r6 & _ & H).
  apply bind_ok in H as (u2 & r7 & _ & H). apply bind_ok in H as (rest & r8 & H8 & H). apply bind_ok in H as (e & r9 & H9 & H).
  apply bind_ok in H as (u3 & r10 & _ & H). apply ret_ok in H as [-> ->].
  apply (optional_if_ok st) in H9 as (rx & e0 & _ & H9 & ->). apply ret_ok in H9 as [-> ->].
  eapply (iface_walk n) with (r0 := r0) in H1; [|exact HT|reflexivity|exact F].
  set (mother := (parent +s+ py_capitalize target) +s+ "Base") in *.
  exists (snd rest), mother. split; [reflexivity|]. cbn [fst].
  set (classes := ip_classes p ++ [SClass mother (add ++ ib) (ip_fields p ++ cfg) []] ++ ic ++ fst rest) in *.
  assert (HM : forall i, In i (implementations s n) -> holds (snd rest) (mother +s+ i)).
  { intros j Hj. assert (HA : accepts (annotated_of [union_of (map (fun i => EName (mother +s+ i)) (implementations s n)); field_call [("discriminator", estr "typename")]]) (JLeaf (mother +s+ j))).
    { rewrite accepts_annotated, <- (map_map (fun i => mother +s+ i) EName). apply leaf_union. eexists. split; [|reflexivity].
      apply in_map_iff. eauto. }
    exists (JLeaf (mother +s+ j)). split; [|reflexivity]. destruct (c_create_catchall c).
    - minv. cbn [snd]. rewrite accepts_union'. eexists. split; [now left|exact HA].
    - minv. exact HA. }
  split; [|split].
  - destruct (c_create_catchall c); minv; cbn [snd]; [apply nt_union|apply nt_annotated].
  - exists (add ++ ib), (ip_fields p ++ cfg). split; [apply in_or_app; right; now left|].
    assert (H1' := H1). destruct H1' as (_ & C & _). split; [eapply calls_mono; [| |exact C]; [apply incl_appl, incl_refl|apply incl_appl, incl_refl]|].
    intros j Hj. eapply (impl_classes_shape n r0) with (classes := classes) in H5; [|exact H1|apply incl_appl, incl_refl|apply incl_appr, incl_appr, incl_appl, incl_refl|exact Hj].
    destruct H5 as (bases & body & Hc & Hm & Ht & Hi & Hs). exists (mother +s+ j), bases, body. auto 10.
  - intros CA. rewrite CA in H8. apply bind_ok in H8 as (ib2 & ra & _ & H8). apply bind_ok in H8 as (t & rb & Ht & H8).
    apply bind_ok in H8 as (u4 & rc & _ & H8). apply ret_ok in H8 as [-> ->]. cbn [snd].
    do 3 eexists. split; [unfold classes; rewrite !in_app_iff; right; right; right; left; reflexivity|].
    split; [|split; [now left|eapply generic_typename_ok; [exact Ht|right; now left]]].
    eexists (JLeaf _). split; [|reflexivity]. rewrite accepts_union'. eexists. split; [right; left; reflexivity|reflexivity].
Qed.

(** ** unions *)
Definition inline_shape (r0 : reg) (i : string) (m : list selection) (classes body : list stmt) (bases : list expr) : Prop :=
  calls r0 i m classes body /\ inherits_spreads r0 i m bases /\ ((forall fr ds, ~ In (SelSpread fr ds) m) -> tagged body i).
Lemma inline_walk : forall cls on sub r0 r acc r', fsame r0 r ->
  mfold (inline_item s tfn cls on) sub ([], [], []) r = (Ok acc, r') ->
  let '(classes, bases, body) := acc in
  fsame r0 r' /\ calls r0 on sub classes body /\ inherits_spreads r0 on sub (map EName bases)
  /\ ((forall fr ds, ~ In (SelSpread fr ds) sub) -> bases = []).
Proof.
  intros cls on sub r0 r acc r' F H.
  eapply (mfold_ok _ (fun pre acc r => let '(classes, bases, body) := acc in
    fsame r0 r /\ calls r0 on pre classes body /\ inherits_spreads r0 on pre (map EName bases)
    /\ ((forall fr ds, ~ In (SelSpread fr ds) pre) -> bases = []))) in H; [exact H| |].
  { split; [assumption|]. split; [apply calls_nil|]. split; [intros f ds []|reflexivity]. }
  clear H F r r' acc. intros pre x post [[classes bases] body] r [[classes' bases'] body'] r' _ (F & C & I & N) Hx.
  assert (NS : forall y, (forall fr ds, ~ In (SelSpread fr ds) (pre ++ [y])) -> bases = []).
  { intros y Hy. apply N. intros fr ds Hin. eapply Hy. apply in_or_app. left. exact Hin. }
  destruct x as [g|f ds|cond ds m]; cbn [inline_item] in Hx.
  - destruct (String.eqb (fn_name g) "__typename") eqn:T.
    + apply ret_ok in Hx as [[= -> -> ->] ->]. split; [assumption|]. split; [apply calls_skip; [assumption|intros h [= <-]; now apply String.eqb_eq]|].
      split; [eapply inherits_snoc; [eassumption|apply incl_refl|discriminate]|apply NS].
    + destruct (get_type s on) as [[| |d i fs dirs| | |]|] eqn:HT; try discriminate.
      apply bind_ok in Hx as (fd & r1 & H1 & Hx). apply from_opt_ok in H1 as [E ->]. apply bind_ok in Hx as (res & r2 & H2 & Hx).
      apply ret_ok in Hx as [[= -> -> ->] ->]. assert (F2 := tfn_fsame _ _ _ _ _ _ H2).
      split; [eapply fsame_trans; eassumption|].
      split; [eapply calls_add; [eassumption|apply incl_appl, incl_refl|apply incl_appl, incl_refl|do 2 eexists; split; [exact HT|split; [reflexivity|exact E]]|eapply called_now; eassumption]|].
      split; [eapply inherits_snoc; [eassumption|apply incl_refl|discriminate]|apply NS].
  - apply bind_ok in Hx as (b & r1 & H1 & Hx). assert (r1 = r) as -> by (unfold is_interface_fragment in H1; minv; reflexivity).
    destruct b; [discriminate|]. apply bind_ok in Hx as (k & r2 & H2 & Hx). apply ret_ok in Hx as [[= -> -> ->] ->].
    unfold inherit_fragment in H2. minv. split; [assumption|]. split; [apply calls_skip; [assumption|discriminate]|].
    split; [|intros Hy; exfalso; eapply Hy; apply in_or_app; right; left; reflexivity].
    eapply inherits_snoc; [eassumption|apply map_incl, incl_appl, incl_refl|]. intros f' ds' [= <- <-]. exists k. destruct F as (F & _).
    split; [left; congruence|]. rewrite map_app. apply in_or_app. right. now left.
  - apply ret_ok in Hx as [[= -> -> ->] ->]. split; [assumption|]. split; [apply calls_skip; [assumption|discriminate]|].
    split; [eapply inherits_snoc; [eassumption|apply incl_refl|discriminate]|apply NS].
Qed.
Definition uni_inv (r0 : reg) (pre : list selection) (acc : list stmt * list string) (r : reg) : Prop :=
  fsame r0 r
  /\ (forall cond ds m, In (SelInline cond ds m) pre -> exists i cls bases body, cond = Some i
        /\ In (SClass cls bases body []) (fst acc) /\ In cls (snd acc) /\ inline_shape r0 i m (fst acc) body bases)
  /\ (forall fr ds, In (SelSpread fr ds) pre -> exists k, dget fr (r_frags r0) = Some k /\ In k (snd acc)).
Lemma inline_shape_mono : forall r0 i m cl cl' body bases, incl cl cl' -> inline_shape r0 i m cl body bases -> inline_shape r0 i m cl' body bases.
Proof. intros r0 i m cl cl' body bases H (A & B & D). split; [eapply calls_mono; [exact H|apply incl_refl|exact A]|auto]. Qed.
Lemma uni_walk : forall parent sels r0 r acc r', fsame r0 r ->
  walk (union_item c s tfn parent) sels ([], []) r = (Ok acc, r') ->
  uni_inv r0 (match sels with Some l => l | None => [] end) acc r'.
Proof.
  intros parent sels r0 r acc r' F H.
  assert (B : uni_inv r0 [] ([], []) r) by (split; [assumption|]; split; [intros cond ds m []|intros fr ds []]).
  destruct sels as [l|]; unfold walk in H; [|apply ret_ok in H as [-> ->]; exact B].
  eapply (mfold_ok _ (uni_inv r0)) in H; [exact H|exact B|]. clear H B F r r' acc.
  intros pre x post [classes names] r [classes' names'] r' _ (F & I & S) Hx. cbn [fst snd] in *.
  assert (KEEP : forall y r1 cl ns, fsame r0 r1 -> incl classes cl -> incl names ns ->
    (forall cond ds m, y = SelInline cond ds m -> exists i cls bases body, cond = Some i
        /\ In (SClass cls bases body []) cl /\ In cls ns /\ inline_shape r0 i m cl body bases) ->
    (forall fr ds, y = SelSpread fr ds -> exists k, dget fr (r_frags r0) = Some k /\ In k ns) ->
    uni_inv r0 (pre ++ [y]) (cl, ns) r1).
  { intros y r1 cl ns F1 Hc Hn Hi Hs. split; [exact F1|]. cbn [fst snd]. split.
    - intros cond ds m Hin. apply in_app_iff in Hin as [Hin|[E|[]]]; [|eauto].
      destruct (I cond ds m Hin) as (i & cls & bases & body & E & H1 & H2 & H3). exists i, cls, bases, body.
      split; [exact E|]. split; [auto|]. split; [auto|]. eapply inline_shape_mono; eassumption.
    - intros fr ds Hin. apply in_app_iff in Hin as [Hin|[E|[]]]; [|eauto]. destruct (S fr ds Hin) as (k & Hk & Hin'). eauto. }
  destruct (is_typename_field x) eqn:T.
  { apply ret_ok in Hx as [[= -> ->] ->]. apply typename_field in T as (g & ->).
    apply KEEP; [assumption|apply incl_refl|apply incl_refl|discriminate|discriminate]. }
  destruct x as [g|f ds|cond ds m]; cbn [union_item] in Hx.
  - apply ret_ok in Hx as [[= -> ->] ->]. apply KEEP; [assumption|apply incl_refl|apply incl_refl|discriminate|discriminate].
  - apply bind_ok in Hx as (k & r1 & H1 & Hx). apply ret_ok in Hx as [[= -> ->] ->]. unfold inherit_fragment in H1. minv.
    apply KEEP; [assumption|apply incl_refl|apply incl_appl, incl_refl|discriminate|]. intros fr ds' [= <- <-]. exists k.
    destruct F as (F & _). split; [congruence|]. apply in_or_app. right. now left.
  - apply bind_ok in Hx as (on & r1 & H1 & Hx). apply from_opt_ok in H1 as [-> ->]. cbn zeta in Hx.
    apply bind_ok in Hx as ([[nested bases] fields] & r2 & H2 & Hx). apply bind_ok in Hx as (body & r3 & H3 & Hx).
    apply bind_ok in Hx as (add & r4 & H4 & Hx). apply bind_ok in Hx as (cfg & r5 & H5 & Hx). apply ret_ok in Hx as [[= -> ->] ->].
    assert (H2' := H2). eapply (inline_walk _ _ _ r0) in H2 as (F2 & C & Is & N); [|exact F].
    assert (Hb : incl fields body /\ (bases = [] -> tagged body on)).
    { destruct bases as [|b bases].
      - apply bind_ok in H3 as (t & r6 & H6 & H3). apply ret_ok in H3 as [-> ->]. split; [apply incl_tl, incl_refl|].
        intros _. eapply typename_field_ok; [exact H6|now left].
      - apply ret_ok in H3 as [-> ->]. split; [apply incl_refl|discriminate]. }
    destruct Hb as [Hb Ht].
    assert (Hbb : incl (body ++ cfg) match body ++ cfg with [] => [SPass] | b => b end) by (destruct (body ++ cfg); [intros y []|apply incl_refl]).
    apply KEEP; [|apply incl_appl, incl_refl|apply incl_appl, incl_refl| |discriminate].
    + eapply fsame_trans; [exact F2|]. eapply fsame_trans; [|eapply fsame_trans; [|eapply (ev_fsame st); [|exact H5]; ev_one]].
      * eapply (ev_fsame st); [|exact H3]. destruct bases; ev_tac.
      * eapply (ev_fsame st); [|exact H4]. destruct bases; ev_tac.
    + intros cond' ds' m' [= <- <- <-]. do 4 eexists. split; [reflexivity|].
      split; [apply in_or_app; right; apply in_or_app; right; left; reflexivity|].
      split; [apply in_or_app; right; now left|]. split; [|split].
      * eapply calls_mono; [| |exact C]; [apply incl_appr, incl_appl, incl_refl|].
        eapply incl_tran; [|exact Hbb]. now apply incl_appl.
      * intros f' ds' Hf. destruct (Is f' ds' Hf) as (k & Hk & Hbk). exists k. split; [assumption|]. apply in_or_app. left.
        destruct bases as [|b bases]; [contradiction|]. apply ret_ok in H4 as [-> _]. exact Hbk.
      * intros Hns. specialize (Ht (N Hns)). destruct Ht as (v & Hv & Hw). exists v. split; [|exact Hw].
        unfold class_fields in *. apply in_flat_map in Hv as (y & Hy & Hv). apply in_flat_map. exists y. split; [|exact Hv].
        apply Hbb. apply in_or_app. now left.
Qed.
Lemma union_annotation_shape : forall parent sels o r0 r res r', fsame r0 r ->
  union_annotation c s tfn parent sels o r = (Ok res, r') ->
  no_tuple (snd res) /\ exists names rx, uni_inv r0 (match sels with Some l => l | None => [] end) (fst res, names) rx
    /\ forall k, In k names -> holds (snd res) k.
Proof.
  intros parent sels o r0 r res r' F H. unfold union_annotation in H. apply bind_ok in H as ([cl ns] & r1 & H1 & H).
  eapply (uni_walk _ _ r0) in H1; [|exact F]. destruct ns as [|n [|n2 ns]].
  - discriminate.
  - apply ret_ok in H as [-> ->]. cbn [fst snd]. split; [auto with nt|]. exists [n], r1. split; [exact H1|]. intros k [<-|[]].
    eapply holds_leaf; [apply leaf_name|reflexivity].
  - apply bind_ok in H as (u & r2 & _ & H). apply bind_ok in H as (e & r3 & H3 & H). apply ret_ok in H as [-> ->].
    apply (optional_if_ok st) in H3 as (rx & e0 & _ & H3 & ->). apply ret_ok in H3 as [-> ->]. cbn [fst snd].
    split; [destruct o; [apply nt_optional|]; apply nt_union|]. exists (n :: n2 :: ns), r1. split; [exact H1|]. intros k Hk.
    assert (G : holds (union_of (map EName (n :: n2 :: ns))) k) by (eapply holds_leaf; [apply leaf_union|exact Hk]).
    destruct o; [apply holds_optional; [apply nt_union|exact G]|exact G].
Qed.

(** ** all fields *)
Lemma wrap_shape : forall named, (forall n o, ev st Ksel (named n o)) ->
  forall t o r res r',
  (forall o ra x rb, fsame r ra -> named (gty_name t) o ra = (Ok x, rb) -> no_tuple (snd x)) ->
  wrap_annotation c named t o r = (Ok res, r') ->
  exists o' ra x rb, fsame r ra /\ named (gty_name t) o' ra = (Ok x, rb) /\ fst res = fst x /\ no_tuple (snd res)
    /\ forall k, holds (snd x) k -> holds (snd res) k.
Proof.
  intros named HE. induction t as [n|t IH|t IH]; intros o r res r' HN H; cbn [wrap_annotation] in H.
  - exists o, r, res, r'. split; [apply fsame_refl|]. split; [exact H|]. split; [reflexivity|]. split; [|auto]. eapply HN; [apply fsame_refl|exact H].
  - cbn zeta in H. apply bind_ok in H as (u & r1 & H1 & H). apply bind_ok in H as (u2 & r2 & H2 & H). apply bind_ok in H as (x & r3 & H3 & H).
    apply ret_ok in H as [-> ->].
    assert (F : fsame r r2).
    { eapply fsame_trans; [eapply (ev_fsame st); [|exact H1]; ev_one|eapply (ev_fsame st); [|exact H2]; destruct o; ev_tac]. }
    apply IH in H3 as (o' & ra & y & rb & Fa & Hy & E & N & Hh).
    + exists o', ra, y, rb. split; [eapply fsame_trans; eassumption|]. split; [exact Hy|]. split; [exact E|]. cbn [snd].
      replace (if fz_enabled (c_freeze c) then tuple_of (snd x) else list_of (snd x)) with (seq_of (fz_enabled (c_freeze c)) (snd x))
        by (now destruct (fz_enabled (c_freeze c))).
      assert (NS : no_tuple (seq_of (fz_enabled (c_freeze c)) (snd x))) by (destruct (fz_enabled (c_freeze c)); auto with nt).
      split; [destruct o; [apply nt_optional|exact NS]|]. intros k Hk. apply Hh in Hk. apply (holds_seq (fz_enabled (c_freeze c))) in Hk; [|exact N].
      destruct o; [now apply holds_optional|exact Hk].
    + intros o' ra y rb Fa. apply HN. eapply fsame_trans; eassumption.
  - apply IH in H; [exact H|exact HN].
Qed.
Lemma field_statements_shape : forall k fd a r l r', field_statements c st k fd a r = (Ok l, r') ->
  exists fld, class_fields l = [fld] /\ fst (fst fld) = style_with sty_node st k /\ wire fld = k
    /\ (may_omit (snd fld) = true <-> is_nonnull (fd_type fd) = false) /\ forall v, accepts (snd (fst fld)) v <-> accepts a v.
Proof.
  intros k fd a r l r' H. unfold field_statements in H. cbn zeta in H.
  apply bind_ok in H as (a' & r1 & H1 & H). apply bind_ok in H as (u & r2 & H2 & H). apply ret_ok in H as [-> ->].
  pose proof (kws_spec (generate_node_name st k) k (is_nonnull (fd_type fd))) as K. cbn zeta in K. destruct K as [K1 K2].
  eexists. split; [unfold class_fields; cbn [flat_map]; destruct (compose_field_documentation _ _ _ _); reflexivity|].
  cbn [fst snd]. split; [reflexivity|]. split; [exact K1|]. split.
  - rewrite K2. destruct (is_nonnull _); cbn; intuition congruence.
  - intros v. apply (annotate_accepts _ _ _ _ _ _ _ H1).
Qed.
Definition Qmod (g : fieldnode) : Prop := forall r0 parent fd r res r', fsame r0 r -> tfn g parent fd r = (Ok res, r') ->
  forall C, incl (fst res) C -> exists fld, class_fields (snd res) = [fld] /\ modelled st s r0 (c_create_catchall c) C g fd fld.
Lemma calls_carries : forall r0 n sels cl C body, (forall g, In (SelField g) sels -> Qmod g) -> incl cl C ->
  calls r0 n sels cl body -> carries (modelled st s r0 (c_create_catchall c) C) s n sels body.
Proof.
  intros r0 n sels cl C body HQ HI H g Hg Hn. destruct (H g Hg Hn) as (fd & Hf & p & ra & rb & res & F & E & I1 & I2).
  destruct (HQ g Hg r0 p fd ra res rb F E C) as (fld & Hfld & Hm); [eapply incl_tran; eassumption|].
  exists fd, fld. split; [exact Hf|]. split; [|exact Hm]. unfold class_fields in *.
  assert (Hin : In fld (flat_map (fun x => match x with SAnn n a v => [(n, a, v)] | _ => [] end) (snd res))) by (rewrite Hfld; now left).
  apply in_flat_map in Hin as (y & Hy & Hin). apply in_flat_map. exists y. auto.
Qed.
Lemma modelled_all : forall f, Qmod f.
Proof.
  assert (STEP : forall alias name args ds sels, all_deep Qmod sels -> Qmod (FieldNode alias name args ds sels)).
  { intros alias name args ds sels IH r0 parent fd r res r' F H C HC. rewrite tfn_eq in H. cbn zeta in H.
    apply bind_ok in H as (x & r1 & H1 & H). apply bind_ok in H as (body & r2 & H2 & H). apply ret_ok in H as [-> ->]. cbn [fst snd] in *.
    set (target := match alias with Some a => a | None => name end) in *.
    assert (HD : all_deep (Qev st tfn) sels).
    { intros l y _ _. destruct y as [g|n d|cond d m]; cbn; [intros ? ?; apply ev_type_field_node|exact I|intros g _ ? ?; apply ev_type_field_node]. }
    assert (HF : forall g, In (SelField g) (match sels with Some l => l | None => [] end) -> Qmod g).
    { destruct sels as [l|]; [|intros g []]. intros g Hg. apply (IH l (SelField g) eq_refl Hg). }
    assert (HI : forall cond d m g, In (SelInline cond d m) (match sels with Some l => l | None => [] end) -> In (SelField g) m -> Qmod g).
    { destruct sels as [l|]; [|intros cond d m g []]. intros cond d m g Hm Hg. apply (IH l (SelInline cond d m) eq_refl Hm g Hg). }
    apply field_statements_shape in H2 as (fld & E & K1 & K2 & K3 & KA). exists fld. split; [exact E|].
    constructor; [exact K1|exact K2|exact K3|].
    assert (HS : forall a, (forall v, accepts (snd (fst fld)) v <-> accepts a v) -> forall k, holds a k -> holds (snd (fst fld)) k) by (intros a Ha k; now apply holds_same).
    specialize (HS _ KA).
    apply wrap_shape in H1; [|intros; now apply ev_named_annotation|].
    - destruct H1 as (o & ra & y & rb & Fa & Hy & Ef & _ & Hh). assert (F0 := fsame_trans _ _ _ F Fa). rewrite Ef in HC.
      assert (HH : forall k, holds (snd y) k -> holds (snd (fst fld)) k) by auto. clear HS Hh KA.
      unfold named_annotation in Hy. destruct (get_type s (gty_name (fd_type fd))) as [[d|d vs|d i fs dirs|d i fs|d ms|]|] eqn:HT; try discriminate.
      + eapply sh_leaf. left. eauto.
      + eapply sh_leaf. right. eauto.
      + eapply object_annotation_shape in Hy as (e0 & Ee & N & [(fr & ds' & k & Hs & Hc & Hk)|(cls & bases & b & Hc & Hk & Ht & Hcl & Hi & Hn)]); [| |exact HT|exact F0].
        * eapply sh_fragment; [exact HT|exact Hs|exact Hc|]. apply HH. rewrite Ee. destruct o; [now apply holds_optional|exact Hk].
        * eapply sh_object; [exact HT|apply HC; exact Hc| |exact Ht| |exact Hi|exact Hn].
          -- apply HH. rewrite Ee. destruct o; [now apply holds_optional|exact Hk].
          -- eapply calls_carries; [exact HF|exact HC|exact Hcl].
      + eapply interface_annotation_shape in Hy as (e0 & mother & Ee & N & (mb & mbody & Hm & Hcl & Hi) & Hca); [|exact HT|exact F0].
        assert (HK : forall k, holds e0 k -> holds (snd (fst fld)) k).
        { intros k Hk. apply HH. rewrite Ee. destruct o; [now apply holds_optional|exact Hk]. }
        eapply sh_interface; [exact HT|]. exists mother, mb, mbody. split; [apply HC; exact Hm|].
        split; [eapply calls_carries; [exact HF|exact HC|exact Hcl]|]. split.
        * intros j Hj. destruct (Hi j Hj) as (cls & bases & b & Hc & Hk & Hmo & Ht & Hin & Hs). exists cls, bases, b.
          split; [apply HC; exact Hc|]. split; [auto|]. split; [exact Hmo|]. split; [exact Ht|]. split; [|exact Hs].
          intros d' m Hm'. eapply calls_carries; [intros g Hg; eapply HI; eassumption|exact HC|]. eapply Hin; exact Hm'.
        * intros CA. destruct (Hca CA) as (cls & bases & b & Hc & Hk & Hmo & Ht). exists cls, bases, b.
          split; [apply HC; exact Hc|]. auto.
      + eapply union_annotation_shape in Hy as (_ & names & rx & (_ & Hi & Hs) & Hk); [|exact F0]. cbn [fst snd] in *.
        eapply sh_union; [exact HT| |].
        * intros cond d' m Hm. destruct (Hi cond d' m Hm) as (i & cls & bases & b & Ec & Hc & Hn & Hcl & Hsp & Ht). exists i, cls, bases, b.
          split; [exact Ec|]. split; [apply HC; exact Hc|]. split; [auto|]. split; [|split; [exact Hsp|exact Ht]].
          eapply calls_carries; [intros g Hg; eapply HI; eassumption|exact HC|exact Hcl].
        * intros fr d' Hf. destruct (Hs fr d' Hf) as (k & Hk1 & Hk2). exists k. split; [exact Hk1|auto].
    - intros o ra y rb Fa Hy. assert (F0 := fsame_trans _ _ _ F Fa). unfold named_annotation in Hy.
      destruct (get_type s (gty_name (fd_type fd))) as [[d|d vs|d i fs dirs|d i fs|d ms|]|] eqn:HT; try discriminate.
      + apply bind_ok in Hy as (e & r3 & He & Hy). apply ret_ok in Hy as [-> ->]. apply (optional_if_ok st) in He as (rx & e0 & _ & He & ->).
        apply reference_scalar_ok in He as (p & _ & ->). cbn [snd]. destruct o; auto with nt.
      + apply bind_ok in Hy as (e & r3 & He & Hy). apply ret_ok in Hy as [-> ->]. apply (optional_if_ok st) in He as (rx & e0 & _ & He & ->).
        cbn [snd]. destruct o; [auto with nt|]. unfold reference_enum in He. cbn zeta in He.
        assert (G : exists k, e0 = EName k \/ e0 = estr k) by (destruct (mem _ _); [|apply bind_ok in He as (m & r4 & _ & He); destruct (_ || _)]; minv; eauto).
        destruct G as (k & [->| ->]); auto with nt.
      + eapply object_annotation_shape in Hy as (e0 & Ee & N & _); [|exact HT|exact F0]. rewrite Ee. destruct o; [apply nt_optional|exact N].
      + eapply interface_annotation_shape in Hy as (e0 & mother & Ee & N & _); [|exact HT|exact F0]. rewrite Ee. destruct o; [apply nt_optional|exact N].
      + eapply union_annotation_shape in Hy as (N & _); [exact N|exact F0]. }
  apply fieldnode_rect'; [intros; apply STEP; intros l x [=]|intros a n ar ds l HL; apply STEP; intros l' x [= <-]; apply HL].
Qed.
End Modelled.
