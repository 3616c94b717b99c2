(** The fragments plugin does not fail. *)
From Verif Require Import Base PyAst Gql Config Stylers Registry Utils Documents Recurse Inline Print Fragments Spec_Mro Spec_Mro2 Spec_Docs Spec_Inline Spec_Valid Spec_ValidDoc
  P_Base P_Gql P_Monad P_Config P_Mro P_Documents P_Topo P_Inline P_Print P_InlineProps P_Total P_Total2 P_Total3 P_Total5.
From Coq Require Import Permutation.
Arguments register_import : simpl never.
Arguments add_forward : simpl never.
Arguments register_builtin : simpl never.
Arguments dkeys : simpl never.
Arguments fold_left : simpl never.

(** a computation that changes a table once *)
Definition tots (r0 : reg) {A} (m : M A) (g : reg -> reg) : Prop := forall r, tsame r0 r -> exists a r1 r', m r = (Ok a, r') /\ tsame r0 r1 /\ tsame (g r1) r'.
Lemma tots_bind : forall r0 {A B} (m : M A) (k : A -> M B) g, tot r0 m -> (forall a, tots r0 (k a) g) -> tots r0 (bind m k) g.
Proof. intros r0 A B m k g Hm Hk r S. destruct (Hm r S) as (a & r1 & E & S1). destruct (Hk a r1 S1) as (b & r2 & r3 & E2 & S2 & S3). exists b, r2, r3. split; [eapply bind_run; eassumption|auto]. Qed.
Lemma tots_modify : forall r0 {B} (k : M B) g, (forall r, tot r k) -> tots r0 (modify g ;; k) g.
Proof. intros r0 B k g Hk r S. destruct (Hk (g r) (g r) (tsame_refl _)) as (b & r2 & E & S2). exists b, r, r2. split; [eapply bind_run; [reflexivity|exact E]|auto]. Qed.
Lemma tots_tot : forall r0 {A} (m : M A), tot r0 m -> tots r0 m (fun r => r).
Proof. intros r0 A m H r S. destruct (H r S) as (a & r1 & E & S1). exists a, r1, r1. split; [exact E|]. split; [exact S1|apply tsame_refl]. Qed.

Lemma before_prefix : forall {A} (f : A -> string) pre x post b, NoDup (map f (pre ++ x :: post)) -> Spec_Docs.before b (f x) (map f (pre ++ x :: post)) -> In b (map f pre).
Proof.
  intros A f pre x post b N (l1 & l2 & l3 & E). rewrite map_app in *. cbn in *. assert (l1 ++ b :: l2 = map f pre) as <-; [|apply in_elt].
  replace (l1 ++ b :: l2 ++ f x :: l3) with ((l1 ++ b :: l2) ++ f x :: l3) in E by now rewrite <- app_assoc. revert E N. generalize (l1 ++ b :: l2) (map f pre) (map f post). clear.
  induction l as [|a l IH]; intros [|y q] p E N; cbn in *; auto.
  - exfalso. injection E as E1 E2. subst. apply NoDup_cons_iff in N as (N & _). apply N, in_elt.
  - exfalso. injection E as E1 E2. subst. apply NoDup_cons_iff in N as (N & _). apply N. apply in_elt.
  - injection E as <- E. f_equal. eapply IH; [exact E|]. now inversion N.
Qed.
Lemma valid_spreads : forall s d l n, spread_in True l n -> forall on, forallb (valid_sel s d on) l = true -> exists f, the_fragment d n = Some f.
Proof.
  intros s d l n H. induction H as [l n ds H|l f m n H E _ IH|l k ds m n _ H _ IH]; intros on Va; rewrite forallb_forall in Va; specialize (Va _ H); cbn [valid_sel] in Va.
  - destruct (the_fragment d n); [eauto|discriminate].
  - rewrite E in Va. destruct (String.eqb (fn_name f) "__typename"); [discriminate|]. destruct (field_type s on (fn_name f)) as [t|]; [|discriminate]. destruct f as [al nm args ds sels]. cbn in E. subst sels.
    cbn [valid_node] in Va. apply andb_true_iff in Va as (_ & Va). eapply IH, Va.
  - apply andb_true_iff in Va as (_ & Va). eapply IH, Va.
Qed.
Lemma the_fragment_in : forall d n f, the_fragment d n = Some f -> In f (fragments_of d) /\ fr_name f = n.
Proof. intros d n f H. apply find_some in H as (H & E). split; [exact H|]. now apply String.eqb_eq. Qed.
Lemma the_fragment_of : forall d f, NoDup (map fr_name (fragments_of d)) -> In f (fragments_of d) -> the_fragment d (fr_name f) = Some f.
Proof. intros d f N H. destruct (find_frag (fragments_of d) (fr_name f) N) as (F & _). now apply F. Qed.

Section Fragments.
Variable c : gconfig. Variable st : list styler. Variable s : schema. Variable d : document. Variable pc : frcfg.
Variable ps : string -> bool -> string. Variable add : string -> res string.
Hypothesis V : valid_schema s.
Hypothesis VD : valid_document s d.
Hypothesis SD : supported_document s d ps add.
Variable ks ke ki : list string.
Hypothesis Scal : forall k t f fd, In (k, t) (s_types s) -> In (f, fd) (fields_of t) -> is_scalar s (gty_name (fd_type fd)) = true -> In (gty_name (fd_type fd)) ks.
(** the tables that the plugin leaves alone *)
Definition base (r : reg) : Prop := (forall n, In n ks -> dmem n (r_scalars r) = true) /\ dkeys (r_enums r) = ke /\ dkeys (r_inputs r) = ki /\ incl (r_builtins r) built_in_keys /\ r_ifrags r = [].
Lemma base_same : forall r r', base r -> tsame r r' -> base r'.
Proof.
  intros r r' (A1 & A2 & A3 & A4 & A5) S. destruct (fside_eq _ _ S) as (_ & _ & _ & _ & _ & E). destruct S as (B1 & B2 & B3 & _ & _ & B4 & _). unfold base. rewrite B1, B2, B3, E. auto 8.
Qed.
Lemma known : known_spreads d.
Proof.
  intros a b (f & Hf & <- & Sp). destruct (vd_conditions s d VD f Hf) as (_ & Va). destruct (valid_spreads s d _ _ Sp _ Va) as (g & G). apply the_fragment_in in G as (G & <-). now apply in_map.
Qed.
Lemma outside : forall a b, depends_trans True d a b -> depends_trans False d a b.
Proof.
  intros a b H. induction H as [a b (f & Hf & E & Sp)|]; [|eapply t_trans; eassumption]. apply t_step. exists f. split; [exact Hf|]. split; [exact E|]. eapply sd_inline; eassumption.
Qed.
Variable l : list fragment.
Hypothesis El : ordered_fragments d = Ok l.
Lemma perm : Permutation l (fragments_of d).
Proof. destruct (ordering_C01 d (vd_fragments s d VD)) as (l' & E & P). rewrite El in E. injection E as <-. exact P. Qed.
Lemma names_NoDup : NoDup (map fr_name l).
Proof. eapply Permutation_NoDup; [apply Permutation_map; symmetry; apply perm|apply (vd_fragments s d VD)]. Qed.
Lemma in_l : forall f, In f l -> In f (fragments_of d).
Proof. intros f H. eapply Permutation_in; [apply perm|exact H]. Qed.
Lemma earlier : forall pre f post n, l = pre ++ f :: post -> depends_trans True d (fr_name f) n -> In n (map fr_name pre).
Proof.
  intros pre f post n E H. eapply before_prefix; [rewrite <- E; apply names_NoDup|]. rewrite <- E. eapply ordering_C02; eauto using outside; [apply (vd_fragments s d VD)|apply known|apply (vd_acyclic s d VD)].
Qed.
Notation ready := (ready s d).
Definition finv (pre : list fragment) (r : reg) : Prop :=
  base r /\ dkeys (r_frags r) = map fr_name pre /\ dkeys (r_fragdocs r) = map fr_name pre /\ (forall f, In f pre -> dget (fr_name f) (r_fragdocs r) = Some (print_fragment ps f))
  /\ incl (dkeys (r_iffrag r)) (map fr_name pre) /\ (forall f, In f pre -> ready r (fr_name f)) /\ (r_queries r, r_muts r, r_subs r) = ([], [], []).
(** what holds while the classes of [f] are generated *)
Definition during (pre : list fragment) (f : fragment) (r : reg) : Prop :=
  base r /\ dkeys (r_frags r) = map fr_name (pre ++ [f]) /\ dkeys (r_fragdocs r) = map fr_name (pre ++ [f]) /\ (forall g, In g (pre ++ [f]) -> dget (fr_name g) (r_fragdocs r) = Some (print_fragment ps g))
  /\ incl (dkeys (r_iffrag r)) (map fr_name pre) /\ (forall g, In g pre -> ready r (fr_name g)) /\ dget (fr_name f) (r_fragtypes r) = Some (fr_on f)
  /\ (r_queries r, r_muts r, r_subs r) = ([], [], []).
Lemma tot_replace : forall r0 text, (forall n, reached found (doc add (r_fragdocs r0)) text n -> exists x y, dget n (r_fragdocs r0) = Some x /\ add x = Ok y) -> tot r0 (replace_iteratively add text).
Proof.
  intros r0 text H. unfold replace_iteratively. apply tot_gets. intros r S. destruct (fside_eq _ _ S) as (_ & -> & _). pose proof (replace_result add (r_fragdocs r0) text) as R.
  destruct (replace_fuel _ _ _ _ _) as [t|e]; [apply tot_ret|]. destruct R as (n & Hn & R). destruct (H n Hn) as (x & y & Ex & Ey). destruct R as [(R & _)|(z & R1 & R2)]; congruence.
Qed.
Lemma docs_fragment : forall r pre, (forall f, In f pre -> In f (fragments_of d)) -> dkeys (r_fragdocs r) = map fr_name pre -> (forall f, In f pre -> dget (fr_name f) (r_fragdocs r) = Some (print_fragment ps f)) ->
  forall n p, doc add (r_fragdocs r) n = Some p -> exists f, In f pre /\ fr_name f = n /\ p = print_fragment ps (with_typename f).
Proof.
  intros r pre I K D n p H. unfold doc in H. destruct (dget n (r_fragdocs r)) as [x|] eqn:E; [|discriminate]. assert (In n (dkeys (r_fragdocs r))) as Hn by (apply dmem_In; unfold dmem; now rewrite E).
  rewrite K in Hn. apply in_map_iff in Hn as (f & <- & Hf). exists f. split; [exact Hf|]. split; [reflexivity|]. rewrite (D f Hf) in E. injection E as <-. destruct (sd_text s d ps add SD f (I f Hf)) as (_ & T). rewrite T in H. congruence.
Qed.
Lemma fragment_found : forall f n, In f (fragments_of d) -> found (print_fragment ps f) n -> spread_in True (fr_sels f) n.
Proof. intros f n Hf H. destruct (sd_text s d ps add SD f Hf) as (R & _). apply found_N in H. rewrite (fragment_N ps) in H by exact R. now apply (spreads_list ps) in H. Qed.
Lemma tot_meta : forall pre f post r, l = pre ++ f :: post -> during pre f r -> tot r (fragment_meta pc (print_fragment ps) add f).
Proof.
  intros pre f post r E (_ & _ & K & D & _). unfold fragment_meta. apply tot_if; [|apply tot_ret]. apply tot_bind; [|intros; apply tot_ret]. apply tot_replace.
  assert (forall g, In g (pre ++ [f]) -> In g (fragments_of d)) as Ip. { intros g Hg. apply in_l. rewrite E. apply in_app_iff in Hg as [Hg|[<-|[]]]; apply in_app_iff; [now left|right; now left]. }
  assert (In f (fragments_of d)) as Hf by (apply Ip, in_app_iff; right; now left).
  assert (forall n, reached found (doc add (r_fragdocs r)) (print_fragment ps f) n -> depends_trans True d (fr_name f) n) as Dn.
  { intros n H. induction H as [n H|g t n Hg IH Hd H].
    - apply t_step. exists f. split; [exact Hf|]. split; [reflexivity|]. now apply fragment_found.
    - destruct (docs_fragment r _ Ip K D _ _ Hd) as (x & Hx & <- & ->). eapply t_trans; [exact IH|]. apply t_step. exists x. split; [now apply Ip|]. split; [reflexivity|].
      apply (frag_found ps add d (sd_text s d ps add SD)) in H; [exact H|now apply Ip]. }
  intros n Hn. apply Dn in Hn. apply (earlier _ _ _ _ E) in Hn. apply in_map_iff in Hn as (g & <- & Hg). exists (print_fragment ps g), (print_fragment ps (with_typename g)).
  assert (In g (pre ++ [f])) as Hg' by (apply in_app_iff; now left). split; [now apply D|]. now apply (sd_text s d ps add SD), Ip.
Qed.
Lemma during_spread : forall pre f post r n, l = pre ++ f :: post -> during pre f r -> spread_in True (fr_sels f) n -> ready r n.
Proof.
  intros pre f post r n E (_ & _ & _ & _ & _ & R & _) H. assert (In n (map fr_name pre)) as Hn. { eapply earlier; [exact E|]. apply t_step. exists f. split; [apply in_l; rewrite E; apply in_elt|auto]. }
  apply in_map_iff in Hn as (g & <- & Hg). now apply R.
Qed.
Lemma base_scal : forall r, base r -> forall k t f fd, In (k, t) (s_types s) -> In (f, fd) (fields_of t) -> is_scalar s (gty_name (fd_type fd)) = true -> dmem (gty_name (fd_type fd)) (r_scalars r) = true.
Proof. intros r (H & _) k t f fd Hk Hf Hs. apply H. eapply Scal; eassumption. Qed.

Lemma tot_fragment_bases : forall r o, tot r (get_fragment_bases c pc o).
Proof. intros r o. unfold get_fragment_bases. apply tot_bind; [apply tot_bases|]. intros a. apply tot_bind; [apply tot_if; [apply tot_bases|apply tot_ret]|]. intros b. apply tot_bind; [apply tot_bases|]. intros; apply tot_ret. Qed.
Section Body.
Variable pre : list fragment. Variable f : fragment. Variable post : list fragment. Variable r0 : reg.
Hypothesis E : l = pre ++ f :: post.
Hypothesis D : during pre f r0.
Let Hf : In f (fragments_of d). Proof. apply in_l. rewrite E. apply in_elt. Qed.
Let Va : forallb (valid_sel s d (fr_on f)) (fr_sels f) = true. Proof. exact (proj2 (vd_conditions s d VD f Hf)). Qed.
Let Su : forall x, In x (fr_sels f) -> supported_fragment s d (fr_on f) x = true. Proof. apply forallb_forall, (sd_fragments s d ps add SD f Hf). Qed.
Let Re : forall n, spread_in True (fr_sels f) n -> ready r0 n. Proof. intros n Hn. eapply during_spread; eassumption. Qed.
Let NI : r_ifrags r0 = []. Proof. apply D. Qed.
Let Sc := base_scal r0 (proj1 D).
Let Go : forall g, good c st s d r0 g. Proof. intros g. apply good_all; auto. Qed.
Lemma interface_total : forall d0 is fs, get_type s (fr_on f) = Some (TInterface d0 is fs) ->
  tots r0 (interface_fragment c st s pc f d0 fs) (fun r => with_iffrag (dset (fr_name f) (fold_left (fun m i => dset i (style_fragment_class st (fr_name f) +s+ i) m) (implementations s (fr_on f)) []) (r_iffrag r)) r).
Proof.
  intros d0 is fs G. unfold interface_fragment. cbn zeta. apply tots_bind; [apply tot_additional|]. intros ad. apply tots_bind.
  { apply tot_walk. intros x p Hx N. eapply (tot_iface_item c st s d r0 Sc (fr_sels f) (fr_on f) Va Re); eauto. discriminate. }
  intros p. apply tots_bind; [apply tot_interface_bases|]. intros ib. apply tots_bind; [apply tot_generic_typename|]. intros t. apply tots_bind.
  { apply tot_mmap. intros i _. unfold implementing_class. cbn zeta. apply tot_bind; [apply tot_additional|]. intros a1. apply tot_bind; [apply tot_interface_bases|]. intros a2. apply tot_bind; [apply tot_typename|]. intros; apply tot_ret. }
  intros ic. unfold register_interface_fragment_implementations. apply tots_modify. intros; apply tot_ret.
Qed.
Lemma object_total : forall cls d0 d1 is fs ds, get_type s (fr_on f) = Some (TObject d1 is fs ds) -> tot r0 (object_fragment c st s pc (print_fragment ps) add f cls d0).
Proof.
  intros cls d0 d1 is fs ds G. assert (is_object s (fr_on f) = true) as O by (unfold is_object; now rewrite G). unfold object_fragment. apply tot_bind; [apply tot_additional|]. intros ad. apply tot_bind; [apply tot_typename|]. intros t. apply tot_bind.
  { apply tot_mfold. intros x [[cl ba] fl] Hx. destruct x as [g|n ds'|]; cbn [object_fragment_item]; [| |apply tot_ret].
    - destruct (String.eqb (fn_name g) "__typename") eqn:N; [apply tot_ret|]. assert (valid_sel s d (fr_on f) (SelField g) = true) as Vg by (rewrite forallb_forall in Va; now apply Va).
      destruct (valid_has_field s d _ g Vg N) as (t' & fd & G' & Gf). eapply tot_some; [eapply field_def_of; eassumption|]. apply tot_bind; [|intros; apply tot_ret].
      eapply (tot_field_in c st s d r0 Sc (fr_sels f) (fr_on f) Va Re); eauto. exact (Su _ Hx).
    - apply tot_gets. intros r S. destruct (ready_spread s d r0 (fr_sels f) (fr_on f) Va Re n ds' Hx) as (R & Ov). destruct (fside_eq _ _ S) as (_ & _ & _ & -> & _).
      pose proof R as (h & Fh & _ & _ & H & _). apply tot_bind; [|intros; apply tot_ret]. destruct (is_iface s (fr_on h)) eqn:I.
      + destruct H as (m & -> & H). specialize (H _ (possible_object _ _ _ O I (Ov _ Fh))). unfold dmem in H. destruct (dget (fr_on f) m); [apply tot_ret|discriminate].
      + rewrite H. now apply (tot_inherit s d). }
  intros [[cl ba] fl]. apply tot_bind; [eapply tot_meta; eassumption|]. intros meta. apply tot_bind; [apply tot_fragment_bases|]. intros fb. apply tot_bind; [apply tot_config|]. intros; apply tot_ret.
Qed.
Lemma union_total : forall d0 d1 ms, get_type s (fr_on f) = Some (TUnion d1 ms) ->
  tots r0 (union_fragment c st s pc f d0 ms) (fun r => with_ufrag (dset (fr_name f) (fold_left (fun m i => dset i (style_fragment_class st (fr_name f) +s+ i) m) ms []) (r_ufrag r)) r).
Proof.
  intros d0 d1 ms G. assert (is_union s (fr_on f) = true) as U by (unfold is_union; now rewrite G). unfold union_fragment. cbn zeta. apply tots_bind; [apply tot_additional|]. intros _. apply tots_bind.
  { apply tot_walk. intros x p Hx N. pose proof (Su _ Hx) as Sx. destruct x as [g|n ds|[k|] ds m]; cbn [union_fragment_item].
    - assert (valid_sel s d (fr_on f) (SelField g) = true) as Vg by (rewrite forallb_forall in Va; now apply Va). destruct (valid_has_field s d _ g Vg N) as (t' & fd & G' & Gf). rewrite G in G'. injection G' as <-. discriminate.
    - cbn [supported_fragment] in Sx. rewrite U in Sx. cbn in Sx. destruct (Re n) as (h & Fh & _ & _ & _ & H); [eapply si_here, Hx|]. rewrite Fh in Sx. specialize (H Sx).
      apply tot_bind; [|intros; apply tot_ret]. unfold get_union_fragment_members. apply tot_gets. intros r S. destruct (fside_eq _ _ S) as (_ & _ & _ & _ & -> & _). unfold dmem in H. destruct (dget n (r_ufrag r0)); [apply tot_ret|discriminate].
    - cbn [supported_fragment] in Sx. rewrite forallb_forall in Sx. eapply tot_some; [reflexivity|]. apply tot_bind; [|intros [[]]; apply tot_ret]. apply tot_mfold. intros y [[cl ba] fl] Hy. destruct y as [g| |]; cbn [union_inline]; try apply tot_ret.
      destruct (String.eqb (fn_name g) "__typename") eqn:Ng; [apply tot_ret|].
      destruct (tot_inline_in c st s d r0 Sc (fr_sels f) (fr_on f) Va Re (fun _ _ _ g _ _ => Go g) k ds m g (style_fragment_class st (fr_name f)) Hx Hy Ng (Sx _ Hy)) as (t & fd & Gt & Gf & T).
      eapply tot_some; [exact Gt|]. eapply tot_some; [eapply field_def_of; eassumption|]. apply tot_bind; [exact T|]. intros; apply tot_ret.
    - discriminate. }
  intros p. apply tots_bind.
  { apply tot_mmap. intros i _. apply tot_bind; [apply tot_fragment_bases|]. intros fb. apply tot_bind; [apply tot_typename|]. intros; apply tot_ret. }
  intros cls. unfold register_union_fragment_members. apply tots_modify. intros r. apply tot_bind; [apply tot_import|]. intros; apply tot_ret.
Qed.
End Body.

Lemma dkeys_no : forall {A} n (m : dict A), ~ In n (dkeys m) -> dget n m = None.
Proof. intros A n m H. apply dmem_no in H. unfold dmem in H. now destruct (dget n m). Qed.
Lemma fragment_step : forall pre f post r, l = pre ++ f :: post -> finv pre r ->
  exists cs r', generate_fragment c st s pc (print_fragment ps) add f r = (Ok cs, r') /\ finv (pre ++ [f]) r'.
Proof.
  intros pre f post r E (B & K & KD & D & KI & R & Q). assert (In f (fragments_of d)) as Hf by (apply in_l; rewrite E; apply in_elt).
  assert (~ In (fr_name f) (map fr_name pre)) as N by (pose proof names_NoDup as N; rewrite E in N; now apply NoDup_mid in N).
  destruct (vd_conditions s d VD f Hf) as (Co & _).
  set (ra := with_frags (dset (fr_name f) (style_fragment_class st (fr_name f)) (r_frags r)) r).
  set (rb := with_fragdocs (dset (fr_name f) (print_fragment ps f) (r_fragdocs ra)) ra).
  set (rc := with_fragtypes (dset (fr_name f) (fr_on f) (r_fragtypes rb)) rb).
  assert (Na : ~ In (fr_name f) (dkeys (r_frags r))) by now rewrite K. assert (Nb : ~ In (fr_name f) (dkeys (r_fragdocs r))) by now rewrite KD.
  assert (during pre f rc) as Du.
  { split; [exact B|]. rewrite map_app. cbn [map]. split; [cbn; rewrite dkeys_snoc by exact Na; now rewrite K|]. split; [cbn; rewrite dkeys_snoc by exact Nb; now rewrite KD|].
    split. { intros g Hg. cbn. rewrite dget_dset. destruct (String.eqb_spec (fr_name g) (fr_name f)) as [X|X].
      - apply in_app_iff in Hg as [Hg|[<-|[]]]; [|reflexivity]. exfalso. apply N. rewrite <- X. now apply in_map.
      - apply in_app_iff in Hg as [Hg|[<-|[]]]; [now apply D|congruence]. }
    split; [exact KI|]. split; [|split; [cbn; rewrite dget_dset, String.eqb_refl; reflexivity|exact Q]].
    intros g Hg. destruct (R g Hg) as (h & F1 & F2 & F3 & F4 & F5). assert (fr_name g <> fr_name f) as X by (intros X; apply N; rewrite <- X; now apply in_map).
    exists h. split; [exact F1|]. cbn. unfold dmem in *. rewrite !dget_dset. destruct (String.eqb_spec (fr_name g) (fr_name f)); [contradiction|]. auto. }
  (* afterwards *)
  assert (forall g r1 r', tsame rc r1 -> tsame (g r1) r' ->
    (g = (fun r => r) /\ is_iface s (fr_on f) = false /\ is_union s (fr_on f) = false
     \/ (exists m, g = (fun r => with_iffrag (dset (fr_name f) m (r_iffrag r)) r) /\ is_iface s (fr_on f) = true /\ is_union s (fr_on f) = false /\ forall i, In i (implementations s (fr_on f)) -> dmem i m = true)
     \/ (exists m, g = (fun r => with_ufrag (dset (fr_name f) m (r_ufrag r)) r) /\ is_iface s (fr_on f) = false)) -> finv (pre ++ [f]) r') as After.
  { intros g r1 r' S1 S2 H. pose proof (the_fragment_of d f (vd_fragments s d VD) Hf) as Tf.
    assert (during pre f r1) as Du1.
    { destruct Du as (U1 & U2 & U3 & U4 & U5 & U6 & U7 & U8). destruct (fside_eq _ _ S1) as (A1 & A2 & A3 & A4 & A5 & A6). repeat split; rewrite ?A1, ?A2, ?A3, ?A4; auto.
      - now apply (base_same rc). - now apply (base_same rc). - now apply (base_same rc). - now apply (base_same rc). - now apply (base_same rc).
      - intros x Hx. eapply ready_same; [exact S1|]. auto.
      - destruct S1 as (_ & _ & _ & _ & _ & _ & X). unfold fside in X. injection X. intros. congruence. }
    destruct Du1 as (U1 & U2 & U3 & U4 & U5 & U6 & U7 & U8).
    assert (finv (pre ++ [f]) (g r1)) as F.
    { assert (dget (fr_name f) (r_iffrag r1) = None) as Ni by (apply dkeys_no; intros X; apply N, U5, X).
      assert (dmem (fr_name f) (r_frags r1) = true) as Mf by (apply dmem_In; rewrite U2, map_app; apply in_app_iff; right; now left).
      assert (incl (map fr_name pre) (map fr_name (pre ++ [f]))) as Im by (rewrite map_app; intros x Hx; apply in_app_iff; now left).
      destruct H as [(-> & I1 & I2)|[(m & -> & I1 & I2 & Hm)|(m & -> & I1)]].
      - split; [exact U1|]. split; [exact U2|]. split; [exact U3|]. split; [exact U4|]. split; [intros x Hx; apply Im; auto|]. split; [|exact U8].
        intros x Hx. apply in_app_iff in Hx as [Hx|[<-|[]]]; [now apply U6|]. exists f. split; [exact Tf|]. split; [exact Mf|]. split; [exact U7|]. rewrite I1. split; [exact Ni|]. congruence.
      - split; [exact U1|]. split; [exact U2|]. split; [exact U3|]. split; [exact U4|]. split.
        { cbn. intros x Hx. rewrite dkeys_dset in Hx. destruct (dmem (fr_name f) (r_iffrag r1)); [apply Im; auto|]. apply in_app_iff in Hx as [Hx|[<-|[]]]; [apply Im; auto|]. rewrite map_app. apply in_app_iff. right. now left. }
        split; [|exact U8]. intros x Hx. apply in_app_iff in Hx as [Hx|[<-|[]]].
        + assert (fr_name x <> fr_name f) as X by (intros X; apply N; rewrite <- X; now apply in_map). destruct (U6 x Hx) as (h & F1 & F2 & F3 & F4 & F5). exists h. cbn. rewrite dget_dset. destruct (String.eqb_spec (fr_name x) (fr_name f)); [contradiction|]. auto.
        + exists f. cbn. rewrite dget_dset, String.eqb_refl, I1. split; [exact Tf|]. split; [exact Mf|]. split; [exact U7|]. split; [eauto|]. congruence.
      - split; [exact U1|]. split; [exact U2|]. split; [exact U3|]. split; [exact U4|]. split; [intros x Hx; apply Im; auto|]. split; [|exact U8]. intros x Hx. apply in_app_iff in Hx as [Hx|[<-|[]]].
        + assert (fr_name x <> fr_name f) as X by (intros X; apply N; rewrite <- X; now apply in_map). destruct (U6 x Hx) as (h & F1 & F2 & F3 & F4 & F5). exists h. cbn. unfold dmem in *. rewrite !dget_dset. destruct (String.eqb_spec (fr_name x) (fr_name f)); [contradiction|]. auto.
        + exists f. cbn. rewrite I1. split; [exact Tf|]. split; [exact Mf|]. split; [exact U7|]. split; [exact Ni|]. intros _. unfold dmem. rewrite dget_dset, String.eqb_refl. reflexivity. }
    destruct F as (W1 & W2 & W3 & W4 & W5 & W6 & W7). destruct (fside_eq _ _ S2) as (A1 & A2 & A3 & A4 & A5 & A6). split; [now apply (base_same (g r1))|]. rewrite A1, A2, A4.
    split; [exact W2|]. split; [exact W3|]. split; [exact W4|]. split; [exact W5|]. split; [intros x Hx; eapply ready_same; [exact S2|auto]|].
    destruct S2 as (_ & _ & _ & _ & _ & _ & X). unfold fside in X. injection X. intros. congruence. }
  unfold generate_fragment. destruct (get_type s (fr_on f)) as [t|] eqn:G; [|unfold is_composite, is_object, is_iface, is_union in Co; rewrite G in Co; discriminate]. cbn [from_opt].
  eapply (bind_exv _ _ _ (fun a r1 => a = t /\ r1 = r)); [exists t, r; auto|]. intros a0 r1 (-> & ->).
  eapply (bind_exv _ _ _ (fun a r1 => a = style_fragment_class st (fr_name f) /\ r1 = ra)). { unfold generate_fragment_class. rewrite (generate_in_run _ _ _ _ _ (dmem_no _ _ Na)). eexists; eexists; split; [reflexivity|]. auto. }
  intros a1 r1 (-> & ->). eapply (bind_exv _ _ _ (fun _ r1 => r1 = rb)).
  { unfold register_fragment_document, bind, gets, massert. assert (dmem (fr_name f) (r_fragdocs ra) = false) as -> by (apply dmem_no; exact Nb). cbn. eexists; eexists; split; reflexivity. }
  intros _ r1 ->. eapply (bind_exv _ _ _ (fun _ r1 => r1 = rc)); [eexists; eexists; split; reflexivity|]. intros _ r1 ->.
  destruct t; try (unfold is_composite, is_object, is_iface, is_union in Co; rewrite G in Co; discriminate).
  - destruct (object_total pre f post rc E Du (style_fragment_class st (fr_name f)) desc _ _ _ _ G rc (tsame_refl _)) as (cs & r2 & E2 & S2). exists cs, r2. split; [exact E2|].
    eapply (After (fun r => r)); [exact S2|apply tsame_refl|]. left. unfold is_iface, is_union. rewrite G. auto.
  - destruct (interface_total pre f post rc E Du _ _ _ G rc (tsame_refl _)) as (cs & r1 & r2 & E2 & S1 & S2). exists cs, r2. split; [exact E2|].
    match type of S2 with tsame (with_iffrag (dset _ ?m _) _) _ => eapply (After (fun r => with_iffrag (dset (fr_name f) m (r_iffrag r)) r) r1 r2 S1 S2); right; left; exists m end. split; [reflexivity|]. unfold is_iface, is_union. rewrite G. repeat split. intros i Hi. apply impls_in. now left.
  - destruct (union_total pre f post rc E Du desc _ _ G rc (tsame_refl _)) as (cs & r1 & r2 & E2 & S1 & S2). exists cs, r2. split; [exact E2|].
    match type of S2 with tsame (with_ufrag (dset _ ?m _) _) _ => eapply (After (fun r => with_ufrag (dset (fr_name f) m (r_ufrag r)) r) r1 r2 S1 S2); right; right; exists m end. split; [reflexivity|]. unfold is_iface. now rewrite G.
Qed.
Lemma fragments_total : forall r, finv [] r -> exists cs r', fragments_plugin c st s pc (print_fragment ps) add d r = (Ok cs, r') /\ finv l r'.
Proof.
  intros r H. unfold fragments_plugin. eapply (bind_exv _ _ _ (fun a r1 => a = l /\ r1 = r)); [exists l, r; unfold lift; rewrite El; auto|]. intros a r1 (-> & ->).
  apply (mconcat_total _ finv); [exact H|]. intros pre f post r1 E. apply (fragment_step _ _ _ _ E).
Qed.
End Fragments.
