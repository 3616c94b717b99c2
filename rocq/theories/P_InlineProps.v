(** Documents of generated operations. *)
From Verif Require Import Base PyAst Gql Config Stylers Registry Utils Documents Inline Print Recurse Fragments Operations
  Spec_Docs Spec_Inline P_Base P_Gql P_Documents P_Topo P_Monad P_Annot P_Inline P_Print P_Recurse.
From Coq Require Import Lia Permutation.

(** ** Frame *)
Definition Kfrag := [KImp; KBui; KFwd; KFty; KIff; KUff].
Lemma ev_sel : forall st c s f parent fd K, incl Ksel K -> ev st K (type_field_node c st s f parent fd).
Proof. intros. eapply ev_incl; [eassumption|apply ev_type_field_node]. Qed.
Lemma ev_iface_item' : forall c st s strict fields parent p x, ev st Ksel (iface_item s (type_field_node c st s) strict fields parent p x).
Proof.
  intros. apply ev_iface_item. destruct x as [g|n d|cond d l]; cbn; [|exact I|]; intros; intros ? ?; apply ev_type_field_node.
Qed.
Lemma ev_walk' : forall st K {A} (item : A -> selection -> M A) sels a,
  (forall x a, ev st K (item a x)) -> ev st K (walk item sels a).
Proof.
  intros st K A item [l|] a H; [|apply ev_ret]. unfold walk. apply ev_mfold. intros a' x Hx.
  destruct (is_typename_field x); [apply ev_ret|]. apply H.
Qed.
Ltac incl_dec := unfold Ksel; intros ? ?; cbn in *; intuition.
Ltac ev_go := repeat (cbn beta zeta; first
  [ progress ev_one
  | match goal with
    | |- ev _ _ (walk _ _ _) => apply ev_walk'; intros
    | |- ev _ _ (type_field_node _ _ _ _ _ _) => apply ev_sel; incl_dec
    | |- ev _ _ (iface_item _ _ _ _ _ _ _) => eapply ev_incl; [|apply ev_iface_item']; incl_dec
    | |- ev ?st _ (implementing_class ?c ?s _ _ _ _) => eapply ev_incl; [|apply (ev_implementing_class c st s)]; incl_dec
    | |- ev _ _ (match ?x with _ => _ end) => destruct x
    end ]).
Section Frame.
Variable c : gconfig.
Variable st : list styler.
Variable s : schema.
Variable add : string -> res string.
Lemma ev_replace : forall t, ev st [] (replace_iteratively add t).
Proof. intros. unfold replace_iteratively. ev_tac. Qed.
Hint Resolve ev_replace : evdb.
Lemma ev_interface_fragment : forall pc f d fs, ev st [KImp; KBui; KFwd; KFty; KIff; KUff] (interface_fragment c st s pc f d fs).
Proof. intros. unfold interface_fragment. ev_go. Qed.
Lemma ev_object_fragment_item : forall n cls acc x, ev st Ksel (object_fragment_item c st s n cls acc x).
Proof. intros n cls [[a b] d] [g|f ds|cond ds l]; unfold object_fragment_item; ev_go. Qed.
Hint Resolve ev_object_fragment_item : evdb.
Lemma ev_object_fragment : forall pc pf f n d, ev st Ksel (object_fragment c st s pc pf add f n d).
Proof. intros. unfold object_fragment, fragment_meta, get_fragment_bases. ev_go. Qed.
Lemma ev_union_fragment : forall pc f d ms, ev st [KImp; KBui; KFwd; KFty; KIff; KUff] (union_fragment c st s pc f d ms).
Proof. intros. unfold union_fragment, union_fragment_item, union_inline, get_fragment_bases. ev_go. Qed.
Hint Resolve ev_type_annotation : evdb.
Definition Kop := [KImp; KBui; KFwd; KSin; KQry; KMut; KSub].
Lemma ev_arguments_class : forall pc o n, ev st Ksel (arguments_class c st pc o n).
Proof. intros. unfold arguments_class, argument_field, generate_arguments_config, bases_or_default. ev_go. Qed.
Hint Resolve ev_arguments_class : evdb.
Lemma ev_generate_operation : forall pc po doc_of o, ev st Kop (generate_operation c st s pc po add doc_of o).
Proof. intros. unfold generate_operation, operation_class, root_item, bases_or_default. ev_go. Qed.
End Frame.

(** ** The registered fragment documents *)
Section Docs.
Variable c : gconfig.
Variable st : list styler.
Variable s : schema.
Variable pcf : frcfg.
Variable pf : fragment -> string.
Variable add : string -> res string.
Lemma fragment_docs : forall f r x r', generate_fragment c st s pcf pf add f r = (Ok x, r') ->
  dget (fr_name f) (r_fragdocs r) = None /\ r_fragdocs r' = dset (fr_name f) (pf f) (r_fragdocs r).
Proof.
  intros f r x r' H. unfold generate_fragment in H.
  apply bind_ok in H as (t & r1 & H1 & H). apply from_opt_ok in H1 as [Et E1]. subst r1.
  apply bind_ok in H as (n & r2 & H2 & H).
  assert (E2 : r_fragdocs r2 = r_fragdocs r).
  { eapply ev_ok in H2; [|apply ev_generate_fragment_class]. eapply frame_fragdocs; [|exact H2]. cbn; intuition discriminate. }
  apply bind_ok in H as (u & r3 & H3 & H). unfold register_fragment_document in H3. minv.
  match goal with H : negb (dmem _ _) = true |- _ => rename H into Hm end.
  match goal with H : register_fragment_type _ _ _ = _ |- _ => rename H into Ht end.
  assert (E : forall K, ev st K (match t with
     | TInterface d _ fs => interface_fragment c st s pcf f d fs
     | TObject d _ _ _ => object_fragment c st s pcf pf add f n d
     | TUnion d ms => union_fragment c st s pcf f d ms
     | _ => raise TypeErrorC "'NoneType' object is not iterable"
     end) -> ~ In KDoc K -> r_fragdocs r' = dset (fr_name f) (pf f) (r_fragdocs r2)).
  { intros K HK Hn. eapply ev_ok in H; [|exact HK]. eapply frame_fragdocs in H; [|exact Hn]. rewrite H.
    eapply ev_ok in Ht; [|apply (ev_register_fragment_type st)]. eapply frame_fragdocs in Ht; [|cbn; intuition discriminate].
    rewrite Ht. reflexivity. }
  rewrite E2 in *. split.
  - unfold dmem in Hm. now destruct (dget (fr_name f) (r_fragdocs r)).
  - apply (E [KImp; KBui; KFwd; KFty; KIff; KUff]); [|cbn; intuition discriminate].
    destruct t; try apply ev_raise; [|apply ev_interface_fragment|apply ev_union_fragment].
    eapply ev_incl; [|apply ev_object_fragment]. incl_dec.
Unshelve. all: exact add.
Qed.
Lemma fragments_docs : forall fs r cs r', mmap (generate_fragment c st s pcf pf add) fs r = (Ok cs, r') ->
  NoDup (map fr_name fs) -> forall n,
  dget n (r_fragdocs r') = match find (fun f => String.eqb (fr_name f) n) fs with
                           | Some f => Some (pf f) | None => dget n (r_fragdocs r) end.
Proof.
  induction fs as [|f fs IH]; intros r cs r' H Hn n; cbn in H; minv; [reflexivity|].
  apply fragment_docs in H0 as [E0 E1]. inversion Hn as [|? ? Hnotin Hn']; subst.
  erewrite IH by eassumption. cbn [find]. rewrite E1, dget_dset. destruct (String.eqb_spec (fr_name f) n) as [<-|Hne].
  - rewrite String.eqb_refl. destruct (find _ fs) as [g|] eqn:Eg; [|reflexivity].
    apply find_some in Eg as [Hg Eg]. apply String.eqb_eq in Eg. exfalso. apply Hnotin. rewrite <- Eg. now apply in_map.
  - destruct (String.eqb_spec n (fr_name f)); [congruence|reflexivity].
Qed.
Lemma find_frag : forall fs n, NoDup (map fr_name fs) ->
  (forall f, In f fs -> fr_name f = n -> find (fun f => String.eqb (fr_name f) n) fs = Some f)
  /\ (~ In n (map fr_name fs) -> find (fun f => String.eqb (fr_name f) n) fs = None).
Proof.
  intros fs n Hn. split.
  - induction fs as [|g fs IH]; intros f Hf E; [contradiction|]. inversion Hn as [|? ? Hnotin Hn']; subst. cbn.
    destruct Hf as [->|Hf]; [now rewrite String.eqb_refl|].
    destruct (String.eqb_spec (fr_name g) (fr_name f)) as [E|_]; [|auto]. exfalso. apply Hnotin. rewrite E. now apply in_map.
  - intros H. destruct (find _ fs) as [g|] eqn:E; [|reflexivity]. apply find_some in E as [Hg E]. apply String.eqb_eq in E.
    exfalso. apply H. subst n. now apply in_map.
Qed.
Lemma plugin_docs : forall d r cs r', unique_fragment_names d -> r_fragdocs r = [] ->
  fragments_plugin c st s pcf pf add d r = (Ok cs, r') ->
  (forall f, In f (fragments_of d) -> dget (fr_name f) (r_fragdocs r') = Some (pf f))
  /\ (forall n, ~ In n (map fr_name (fragments_of d)) -> dget n (r_fragdocs r') = None).
Proof.
  intros d r cs r' U E H. unfold fragments_plugin in H. destruct (ordering_C01 d U) as (l & El & P).
  minv. rewrite El in *. match goal with H : Ok _ = Ok _ |- _ => injection H as <- end.
  apply mconcat_ok in H as (yss & H & ->).
  assert (P' : Permutation (map fr_name l) (map fr_name (fragments_of d))) by now apply Permutation_map.
  assert (Hn : NoDup (map fr_name l)) by (eapply Permutation_NoDup; [symmetry; exact P'|exact U]).
  split.
  - intros f Hf. erewrite fragments_docs by eassumption. destruct (find_frag l (fr_name f) Hn) as [F _].
    erewrite F; [reflexivity| |reflexivity]. eapply Permutation_in; [symmetry; exact P|assumption].
  - intros n Hnin. erewrite fragments_docs by eassumption. destruct (find_frag l n Hn) as [_ F]. rewrite F, E; [reflexivity|].
    intros Hc. apply Hnin. eapply Permutation_in; eassumption.
Qed.
End Docs.

(** ** Operations *)
Lemma operation_document : forall c st s pc po add doc_of o r cs r',
  generate_operation c st s pc po add doc_of o r = (Ok cs, r') ->
  exists t, stored_document cs t /\ replace_fuel add (S (List.length (r_fragdocs r))) (r_fragdocs r) (po o) [] = Ok t.
Proof.
  intros c st s pc po add doc_of o r cs r' H. unfold generate_operation in H.
  apply bind_ok in H as (name & r1 & H1 & H). apply bind_ok in H as (cb & r2 & H2 & H).
  apply bind_ok in H as (root & r3 & H3 & H). apply bind_ok in H as (b & r4 & H4 & H).
  apply bind_ok in H as (u & r5 & H5 & H). apply bind_ok in H as (t & r6 & H6 & H).
  assert (Ev : evolve st Kop r r5).
  { apply from_opt_ok in H1 as [_ ->]. apply from_opt_ok in H3 as [_ ->].
    eapply evolve_trans; [eapply ev_ok; [|exact H2]|eapply evolve_trans; [eapply ev_ok; [|exact H4]|eapply ev_ok; [|exact H5]]];
      unfold Kop.
    - unfold operation_class, bases_or_default. ev_go.
    - unfold root_item. ev_go.
    - ev_go. }
  apply frame_fragdocs in Ev; [|cbn; intuition discriminate].
  unfold replace_iteratively in H6. minv. rewrite Ev in *. exists t. split; [|assumption].
  do 5 eexists. split; [reflexivity|]. split.
  - apply in_or_app; right. apply in_or_app; right. apply in_or_app; right. apply in_or_app; left. left. reflexivity.
  - right. now left.
Qed.

Section Needs.
Variable ps : string -> bool -> string.
Variable add : string -> res string.
Variable d : document.
Variable docs : dict string.
Hypothesis U : unique_fragment_names d.
Hypothesis RF : forall f, In f (fragments_of d) -> readable_fragment ps f /\ add (print_fragment ps f) = Ok (print_fragment ps (with_typename f)).
Hypothesis D1 : forall f, In f (fragments_of d) -> dget (fr_name f) docs = Some (print_fragment ps f).
Hypothesis D2 : forall n, ~ In n (map fr_name (fragments_of d)) -> dget n docs = None.
Lemma found_N : forall t f, found t f <-> In f (N t).
Proof.
  intros t f. unfold found, N, nonempty. rewrite filter_In, negb_true_iff. split; intros [H1 H2]; split; auto.
  - now apply String.eqb_neq.
  - now apply String.eqb_neq.
Qed.
Lemma doc_frag : forall n p, doc add docs n = Some p ->
  exists f, In f (fragments_of d) /\ fr_name f = n /\ p = print_fragment ps (with_typename f).
Proof.
  intros n p H. unfold doc in H. destruct (in_dec string_dec n (map fr_name (fragments_of d))) as [Hin|Hn].
  - apply in_map_iff in Hin as (f & <- & Hf). rewrite (D1 f Hf) in H. destruct (RF f Hf) as [_ E]. rewrite E in H.
    injection H as <-. eauto.
  - rewrite (D2 n Hn) in H. discriminate.
Qed.
Lemma frag_found : forall f n, In f (fragments_of d) -> (found (print_fragment ps (with_typename f)) n <-> spread_in True (fr_sels f) n).
Proof.
  intros f n Hf. destruct (RF f Hf) as [Hr _]. rewrite found_N, (fragment_N ps) by now apply with_typename_readable.
  rewrite with_typename_spreads. apply (spreads_list ps).
Qed.
Lemma op_found : forall o n, readable_operation ps o -> (found (print_operation ps o) n <-> spread_in True (op_sels o) n).
Proof. intros o n H. rewrite found_N, (operation_N ps) by assumption. apply (spreads_list ps). Qed.
Lemma reached_needs : forall o n, readable_operation ps o -> reached found (doc add docs) (print_operation ps o) n -> needs d o n.
Proof.
  intros o n Ho H. induction H as [f H|g t f Hg IH Hd H].
  - left. now apply op_found in H.
  - apply doc_frag in Hd as (x & Hx & En & ->). apply frag_found in H; [|assumption].
    assert (Dep : depends True d g f) by (exists x; auto).
    right. destruct IH as [IH|(h & Hh & IH)]; [exists g|exists h]; split; auto; [now constructor|].
    eapply t_trans; [eassumption|now constructor].
Qed.
Lemma needs_In : forall o fs parts, readable_operation ps o -> Forall2 (fun f p => doc add docs f = Some p) fs parts ->
  (forall f, f <> "" -> In f (flat_map findall parts ++ findall (print_operation ps o)) -> In f fs) ->
  forall n, needs d o n -> In n fs.
Proof.
  intros o fs parts Ho HF HC n Hn.
  assert (Here : forall m, spread_in True (op_sels o) m -> In m fs).
  { intros m Hm. apply op_found in Hm as [H1 H2]; [|assumption]. apply HC; [assumption|]. apply in_app_iff; auto. }
  assert (Step : forall a b, depends True d a b -> In a fs -> In b fs).
  { intros a b (f & Hf & <- & Hb) Ha. apply frag_found in Hb as [H1 H2]; [|assumption]. apply HC; [assumption|].
    apply in_app_iff. left. apply in_flat_map. exists (print_fragment ps (with_typename f)). split; [|assumption].
    assert (Ed : doc add docs (fr_name f) = Some (print_fragment ps (with_typename f))).
    { unfold doc. rewrite (D1 f Hf). destruct (RF f Hf) as [_ ->]. reflexivity. }
    clear -HF Ha Ed. induction HF as [|a p fs parts Hp HF IH]; [contradiction|]. destruct Ha as [->|Ha]; [|right; auto].
    left. congruence. }
  destruct Hn as [Hn|(g & Hg & Hn)]; [auto|]. apply Here in Hg. clear -Step Hg Hn.
  induction Hn as [a b Hab|a b e _ IH1 _ IH2]; eauto.
Qed.
Lemma frag_list : forall fs parts, Forall2 (fun f p => doc add docs f = Some p) fs parts ->
  exists l, map fr_name l = fs /\ incl l (fragments_of d) /\ parts = map (fun f => print_fragment ps (with_typename f)) l.
Proof.
  intros fs parts H. induction H as [|n p fs parts Hp H (l & E1 & E2 & E3)].
  - exists []. repeat split. intros ? [].
  - apply doc_frag in Hp as (f & Hf & En & Ep). exists (f :: l). subst. repeat split.
    intros x [<-|Hx]; auto.
Qed.
Lemma grown_refl : forall l, Forall2 grown_sel l l.
Proof. induction l; constructor; auto. constructor. Qed.
Lemma typename_defines : forall f, defines ps f (print_fragment ps (with_typename f)).
Proof.
  intros f. exists (with_typename f). repeat split. unfold with_typename. cbn [fr_sels].
  destruct (existsb is_typename_field (fr_sels f)) eqn:E.
  - rewrite app_nil_r. apply g_same, grown_refl.
  - apply g_add; [apply grown_refl|]. intros (g & Hg & En).
    assert (X : existsb is_typename_field (fr_sels f) = true); [|congruence].
    apply existsb_exists. exists (SelField g). split; [assumption|]. destruct g. cbn in *. subst. reflexivity.
Qed.
Lemma operation_self_contained : forall c st s pc doc_of o r cs r', r_fragdocs r = docs -> readable_operation ps o ->
  generate_operation c st s pc (print_operation ps) add doc_of o r = (Ok cs, r') -> self_contained ps d o cs.
Proof.
  intros c st s pc doc_of o r cs r' Er Ho H. apply operation_document in H as (t & Hs & Hr). rewrite Er in Hr.
  pose proof (replace_result add docs (print_operation ps o)) as R. rewrite Hr in R.
  destruct R as (fs & parts & Hn & HF & Hm & Hd & HC).
  destruct (frag_list _ _ HF) as (l & <- & Hl & ->). exists l, (map (fun f => print_fragment ps (with_typename f)) l), t. repeat split; auto.
  - intros Hin. now apply reached_needs, Hm.
  - intros Hin. eapply needs_In; eassumption.
  - clear. induction l; constructor; auto. apply typename_defines.
Qed.
Lemma operation_known : forall c st s pc doc_of o r cs r' n, r_fragdocs r = docs -> readable_operation ps o ->
  generate_operation c st s pc (print_operation ps) add doc_of o r = (Ok cs, r') -> needs d o n ->
  In n (map fr_name (fragments_of d)).
Proof.
  intros c st s pc doc_of o r cs r' n Er Ho H Hn. eapply operation_self_contained in H; [|eassumption|eassumption].
  destruct H as (fs & parts & t & _ & Hi & _ & Hin & _). apply Hin in Hn. apply in_map_iff in Hn as (f & <- & Hf).
  now apply in_map, Hi.
Qed.
End Needs.

Lemma mmap_inv' : forall {A B} (f : A -> M B) (I : reg -> Prop) (Q : A -> B -> Prop) l r ys r',
  mmap f l r = (Ok ys, r') -> I r ->
  (forall x r1 y r2, In x l -> I r1 -> f x r1 = (Ok y, r2) -> I r2 /\ Q x y) -> Forall2 Q l ys.
Proof. intros. eapply mmap_inv; eassumption. Qed.
Lemma plugin_self_contained : forall c st s pcf pco doc_of ps add d r cs1 r1 r2 cs2 r3,
  unique_fragment_names d -> r_fragdocs r = [] ->
  (forall f, In f (fragments_of d) -> readable_fragment ps f /\ add (print_fragment ps f) = Ok (print_fragment ps (with_typename f))) ->
  Forall (readable_operation ps) (operations_of d) ->
  fragments_plugin c st s pcf (print_fragment ps) add d r = (Ok cs1, r1) ->
  r_fragdocs r2 = r_fragdocs r1 ->
  operations_plugin c st s pco (print_operation ps) add doc_of d r2 = (Ok cs2, r3) ->
  exists css, cs2 = List.concat css /\ Forall2 (self_contained ps d) (operations_of d) css.
Proof.
  intros c st s pcf pco doc_of ps add d r cs1 r1 r2 cs2 r3 U E0 RF RO H1 E2 H2.
  destruct (plugin_docs _ _ _ _ _ _ _ _ _ _ U E0 H1) as [D1 D2].
  apply mconcat_ok in H2 as (css & H2 & ->). exists css. split; [reflexivity|].
  eapply (mmap_inv' _ (fun r => r_fragdocs r = r_fragdocs r1)); [exact H2|assumption|].
  intros o ra cs rb Ho Ea H. split.
  - rewrite <- Ea. eapply frame_fragdocs; [|eapply ev_ok; [apply ev_generate_operation|exact H]]. cbn; intuition discriminate.
  - rewrite Forall_forall in RO. eapply operation_self_contained with (docs := r_fragdocs r1); eauto.
Qed.
Lemma unknown_reported : forall c st s pcf pco doc_of ps add d r cs1 r1 r2 o n,
  unique_fragment_names d -> r_fragdocs r = [] ->
  (forall f, In f (fragments_of d) -> readable_fragment ps f /\ add (print_fragment ps f) = Ok (print_fragment ps (with_typename f))) ->
  readable_operation ps o ->
  fragments_plugin c st s pcf (print_fragment ps) add d r = (Ok cs1, r1) ->
  r_fragdocs r2 = r_fragdocs r1 ->
  needs d o n -> ~ In n (map fr_name (fragments_of d)) ->
  exists e, fst (generate_operation c st s pco (print_operation ps) add doc_of o r2) = Err e.
Proof.
  intros c st s pcf pco doc_of ps add d r cs1 r1 r2 o n U E0 RF RO H1 E2 Hn Hnot.
  destruct (plugin_docs _ _ _ _ _ _ _ _ _ _ U E0 H1) as [D1 D2].
  destruct (generate_operation _ _ _ _ _ _ _ _ _) as [[cs|e] r3] eqn:E; [|now exists e]. exfalso. apply Hnot.
  eapply (operation_known ps add d (r_fragdocs r1) RF D1 D2); [exact E2|exact RO|exact E|exact Hn].
Qed.
(** ** C04 at the level of replace_iteratively *)
Lemma inlining_C04 : forall add text r t r', replace_iteratively add text r = (Ok t, r') ->
  exists fs parts, NoDup fs /\ Forall2 (fun f p => text_of add (r_fragdocs r) f = Some p) fs parts
    /\ (forall f, In f fs -> mentioned (text_of add (r_fragdocs r)) text f) /\ document_of parts text t.
Proof.
  intros add text r t r' H. unfold replace_iteratively, bind, gets, lift in H. cbn beta iota in H.
  pose proof (replace_result add (r_fragdocs r) text) as R.
  destruct (replace_fuel _ _ _ _ _) as [u|x]; [|discriminate]. injection H as -> _.
  destruct R as (fs & parts & H1 & H2 & H3 & H4 & _). exists fs, parts. repeat split; auto.
  intros f Hf. now apply found_mentioned, H3.
Qed.
Lemma terminates_C04 : forall add text r e r', (forall d x, add d = Err x -> ecls x <> OutOfFuelC) ->
  replace_iteratively add text r = (Err e, r') -> ecls e <> OutOfFuelC.
Proof.
  intros add text r e r' Ha H. unfold replace_iteratively, bind, gets, lift in H. cbn beta iota in H.
  pose proof (replace_result add (r_fragdocs r) text) as R.
  destruct (replace_fuel _ _ _ _ _) as [t|x]; [discriminate|]. injection H as <- _.
  destruct R as (f & _ & [[_ ->]|(d & _ & E)]); [discriminate|eauto].
Qed.

