(** Proofs about variable and return annotations and default values. *)
From Verif Require Import Base PyAst Gql Config Stylers Registry Utils PySem Spec_Types Spec_Annot P_Base P_Types P_Monad.

(** ** default values *)
Fixpoint pyval_ind' (P : pyval -> Prop) (Hn : P PNone) (Hb : forall b, P (PBool b)) (Hi : forall z, P (PInt z))
  (Hf : forall s, P (PFloat s)) (Hs : forall s, P (PStr s))
  (Hl : forall l, Forall P l -> P (PList l)) (Hd : forall l, Forall (fun kv => P (snd kv)) l -> P (PDict l)) (v : pyval) : P v :=
  match v with
  | PNone => Hn | PBool b => Hb b | PInt z => Hi z | PFloat s => Hf s | PStr s => Hs s
  | PList l => Hl l ((fix go l : Forall P l := match l with [] => Forall_nil _ | x :: r =>
      Forall_cons _ (pyval_ind' P Hn Hb Hi Hf Hs Hl Hd x) (go r) end) l)
  | PDict l => Hd l ((fix go l : Forall (fun kv => P (snd kv)) l := match l with [] => Forall_nil _ | x :: r =>
      Forall_cons _ (pyval_ind' P Hn Hb Hi Hf Hs Hl Hd (snd x)) (go r) end) l)
  end.
Lemma pset_fresh : forall k v d, (forall k' v', In (k', v') d -> key_eqb k k' = false) -> pset k v d = d ++ [(k, v)].
Proof.
  intros k v d. induction d as [|[k' v'] d IH]; intros H; [reflexivity|]. cbn. rewrite (H k' v') by now left.
  f_equal. apply IH. intros; eapply H; right; eassumption.
Qed.
Lemma pdict_fresh : forall (l : list (string * pv)) (acc : list (pv * pv)),
  NoDup (map fst l) -> (forall k v k' v', In (k, v) l -> In (k', v') acc -> key_eqb (PVConst (CStr k)) k' = false) ->
  fold_left (fun d kv => pset (fst kv) (snd kv) d) (map (fun kv => (PVConst (CStr (fst kv)), snd kv)) l) acc
  = acc ++ map (fun kv => (PVConst (CStr (fst kv)), snd kv)) l.
Proof.
  induction l as [|[k v] l IH]; intros acc HN HA; cbn; [now rewrite app_nil_r|]. inversion HN as [|? ? H1 H2]; subst.
  rewrite pset_fresh by (intros; eapply HA; [left; reflexivity|eassumption]). rewrite IH.
  - now rewrite <- app_assoc.
  - assumption.
  - intros k0 v0 k' v' I1 I2. apply in_app_or in I2. destruct I2 as [I2|[I2|[]]]; [eapply HA; [right; eassumption|eassumption]|].
    injection I2 as <- <-. cbn. apply String.eqb_neq. intros ->. apply H1. now apply (in_map fst) in I1.
Qed.
Theorem defaults_C32 : forall glob subclass call env v, pyval_wf v ->
  eval glob subclass call env (convert_default_value_to_ast v) = POk (py_value v).
Proof.
  intros glob subclass call env v. induction v using pyval_ind'; try reflexivity.
  - cbn [pyval_wf convert_default_value_to_ast py_value eval]. intros W.
    assert (E : PySem.pmap (eval glob subclass call env) (map convert_default_value_to_ast l) = POk (map py_value l)).
    { induction H as [|x l Hx H IH]; [reflexivity|]. destruct W as [W1 W2]. cbn. rewrite (Hx W1). cbn. now rewrite (IH W2). }
    now rewrite E.
  - cbn [pyval_wf convert_default_value_to_ast py_value eval]. intros [N W].
    assert (E : PySem.pmap (fun kv => pbind (eval glob subclass call env (fst kv)) (fun k =>
                             pbind (eval glob subclass call env (snd kv)) (fun v => POk (k, v))))
                 (map (fun kv => (estr (fst kv), convert_default_value_to_ast (snd kv))) l)
                = POk (map (fun kv => (PVConst (CStr (fst kv)), py_value (snd kv))) l)).
    { clear N. induction H as [|x l Hx H IH]; [reflexivity|]. destruct W as [W1 W2]. cbn. rewrite (Hx W1). cbn. now rewrite (IH W2). }
    rewrite E. cbn [pbind]. f_equal. unfold pdict.
    replace (map (fun kv => (PVConst (CStr (fst kv)), py_value (snd kv))) l)
      with (map (fun kv => (PVConst (CStr (fst kv)), snd kv)) (map (fun kv => (fst kv, py_value (snd kv))) l))
      by (rewrite map_map; reflexivity).
    rewrite pdict_fresh; [reflexivity| |intros ? ? ? ? _ []]. now rewrite map_map.
Qed.

(** ** variables *)
Section Vars.
Variable st : list styler.
Definition same_maps (r r' : reg) : Prop :=
  r_scalars r' = r_scalars r /\ r_inputs r' = r_inputs r /\ r_enums r' = r_enums r.
Lemma same_refl : forall r, same_maps r r. Proof. repeat split. Qed.
Lemma same_trans : forall a b c, same_maps a b -> same_maps b c -> same_maps a c.
Proof. intros a b c (?&?&?) (?&?&?). repeat split; congruence. Qed.
Lemma class_for_same : forall r r' n c, same_maps r r' -> class_for st r' n c <-> class_for st r n c.
Proof.
  intros r r' n c (E1 & E2 & E3). split; intros H; inversion H; subst.
  all: try (apply cf_scalar; congruence); try (apply cf_input; congruence); try (apply cf_builtin; congruence);
    (eapply cf_enum; try assumption; [congruence|congruence|first [rewrite E3 in *; eassumption|rewrite <- E3 in *; eassumption]]).
Qed.
Lemma class_for_fun : forall r n c c', class_for st r n c -> class_for st r n c' -> c = c'.
Proof. intros r n c c' H1 H2. inversion H1; inversion H2; subst; congruence. Qed.
Lemma evolve_same : forall K r r', ~ In KSca K -> ~ In KInp K -> ~ In KEnu K -> evolve st K r r' -> same_maps r r'.
Proof.
  intros K r r' H1 H2 H3 E. split; [|split]; [eapply frame_scalars|eapply frame_inputs|eapply frame_enums]; eassumption.
Qed.
Lemma ev_any_input : forall n p, ev st [KImp; KFwd; KBui] (reference_any_input st n p).
Proof. intros. unfold reference_any_input. ev_tac. Qed.
Lemma ev_type_annotation : forall t ov o, ev st [KImp; KFwd; KBui] (recurse_type_annotation st ov t o).
Proof.
  assert (HI := ev_any_input). induction t; intros ov o; cbn [recurse_type_annotation]; [|destruct o|]; ev_tac; auto.
Qed.
Notation named := (named st).
Definition any_input_result (r : reg) (n : string) : res expr :=
  match dget n (r_scalars r) with
  | Some t => Ok (EName (last_comp t))
  | None => match dget n (r_inputs r) with
            | Some c => Ok (EName c)
            | None => if mem n built_in_keys then Ok (estr n)
                      else if dmem n (r_enums r) then Ok (EName (style_enum_class st n))
                      else Err (Exn NotImplementedErrorC n)
            end
  end.
Lemma any_input_eq : forall n r, named n ->
  exists r', same_maps r r' /\ reference_any_input st n "" r = (any_input_result r n, r').
Proof.
  intros n r [NI NE]. exists (snd (reference_any_input st n "" r)).
  destruct (reference_any_input st n "" r) as [x r'] eqn:E. cbn. split.
  { eapply evolve_same; [| | |eapply ev_any; [apply ev_any_input|eassumption]]; cbn; intuition discriminate. }
  f_equal. apply String.eqb_neq in NI, NE. rewrite String.eqb_sym in NI, NE.
  unfold any_input_result. unfold reference_any_input, try_except in E.
  unfold reference_scalar, bind, gets in E.
  destruct (dget n (r_scalars r)) as [t|] eqn:ES.
  { destruct (has_dot t); unfold register_import in E; [destruct (mem t py_noimport)|]; cbn in E; congruence. }
  change (is_cls NoScalarFoundC {| ecls := NoScalarFoundC; emsg := n |}) with true in E. cbn beta iota in E.
  unfold raise in E. cbn beta iota in E.
  change (is_cls NoScalarFoundC {| ecls := NoScalarFoundC; emsg := n |}) with true in E. cbn beta iota in E.
  unfold reference_inputtype, bind, gets in E. rewrite NI in E. cbn beta iota in E.
  destruct (dget n (r_inputs r)) as [c|] eqn:EI; [unfold ret in E; congruence|].
  unfold raise in E. cbn beta iota in E.
  change (is_cls NoInputTypeFoundC {| ecls := NoInputTypeFoundC; emsg := n |}) with true in E. cbn beta iota in E.
  unfold reference_enum in E. destruct (mem n built_in_keys).
  { unfold bind, register_builtin, add_forward, modify, ret in E. cbn beta iota in E. congruence. }
  unfold bind, gets in E. rewrite NE, orb_false_r in E. cbn beta iota zeta in E.
  destruct (dmem n (r_enums r)); cbn [negb] in E; [unfold ret in E; congruence|].
  unfold raise in E. cbn beta iota in E.
  change (is_cls NoEnumFoundC {| ecls := NoEnumFoundC; emsg := n |}) with true in E. cbn beta iota in E. congruence.
Qed.
Lemma any_input_class : forall r n e, any_input_result r n = Ok e ->
  exists c, class_for st r n c /\ (e = EName c \/ (In n built_in_keys /\ e = estr c)).
Proof.
  intros r n e H. unfold any_input_result in H.
  destruct (dget n (r_scalars r)) as [t|] eqn:ES; [injection H as <-; eexists; split; [eapply cf_scalar; eassumption|now left]|].
  destruct (dget n (r_inputs r)) as [c|] eqn:EI; [injection H as <-; eexists; split; [eapply cf_input; eassumption|now left]|].
  destruct (mem n built_in_keys) eqn:EB.
  { injection H as <-. apply mem_In in EB. eexists; split; [now apply cf_builtin|right; split; [exact EB|reflexivity]]. }
  destruct (dmem n (r_enums r)) eqn:EE; [|discriminate]. unfold dmem in EE. destruct (dget n (r_enums r)) eqn:G; [|discriminate].
  injection H as <-. apply mem_false in EB. eexists; split; [eapply cf_enum; eassumption|now left].
Qed.
Lemma any_input_total : forall r n c, class_for st r n c -> exists e, any_input_result r n = Ok e.
Proof.
  intros r n c H. unfold any_input_result. inversion H as [t E|c' E E2|E E2 E3|c' E E2 E3 E4]; subst.
  - rewrite E. eauto.
  - rewrite E, E2. eauto.
  - rewrite E, E2. apply mem_In in E3. rewrite E3. eauto.
  - rewrite E, E2. apply mem_false in E3. rewrite E3. unfold dmem. rewrite E4. eauto.
Qed.
Definition leaf_at (r : reg) (n : string) (e : expr) : Prop := any_input_result r n = Ok e.
Lemma leaf_at_ok : forall r, leaf_ok (leaf_at r) (class_for st r).
Proof.
  intros r n e H. destruct (any_input_class _ _ _ H) as (c & HC & HE). split.
  - destruct HE as [->|[_ ->]]; auto with nt.
  - intros v. assert (A : accepts e v <-> v = JLeaf c) by (destruct HE as [->|[_ ->]]; reflexivity).
    rewrite A. split; [intros ->; eauto|]. intros (c' & HC' & ->). f_equal. eapply class_for_fun; eassumption.
Qed.
Lemma any_input_same : forall r r' n, same_maps r r' -> any_input_result r' n = any_input_result r n.
Proof. intros r r' n (E1 & E2 & E3). unfold any_input_result. now rewrite E1, E2, E3. Qed.
Lemma annot_mono : forall tup (l1 l2 : string -> expr -> Prop) t o e, (forall n e, l1 n e -> l2 n e) -> annot tup l1 t o e -> annot tup l2 t o e.
Proof. intros tup l1 l2 t o e H A. induction A; constructor; auto. Qed.
(** the annotation, with the exact condition for success *)
Lemma same_import : forall n r, exists r', same_maps r r' /\ register_import n r = (Ok tt, r').
Proof. intros n r. unfold register_import. destruct (mem n py_noimport); eexists; (split; [|reflexivity]); repeat split. Qed.
Lemma type_annotation_eq : forall t o r, named (gty_name t) ->
  exists r', same_maps r r' /\
  match any_input_result r (gty_name t) with
  | Ok _ => exists e, recurse_type_annotation st None t o r = (Ok e, r') /\ annot false (leaf_at r) t o e
  | Err x => recurse_type_annotation st None t o r = (Err x, r')
  end.
Proof.
  induction t as [n|t IH|t IH]; intros o r HN; cbn [recurse_type_annotation gty_name] in *.
  - destruct (any_input_eq n r HN) as (r1 & S1 & E1).
    destruct (any_input_result r n) as [e|x] eqn:EA.
    + destruct o.
      * destruct (same_import "typing.Optional" r1) as (r2 & S2 & E2). exists r2. split; [eapply same_trans; eassumption|].
        exists (optional_of e). split; [|constructor; exact EA]. rewrite (bind_eq _ _ _ _ _ E1). unfold opt_wrap.
        now rewrite (bind_eq _ _ _ _ _ E2).
      * exists r1. split; [assumption|]. exists e. split; [|constructor; exact EA]. now rewrite (bind_eq _ _ _ _ _ E1).
    + exists r1. split; [assumption|]. now rewrite (bind_err _ _ _ _ _ E1).
  - destruct (same_import "typing.List" r) as (r1 & S1 & E1). destruct o.
    + destruct (same_import "typing.Optional" r1) as (r2 & S2 & E2).
      assert (S := same_trans _ _ _ S1 S2).
      destruct (IH true r2 HN) as (r3 & S3 & H3). exists r3. split; [eapply same_trans; eassumption|].
      rewrite (any_input_same _ _ _ S) in H3. rewrite (bind_eq _ _ _ _ _ E1), (bind_eq _ _ _ _ _ E2).
      destruct (any_input_result r (gty_name t)).
      * destruct H3 as (e' & H3 & A). exists (optional_of (list_of e')). split; [now rewrite (bind_eq _ _ _ _ _ H3)|].
        apply (an_list_opt false). eapply annot_mono; [|exact A]. intros n0 e0 HL. unfold leaf_at in *. now rewrite (any_input_same _ _ _ S) in HL.
      * now rewrite (bind_err _ _ _ _ _ H3).
    + destruct (IH true r1 HN) as (r3 & S3 & H3). exists r3. split; [eapply same_trans; eassumption|].
      rewrite (any_input_same _ _ _ S1) in H3. rewrite (bind_eq _ _ _ _ _ E1).
      destruct (any_input_result r (gty_name t)).
      * destruct H3 as (e' & H3 & A). exists (list_of e'). split; [now rewrite (bind_eq _ _ _ _ _ H3)|].
        apply (an_list false). eapply annot_mono; [|exact A]. intros n0 e0 HL. unfold leaf_at in *. now rewrite (any_input_same _ _ _ S1) in HL.
      * now rewrite (bind_err _ _ _ _ _ H3).
  - destruct (IH false r HN) as (r' & S & H). exists r'. split; [assumption|].
    destruct (any_input_result r (gty_name t)); [|assumption]. destruct H as (e' & H & A). exists e'. split; [assumption|].
    now constructor.
Qed.
Theorem annotation_C15 : forall t r, named (gty_name t) ->
  ((exists e r', recurse_type_annotation st None t true r = (Ok e, r')) <-> exists c, class_for st r (gty_name t) c)
  /\ forall e r', recurse_type_annotation st None t true r = (Ok e, r') ->
     forall v, accepts e v <-> inhab false (class_for st r) t v.
Proof.
  intros t r HN. destruct (type_annotation_eq t true r HN) as (r1 & S & H). split.
  - split.
    + intros (e & r' & E). destruct (any_input_result r (gty_name t)) eqn:EA.
      * destruct (any_input_class _ _ _ EA) as (c & HC & _). eauto.
      * congruence.
    + intros (c & HC). destruct (any_input_total _ _ _ HC) as (e & E). rewrite E in H. destruct H as (e' & H & _). eauto.
  - intros e r' E v. destruct (any_input_result r (gty_name t)); [|congruence].
    destruct H as (e' & H & A). assert (e' = e) by congruence. subst.
    destruct (annot_accepts _ _ _ (leaf_at_ok r) _ _ _ A) as [_ HA]. apply HA.
Qed.
(** ** labels *)
Lemma unparse_optional : forall e, no_tuple e -> unparse (optional_of e) = "Optional[" +s+ unparse e +s+ "]".
Proof. intros e H. destruct e; try reflexivity. destruct (H elts eq_refl). Qed.
Lemma unparse_list : forall e, no_tuple e -> unparse (list_of e) = "List[" +s+ unparse e +s+ "]".
Proof. intros e H. destruct e; try reflexivity. destruct (H elts eq_refl). Qed.
Lemma type_label_eq : forall t o r e, named (gty_name t) -> ~ In (gty_name t) built_in_keys -> annot false (leaf_at r) t o e ->
  exists r', same_maps r r' /\ recurse_type_label st None t o r = (Ok (unparse e), r').
Proof.
  induction t as [n|t IH|t IH]; intros o r e HN HB A; cbn [recurse_type_label gty_name] in *.
  - destruct (any_input_eq n r HN) as (r1 & S1 & E1). exists r1. split; [assumption|].
    inversion A as [? e1 L|? e1 L| | |]; subst; unfold leaf_at in L; rewrite L in E1; rewrite (bind_eq _ _ _ _ _ E1);
      destruct (any_input_class _ _ _ L) as (c & _ & [->|[HI _]]); try contradiction; reflexivity.
  - inversion A as [| |? e1 L|? e1 L|]; subst; (destruct (IH true r e1 HN HB L) as (r1 & S1 & E1); exists r1; split; [assumption|];
      rewrite (bind_eq _ _ _ _ _ E1); destruct (annot_accepts _ _ _ (leaf_at_ok r) _ _ _ L) as [NT _]; cbn [ret]; unfold ret).
    + change (seq_of false e1) with (list_of e1). rewrite unparse_list by assumption. reflexivity.
    + change (seq_of false e1) with (list_of e1). rewrite unparse_optional, unparse_list by auto with nt.
      f_equal. f_equal. now rewrite !app_assoc_s.
  - inversion A; subst. apply IH; assumption.
Qed.
Theorem label_C15 : forall t r e r', named (gty_name t) -> ~ In (gty_name t) built_in_keys ->
  recurse_type_annotation st None t true r = (Ok e, r') ->
  exists r'', recurse_type_label st None t true r' = (Ok (unparse e), r'').
Proof.
  intros t r e r' HN HB E. destruct (type_annotation_eq t true r HN) as (r1 & S & H).
  destruct (any_input_result r (gty_name t)); [|congruence]. destruct H as (e' & H & A).
  assert (e' = e /\ r1 = r') as [-> ->] by (split; congruence).
  destruct (type_label_eq t true r' e HN HB) as (r2 & _ & H2); [|eauto].
  eapply annot_mono; [|exact A]. intros n e0 HL. unfold leaf_at in *. now rewrite (any_input_same _ _ _ S).
Qed.

(** ** return annotations *)
Section Out.
Variable sch : schema.
Definition out_result (over : option string) (r : reg) (n : string) : res expr :=
  match get_type sch n with
  | Some (TEnum _ _) => if mem n built_in_keys then Ok (estr n)
                        else if dmem n (r_enums r) then Ok (EName (style_enum_class st n)) else Err (Exn NoEnumFoundC n)
  | Some (TScalar _) => match dget n (r_scalars r) with Some t => Ok (EName (last_comp t)) | None => Err (Exn NoScalarFoundC n) end
  | Some (TObject _ _ _ _) | Some (TInterface _ _ _) | Some (TUnion _ _) =>
      match over with Some (String _ _ as o) => Ok (EName o) | _ => Err (Exn AssertionErrorC "Needs to be set") end
  | _ => Err (Exn NotImplementedErrorC n)
  end.
Lemma reference_enum_eq : forall n r, named n -> exists r', same_maps r r' /\
  reference_enum st n "" false r = (if mem n built_in_keys then Ok (estr n)
                        else if dmem n (r_enums r) then Ok (EName (style_enum_class st n)) else Err (Exn NoEnumFoundC n), r').
Proof.
  intros n r [_ NE]. apply String.eqb_neq in NE. rewrite String.eqb_sym in NE. unfold reference_enum.
  destruct (mem n built_in_keys).
  - unfold bind, register_builtin, add_forward, modify, ret. eexists. split; [|reflexivity]. repeat split.
  - unfold bind, gets. rewrite NE, orb_false_r. destruct (dmem n (r_enums r)); cbn [negb]; exists r; (split; [apply same_refl|reflexivity]).
Qed.
Lemma reference_scalar_eq : forall n r, exists r', same_maps r r' /\
  reference_scalar n r = (match dget n (r_scalars r) with Some t => Ok (EName (last_comp t)) | None => Err (Exn NoScalarFoundC n) end, r').
Proof.
  intros n r. unfold reference_scalar, bind, gets. destruct (dget n (r_scalars r)) as [t|].
  - destruct (has_dot t).
    + destruct (same_import t r) as (r' & S & E). exists r'. split; [assumption|]. now rewrite E.
    + exists r. split; [apply same_refl|reflexivity].
  - exists r. split; [apply same_refl|reflexivity].
Qed.
Lemma out_same : forall over r r' n, same_maps r r' -> out_result over r' n = out_result over r n.
Proof. intros over r r' n (E1 & E2 & E3). unfold out_result. now rewrite E1, E3. Qed.
Definition out_leaf (over : option string) (r : reg) (n : string) (e : expr) : Prop := out_result over r n = Ok e.
Lemma output_class_fun : forall r over n c c', output_class st sch r over n c -> output_class st sch r over n c' -> c = c'.
Proof. intros r over n c c' H1 H2. inversion H1; inversion H2; subst; congruence. Qed.
Lemma out_class : forall over r n e, out_result (Some over) r n = Ok e ->
  exists c, output_class st sch r over n c /\ (e = EName c \/ (In n built_in_keys /\ e = estr c)).
Proof.
  intros over r n e H. unfold out_result in H. destruct (get_type sch n) as [[d|d vs|d i f di|d i f|d ms|d f di]|] eqn:G; try discriminate.
  - destruct (dget n (r_scalars r)) as [t|] eqn:ES; [|discriminate]. injection H as <-.
    exists (last_comp t). split; [eapply oc_scalar; eassumption|now left].
  - destruct (mem n built_in_keys) eqn:EB.
    + injection H as <-. apply mem_In in EB. exists n. split; [eapply oc_builtin; eassumption|right; split; [exact EB|reflexivity]].
    + unfold dmem in H. destruct (dget n (r_enums r)) eqn:G2; [|discriminate]. injection H as <-. apply mem_false in EB.
      eexists. split; [eapply oc_enum; eassumption|now left].
  - destruct over; [discriminate|]. injection H as <-. eexists. split; [eapply oc_object; eassumption|now left].
  - destruct over; [discriminate|]. injection H as <-. eexists. split; [eapply oc_interface; eassumption|now left].
  - destruct over; [discriminate|]. injection H as <-. eexists. split; [eapply oc_union; eassumption|now left].
Qed.
Lemma out_leaf_ok : forall over r, leaf_ok (out_leaf (Some over) r) (output_class st sch r over).
Proof.
  intros over r n e H. destruct (out_class _ _ _ _ H) as (c & HC & HE). split.
  - destruct HE as [->|[_ ->]]; auto with nt.
  - intros v. assert (A : accepts e v <-> v = JLeaf c) by (destruct HE as [->|[_ ->]]; reflexivity).
    rewrite A. split; [intros ->; eauto|]. intros (c' & HC' & ->). f_equal. eapply output_class_fun; eassumption.
Qed.
Lemma out_named_eq : forall over n o r, named n -> exists r', same_maps r r' /\
  recurse_outputtype_annotation st sch over (GNamed n) o r =
  (match out_result over r n with Ok e => Ok (if o then optional_of e else e) | Err x => Err x end, r').
Proof.
  intros over n o r HN. cbn [recurse_outputtype_annotation]. unfold out_result.
  assert (HO : exists r1, same_maps r r1 /\ (if o then register_import "typing.Optional" else ret tt) r = (Ok tt, r1)).
  { destruct o; [apply same_import|]. exists r. split; [apply same_refl|reflexivity]. }
  destruct HO as (r1 & S1 & E1).
  destruct (get_type sch n) as [[d|d vs|d i f di|d i f|d ms|d f di]|] eqn:G.
  2: { destruct (reference_enum_eq n r1 HN) as (r2 & S2 & E2). exists r2. split; [eapply same_trans; eassumption|].
       rewrite (bind_eq _ _ _ _ _ E1). destruct S1 as (_ & _ & S1). rewrite S1 in E2.
       destruct (mem n built_in_keys); [now rewrite (bind_eq _ _ _ _ _ E2)|].
       destruct (dmem n (r_enums r)); [now rewrite (bind_eq _ _ _ _ _ E2)|now rewrite (bind_err _ _ _ _ _ E2)]. }
  1: { destruct (reference_scalar_eq n r1) as (r2 & S2 & E2). exists r2. split; [eapply same_trans; eassumption|].
       rewrite (bind_eq _ _ _ _ _ E1). destruct S1 as (S1 & _ & _). rewrite S1 in E2.
       destruct (dget n (r_scalars r)); [now rewrite (bind_eq _ _ _ _ _ E2)|now rewrite (bind_err _ _ _ _ _ E2)]. }
  4,5: (exists r; split; [apply same_refl|reflexivity]).
  all: destruct over as [[|c over]|]; [exists r; split; [apply same_refl|reflexivity]| |exists r; split; [apply same_refl|reflexivity]];
    unfold opt_wrap; destruct o; [exists r1; split; [assumption|]; now rewrite (bind_eq _ _ _ _ _ E1)|exists r; split; [apply same_refl|reflexivity]].
Qed.
Lemma out_annotation_eq : forall over t o r, named (gty_name t) -> all_nullable t ->
  exists r', same_maps r r' /\
  match out_result over r (gty_name t) with
  | Ok _ => exists e, recurse_outputtype_annotation st sch over t o r = (Ok e, r') /\ annot false (out_leaf over r) t o e
  | Err x => recurse_outputtype_annotation st sch over t o r = (Err x, r')
  end.
Proof.
  intros over. induction t as [n|t IH|t IH]; intros o r HN HA; [| |contradiction].
  - destruct (out_named_eq over n o r HN) as (r' & S & E). exists r'. split; [assumption|]. cbn [gty_name].
    rewrite E. destruct (out_result over r n) as [e|x] eqn:EO; [|reflexivity]. eexists. split; [reflexivity|].
    destruct o; constructor; exact EO.
  - cbn [gty_name all_nullable] in *. destruct (same_import "typing.List" r) as (r1 & S1 & E1).
    assert (HO : exists r2, same_maps r r2 /\ (if o then register_import "typing.List" ;; register_import "typing.Optional"
       else register_import "typing.List") r = (Ok tt, r2)).
    { destruct o; [|eauto]. destruct (same_import "typing.Optional" r1) as (r2 & S2 & E2). exists r2.
      split; [eapply same_trans; eassumption|]. now rewrite (bind_eq _ _ _ _ _ E1). }
    destruct HO as (r2 & S2 & E2). destruct (IH true r2 HN HA) as (r3 & S3 & H3). exists r3. split; [eapply same_trans; eassumption|].
    rewrite (out_same _ _ _ _ S2) in H3. cbn [recurse_outputtype_annotation]. rewrite (bind_eq _ _ _ _ _ E2).
    destruct (out_result over r (gty_name t)); [|now rewrite (bind_err _ _ _ _ _ H3)].
    destruct H3 as (e & H3 & A). exists (if o then optional_of (list_of e) else list_of e).
    split; [now rewrite (bind_eq _ _ _ _ _ H3)|].
    assert (A' : annot false (out_leaf over r) t true e).
    { eapply annot_mono; [|exact A]. intros n e0 HL. unfold out_leaf in *. now rewrite (out_same _ _ _ _ S2) in HL. }
    destruct o; [apply (an_list_opt false)|apply (an_list false)]; assumption.
Qed.
Theorem annotation_C16 : forall over t r e r', named (gty_name t) -> all_nullable t ->
  recurse_outputtype_annotation st sch (Some over) t true r = (Ok e, r') ->
  forall v, accepts e v <-> inhab false (output_class st sch r over) t v.
Proof.
  intros over t r e r' HN HA E v. destruct (out_annotation_eq (Some over) t true r HN HA) as (r1 & S & H).
  destruct (out_result (Some over) r (gty_name t)); [|congruence]. destruct H as (e' & H & A).
  assert (e' = e) by congruence. subst. destruct (annot_accepts _ _ _ (out_leaf_ok over r) _ _ _ A) as [_ HV]. apply HV.
Qed.
(** the label follows the declared type for every type *)
Lemma out_label_eq : forall over t o r e, named (gty_name t) -> ~ In (gty_name t) built_in_keys -> annot false (out_leaf (Some over) r) t o e ->
  exists r', same_maps r r' /\ recurse_outputtype_label st sch (Some over) t o r = (Ok (unparse e), r').
Proof.
  intros over. induction t as [n|t IH|t IH]; intros o r e HN HB A; cbn [recurse_outputtype_label gty_name] in *.
  - assert (EX : exists e0, out_result (Some over) r n = Ok e0 /\ e = if o then optional_of e0 else e0)
      by (inversion A; subst; eauto).
    destruct EX as (e0 & EO & ->). destruct (out_class _ _ _ _ EO) as (c & HC & [->|[HI _]]); [|contradiction].
    inversion HC as [d t G ES|d vs G HI|d vs c' G HB' GE|d i f di G|d i f G|d ms G]; subst; rewrite G; try contradiction.
    + destruct (reference_scalar_eq n r) as (r2 & S2 & E2). exists r2. split; [assumption|]. rewrite ES in E2.
      rewrite (bind_eq _ _ _ _ _ E2). now destruct o.
    + destruct (reference_enum_eq n r HN) as (r2 & S2 & E2). exists r2. split; [assumption|].
      apply mem_false in HB. rewrite HB in E2. unfold dmem in E2. rewrite GE in E2. rewrite (bind_eq _ _ _ _ _ E2). now destruct o.
    + unfold out_result in EO. rewrite G in EO. destruct c; [discriminate|]. exists r. split; [apply same_refl|]. now destruct o.
    + unfold out_result in EO. rewrite G in EO. destruct c; [discriminate|]. exists r. split; [apply same_refl|]. now destruct o.
    + unfold out_result in EO. rewrite G in EO. destruct c; [discriminate|]. exists r. split; [apply same_refl|]. now destruct o.
  - inversion A as [| |? e1 L|? e1 L|]; subst; (destruct (IH true r e1 HN HB L) as (r1 & S1 & E1); exists r1; split; [assumption|];
      rewrite (bind_eq _ _ _ _ _ E1); destruct (annot_accepts _ _ _ (out_leaf_ok over r) _ _ _ L) as [NT _]; unfold ret).
    + change (seq_of false e1) with (list_of e1). rewrite unparse_list by assumption. reflexivity.
    + change (seq_of false e1) with (list_of e1). rewrite unparse_optional, unparse_list by auto with nt.
      f_equal. f_equal. now rewrite !app_assoc_s.
  - inversion A; subst. apply IH; assumption.
Qed.
Theorem label_C16 : forall over t r e r', named (gty_name t) -> all_nullable t -> ~ In (gty_name t) built_in_keys ->
  recurse_outputtype_annotation st sch (Some over) t true r = (Ok e, r') ->
  exists r'', recurse_outputtype_label st sch (Some over) t true r' = (Ok (unparse e), r'').
Proof.
  intros over t r e r' HN HA HB E. destruct (out_annotation_eq (Some over) t true r HN HA) as (r1 & S & H).
  destruct (out_result (Some over) r (gty_name t)); [|congruence]. destruct H as (e' & H & A).
  assert (e' = e /\ r1 = r') as [-> ->] by (split; congruence).
  destruct (out_label_eq over t true r' e HN HB) as (r2 & _ & H2); [|eauto].
  eapply annot_mono; [|exact A]. intros n e0 HL. unfold out_leaf in *. now rewrite (out_same _ _ _ _ S).
Qed.
(** a non-null list loses its list, a non-null named type is a crash *)
Theorem nonnull_list_C16 : forall over t o r,
  recurse_outputtype_annotation st sch over (GNonNull (GList t)) o r = recurse_outputtype_annotation st sch over t false r.
Proof. reflexivity. Qed.
End Out.
End Vars.
