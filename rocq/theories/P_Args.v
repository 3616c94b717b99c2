(** Arguments classes and root fields of operations. *)
From Coq Require Import Lia.
From Verif Require Import Base PyAst Gql Config Stylers Registry Utils Documents Inline Inputs Recurse Operations
  Spec_Types Spec_Inputs Spec_Annot Spec_Fields P_Base P_Gql P_Monad P_Types P_Inputs P_Annot P_Recurse P_Fields P_Selection P_InlineProps.

(** ** Integers *)
Lemma digits_value : forall s acc, digits_to_Z s acc = (acc * 10 ^ Z.of_nat (String.length s) + dec_value s)%Z.
Proof.
  induction s as [|ch s IH]; intros acc; cbn [digits_to_Z dec_value String.length]; [cbn; lia|].
  rewrite IH. rewrite Nat2Z.inj_succ, Z.pow_succ_r by lia. ring.
Qed.
Lemma int_literal_value : forall s, int_of_literal s = int_value s.
Proof.
  intros s. unfold int_of_literal, int_value. destruct s as [|ch r]; [reflexivity|].
  assert (D : forall x, digits_to_Z x 0 = dec_value x) by (intros x; rewrite digits_value; lia).
  destruct ch as [[] [] [] [] [] [] [] []]; rewrite D; reflexivity.
Qed.
Lemma code_digit : forall n, n < 10 -> code (ascii_of_nat (48 + n)) - 48 = n.
Proof. intros n H. unfold code. rewrite nat_ascii_embedding by lia. lia. Qed.
Lemma nat_string_value : forall fuel n acc, n < fuel ->
  dec_value (nat_to_string_aux fuel n acc) = (Z.of_nat n * 10 ^ Z.of_nat (String.length acc) + dec_value acc)%Z.
Proof.
  induction fuel as [|fuel IH]; intros n acc H; [lia|]. cbn [nat_to_string_aux].
  pose proof (PeanoNat.Nat.div_mod n 10 ltac:(lia)) as DM. pose proof (PeanoNat.Nat.mod_upper_bound n 10 ltac:(lia)) as MB.
  set (q := n / 10) in *. set (m := n mod 10) in *.
  assert (E : dec_value (String (ascii_of_nat (48 + m)) acc) = (Z.of_nat m * 10 ^ Z.of_nat (String.length acc) + dec_value acc)%Z).
  { cbn [dec_value]. now rewrite code_digit. }
  destruct q as [|q'] eqn:Eq.
  - rewrite E. f_equal. f_equal. lia.
  - rewrite IH by lia. rewrite E. cbn [String.length]. rewrite (Nat2Z.inj_succ (String.length acc)), Z.pow_succ_r by lia. rewrite DM. rewrite Nat2Z.inj_add, Nat2Z.inj_mul. ring_simplify. ring.
Qed.
Lemma nat_to_string_value : forall n, dec_value (nat_to_string n) = Z.of_nat n.
Proof. intros n. unfold nat_to_string. rewrite nat_string_value by lia. cbn [String.length dec_value]. cbn. lia. Qed.
Lemma nat_to_string_int : forall n, int_value (nat_to_string n) = Z.of_nat n.
Proof.
  intros n. rewrite <- (nat_to_string_value n). unfold int_value. destruct (nat_to_string n) as [|ch r] eqn:E; [reflexivity|].
  assert (D : forall fuel n acc, fuel <> 0 -> exists k r, k < 10 /\ nat_to_string_aux fuel n acc = String (ascii_of_nat (48 + k)) r).
  { induction fuel as [|f IH]; intros m acc H; [contradiction|]. cbn [nat_to_string_aux].
    assert (m mod 10 < 10) by (apply PeanoNat.Nat.mod_upper_bound; lia).
    destruct (m / 10) as [|q]; [eauto|]. destruct f as [|f]; [cbn; eauto|]. apply IH. lia. }
  destruct (D (S n) n "" ltac:(lia)) as (k & r' & Hk & Er). unfold nat_to_string in E. rewrite E in Er. injection Er as -> ->.
  do 10 (destruct k as [|k]; [reflexivity|]). lia.
Qed.
Lemma Z_to_string_int : forall z, int_value (Z_to_string z) = z.
Proof.
  intros [|p|p]; [reflexivity| |].
  - cbn [Z_to_string]. rewrite nat_to_string_int. lia.
  - cbn [Z_to_string]. change (int_value ("-" +s+ nat_to_string (Pos.to_nat p))) with (- dec_value (nat_to_string (Pos.to_nat p)))%Z.
    rewrite nat_to_string_value. lia.
Qed.

Section Args.
Variable c : gconfig.
Variable st : list styler.
Lemma annot_recorded : forall r t o e, annot false (leaf_at st r) t o e -> recorded e = None.
Proof.
  intros r t o e H. induction H; try reflexivity; [|assumption].
  unfold leaf_at in H. apply any_input_class in H as (k & _ & [->|[_ ->]]); reflexivity.
Qed.
Lemma type_annotation_ok : forall t o r e r', named st (gty_name t) -> recurse_type_annotation st None t o r = (Ok e, r') ->
  annot false (leaf_at st r) t o e.
Proof.
  intros t o r e r' HN H. destruct (type_annotation_eq st t o r HN) as (r1 & S & G).
  destruct (any_input_result st r (gty_name t)); [|congruence]. destruct G as (e' & G & A). rewrite G in H. now injection H as -> _.
Qed.
Lemma annotate_default : forall a d r e r', annotate_field_metadata c a (Some (estr d)) None r = (Ok e, r') -> recorded e = Some d.
Proof. intros a d r e r' H. unfold annotate_field_metadata in H. minv. cbn [app] in H. minv. reflexivity. Qed.
Lemma annotate_nothing : forall a r e r', annotate_field_metadata c a None None r = (Ok e, r') -> e = a.
Proof. intros a r e r' H. unfold annotate_field_metadata in H. minv. cbn [app] in H. minv. reflexivity. Qed.
Lemma omittable_dec : forall v,
  negb (is_nonnull (v_type v)) || match v_default v with Some _ => true | None => false end = true <-> omittable v.
Proof.
  intros v. unfold omittable. rewrite orb_true_iff, negb_true_iff. destruct (v_default v); intuition congruence.
Qed.
Lemma argument_field_ok : forall v r stm r', named st (gty_name (v_type v)) -> argument_field c st v r = (Ok stm, r') ->
  exists fld, class_fields [stm] = [fld] /\ argument_ok (class_for st r) st v fld
    /\ (match v_default v with Some d => simple_literal d | None => True end -> default_recorded (v_default v) (snd (fst fld))).
Proof.
  intros v r stm r' HN H. unfold argument_field in H. cbn zeta in H.
  set (o := negb (is_nonnull (v_type v)) || match v_default v with Some _ => true | None => false end) in *.
  assert (HO := omittable_dec v). fold o in HO.
  apply bind_ok in H as (a & r1 & H1 & H). apply bind_ok in H as (a2 & r2 & H2 & H). apply bind_ok in H as (d & r3 & H3 & H).
  apply bind_ok in H as (a3 & r4 & H4 & H). apply bind_ok in H as (u & r5 & H5 & H). apply ret_ok in H as [-> ->].
  assert (AN := type_annotation_ok _ _ _ _ _ HN H1). assert (AR := annot_recorded _ _ _ _ AN).
  apply (annot_accepts _ _ _ (leaf_at_ok st r)) in AN as [NT AC].
  assert (Q : (forall x, accepts a2 x <-> inhab false (class_for st r) (v_type v) x \/ (x = JNull /\ omittable v)) /\ recorded a2 = None).
  { destruct (o && is_nonnull (v_type v)) eqn:E.
    - apply bind_ok in H2 as (u2 & r6 & _ & H2). apply ret_ok in H2 as [-> ->]. apply andb_true_iff in E as [E1 E2]. split; [|reflexivity].
      intros x. rewrite accepts_optional by assumption. rewrite AC. intuition.
    - apply ret_ok in H2 as [-> ->]. split; [|assumption]. intros x. rewrite AC. split; [auto|]. intros [?|[-> Hom]]; [assumption|].
      apply HO in Hom. rewrite Hom in E. cbn in E. destruct (v_type v); cbn in *; try discriminate; now left. }
  destruct Q as [Q QR].
  assert (W : let v0 := match (if String.eqb (v_name v) (generate_parameter_name st (v_name v)) then [] else [("alias", estr (v_name v))]) ++ (if o then [("default", enone)] else []) with
              | [] => None | _ => Some (field_call ((if String.eqb (v_name v) (generate_parameter_name st (v_name v)) then [] else [("alias", estr (v_name v))]) ++ (if o then [("default", enone)] else []))) end in
              wire_name (generate_parameter_name st (v_name v)) v0 = v_name v /\ may_omit v0 = o).
  { cbn zeta. destruct (String.eqb_spec (v_name v) (generate_parameter_name st (v_name v))) as [E|E]; destruct o; split; try reflexivity; cbn; auto. }
  destruct W as [W1 W2]. eexists. split; [reflexivity|]. split.
  - split; cbn [fst snd].
    + reflexivity.
    + exact W1.
    + intros x. rewrite (annotate_accepts _ _ _ _ _ _ _ H4). apply Q.
    + rewrite (annotate_accepts _ _ _ _ _ _ _ H4). rewrite Q, inhab_null. unfold omittable. tauto.
    + cbn zeta in W2. rewrite W2. exact HO.
  - cbn [fst snd]. intros HS. unfold default_recorded. destruct (v_default v) as [[s|s|s b|b| |e|l|l|n]|]; try contradiction;
      unfold bind, lift, ret in H3; cbn [parse_value_node] in H3; injection H3 as <- <-;
      try (apply annotate_nothing in H4; now subst); apply annotate_default in H4; eexists; (split; [exact H4|]); cbn; auto.
    now rewrite Z_to_string_int, int_literal_value.
Qed.
End Args.

Section Operation.
Variable c : gconfig.
Variable st : list styler.
Variable s : schema.
Variable pc : ocfg.
Variable po : operation -> string.
Variable add : string -> res string.
Variable doc_of : operation -> option string.
Lemma inhab_same : forall r r', same_maps r r' -> forall t y, inhab false (class_for st r') t y <-> inhab false (class_for st r) t y.
Proof.
  intros r r1 Hs. induction t as [n|t IH|t IH]; intros y; cbn [inhab].
  - split; (intros [Hy|(k & Hk & Hy)]; [now left|right; exists k; split; [|assumption]]).
    + now apply (class_for_same st r r1).
    + now apply (class_for_same st r r1).
  - split; (intros [Hy|(l & -> & Hy)]; [now left|right; exists l; split; [reflexivity|]]); intros z Hz; apply IH; auto.
  - rewrite IH. tauto.
Qed.
Lemma argument_ok_same : forall r r' v fld, same_maps r r' -> argument_ok (class_for st r') st v fld -> argument_ok (class_for st r) st v fld.
Proof.
  intros r r' v fld Hs [A1 A2 A3 A4 A5]. split; try assumption. intros x. rewrite A3, (inhab_same _ _ Hs). tauto.
Qed.
Lemma argument_fields_ok : forall vs r fs r', Forall (fun v => named st (gty_name (v_type v))) vs ->
  mmap (argument_field c st) vs r = (Ok fs, r') -> Forall2 (argument_ok (class_for st r) st) vs (class_fields fs).
Proof.
  intros vs r fs r' HN H. rewrite Forall_forall in HN.
  eapply (mmap_inv _ (same_maps r)) with (Q := fun v x => exists fld, class_fields [x] = [fld] /\ argument_ok (class_for st r) st v fld) in H as [_ F].
  - induction F as [|v x vs fs (fld & E & Hf) F IH]; [constructor|]. change (x :: fs) with ([x] ++ fs). rewrite class_fields_app, E.
    constructor; [assumption|]. apply IH. intros; apply HN; now right.
  - apply same_refl.
  - intros v r1 x r2 Hv Hs Hx. split.
    + eapply same_trans; [exact Hs|]. eapply (evolve_same st Ksel); [nosca|nosca|nosca|]. eapply ev_ok; [|exact Hx]. unfold argument_field. ev_go. eapply ev_incl; [|apply ev_type_annotation]. incl_dec.
    + apply argument_field_ok in Hx as (fld & E & Ho & _); [|now apply HN]. exists fld. split; [assumption|].
      eapply argument_ok_same; eassumption.
Qed.

(** the statements of an operation *)
Definition root_fields (sels : list selection) : option (list fieldnode) :=
  fold_right (fun x acc => match x, acc with SelField g, Some l => Some (g :: l) | _, _ => None end) (Some []) sels.
Definition root_ok (r0 : reg) (root cls : string) (x : selection) (l : list stmt) : Prop :=
  exists g fd res ra rb, x = SelField g /\ get_field_def s root (fn_name g) = Some fd /\ fsame r0 ra
    /\ type_field_node c st s g cls fd ra = (Ok res, rb) /\ l = snd res.
Lemma root_items : forall root cls sels r acc r', mfold (root_item c st s root cls) sels ([], []) r = (Ok acc, r') ->
  Forall2 (root_ok r root cls) sels (snd acc) /\ same_maps r r'.
Proof.
  intros root cls sels r acc r' H.
  eapply (mfold_ok _ (fun pre a ra => (Forall2 (root_ok r root cls) pre (snd a) /\ fsame r ra) /\ same_maps r ra)) in H as [[H _] S]; [auto| |].
  - split; [split; [constructor|apply fsame_refl]|apply same_refl].
  - intros pre x post a ra a1 rb _ ((F & S) & SM) Hx. unfold root_item in Hx. destruct x as [g|f ds|cond ds m]; [|discriminate|discriminate].
    apply bind_ok in Hx as (fd & r1 & H1 & Hx). apply from_opt_ok in H1 as [E ->]. apply bind_ok in Hx as (res & r2 & H2 & Hx).
    apply ret_ok in Hx as [-> ->]. cbn [snd]. assert (EV : evolve st Ksel ra r2) by (eapply ev_ok; [apply ev_type_field_node|exact H2]).
    split; [split|].
    + apply Forall2_app; [assumption|]. constructor; [|constructor]. exists g, fd, res, ra, r2. auto.
    + eapply fsame_trans; [exact S|]. now apply evolve_fsame in EV.
    + eapply same_trans; [exact SM|]. eapply evolve_same; [| | |exact EV]; cbn; intuition discriminate.
Qed.
Lemma operation_shape : forall o r l r', generate_operation c st s pc po add doc_of o r = (Ok l, r') ->
  exists root cls bases body classes groups args r1 ra rb name,
    root_type s (op_kind o) = Some root
    /\ l = classes ++ [SClass cls bases body []] /\ fsame r r1 /\ same_maps r r1
    /\ Forall2 (root_ok r1 root cls) (op_sels o) groups
    /\ class_fields body = class_fields (List.concat groups) /\ incl args body
    /\ arguments_class c st pc o name ra = (Ok args, rb) /\ same_maps r ra.
Proof.
  intros o r l r' H. unfold generate_operation in H.
  apply bind_ok in H as (name & r1 & H1 & H). apply from_opt_ok in H1 as [EN ->].
  apply bind_ok in H as (cb & r2 & H2 & H). apply bind_ok in H as (root & r3 & H3 & H). apply from_opt_ok in H3 as [ER ->]. cbn zeta in H.
  apply bind_ok in H as (acc & r4 & H4 & H). apply bind_ok in H as (u & r5 & H5 & H). apply bind_ok in H as (doc & r6 & H6 & H).
  apply bind_ok in H as (args & r7 & H7 & H). apply bind_ok in H as (cfg & r8 & H8 & H). apply ret_ok in H as [-> ->].
  assert (E2 : evolve st Kop r r2).
  { eapply ev_ok; [|exact H2]. unfold operation_class, bases_or_default, Kop. ev_go. }
  assert (F2 : fsame r r2).
  { repeat split; [eapply frame_frags|eapply frame_iffrag|eapply frame_scalars|eapply frame_fragtypes]; try exact E2; nosca. }
  assert (S2 : same_maps r r2) by (eapply evolve_same; [| | |exact E2]; cbn; intuition discriminate).
  apply root_items in H4 as [H4 S4].
  assert (E5 : evolve st Kop r4 r5).
  { eapply ev_ok; [|exact H5]. unfold Kop. destruct (snd acc) as [|[|[] ?] [|]]; ev_go. }
  assert (E6 : evolve st Kop r5 r6).
  { eapply ev_ok; [|exact H6]. unfold Kop. eapply ev_incl; [|apply ev_replace]. intros ? []. }
  exists root, (fst cb), (snd cb). eexists. exists (fst acc), (snd acc), args, r2, r6, r7, name.
  split; [assumption|]. split; [reflexivity|]. split; [assumption|]. split; [assumption|]. split; [assumption|].
  apply config_fields in H8.
  assert (EA : class_fields args = []).
  { unfold arguments_class in H7. destruct (o_create_arguments pc); minv; reflexivity. }
  split; [|split; [|split; [exact H7|]]].
  - rewrite !class_fields_app, H8, EA. cbn. now rewrite app_nil_r.
  - intros x Hx. rewrite !in_app_iff. auto.
  - eapply same_trans; [exact S2|]. eapply same_trans; [exact S4|].
    eapply same_trans; (eapply evolve_same; [| | |eassumption]; cbn; intuition discriminate).
Qed.
Lemma operation_C34 : forall o r l r', Forall (fun v => named st (gty_name (v_type v))) (op_vars o) ->
  o_create_arguments pc = true ->
  generate_operation c st s pc po add doc_of o r = (Ok l, r') ->
  exists cls bases body abases abody, In (SClass cls bases body []) l /\ In (SClass "Arguments" abases abody []) body
    /\ Forall2 (argument_ok (class_for st r) st) (op_vars o) (class_fields abody).
Proof.
  intros o r l r' HN HA H.
  apply operation_shape in H as (root & cls & bases & body & classes & groups & args & r1 & ra & rb & name & _ & -> & _ & _ & _ & _ & Hi & Ha & Hs).
  unfold arguments_class in Ha. rewrite HA in Ha. apply bind_ok in Ha as (fs & r2 & H2 & Ha). apply bind_ok in Ha as (cfg & r3 & H3 & Ha).
  apply bind_ok in Ha as (ab & r4 & H4 & Ha). apply ret_ok in Ha as [-> ->].
  exists cls, bases, body. do 2 eexists. split; [apply in_or_app; right; now left|]. split; [apply Hi; now left|].
  apply argument_fields_ok in H2; [|assumption]. unfold class_fields at 1. cbn [flat_map app]. fold (class_fields (fs ++ cfg)). rewrite class_fields_app.
  assert (EC : class_fields cfg = []) by (unfold generate_arguments_config in H3; minv; reflexivity). rewrite EC, app_nil_r.
  clear -H2 Hs. induction H2; constructor; [|assumption]. eapply argument_ok_same; eassumption.
Qed.
Lemma root_wire : forall r root cls sels groups, Forall2 (root_ok r root cls) sels groups ->
  map SelField (map (fun x => match x with SelField g => g | _ => FieldNode None "" [] [] None end) sels) = sels
  /\ map wire (class_fields (List.concat groups)) = map (fun x => match x with SelField g => response_key g | _ => "" end) sels.
Proof.
  intros r root cls sels groups F. induction F as [|x l sels groups (g & fd & res & ra & rb & -> & _ & _ & H & ->) F [IH1 IH2]]; [auto|].
  cbn [map List.concat]. rewrite IH1. split; [reflexivity|]. apply type_field_node_C08 in H as (fld & E & W).
  rewrite class_fields_app, E. cbn. now rewrite W, IH2.
Qed.
Lemma operation_C08 : forall o r l r', generate_operation c st s pc po add doc_of o r = (Ok l, r') ->
  exists classes cls bases body fields, l = classes ++ [SClass cls bases body []]
    /\ op_sels o = map SelField fields /\ map wire (class_fields body) = map response_key fields.
Proof.
  intros o r l r' H.
  apply operation_shape in H as (root & cls & bases & body & classes & groups & args & r1 & ra & rb & name & _ & -> & _ & _ & F & E & _).
  apply root_wire in F as [F1 F2]. exists classes, cls, bases, body. eexists. split; [reflexivity|]. split; [symmetry; exact F1|].
  rewrite E, F2. rewrite <- F1 at 1. rewrite !map_map. reflexivity.
Qed.
End Operation.
Section Operation14.
Variable c : gconfig.
Variable st : list styler.
Variable s : schema.
Lemma field_C14 : forall f parent fd r classes body r', no_helper_enum s ->
  (is_union_type s (gty_name (fd_type fd)) -> inner_nonnull (fd_type fd) = true \/ List.length (alternatives f) <> 1) ->
  type_field_node c st s f parent fd r = (Ok (classes, body), r') ->
  exists fld, class_fields body = [fld] /\ response_field_ok c st s r classes f fd fld.
Proof.
  intros f parent fd r classes body r' HB HU H. apply type_field_node_ok in H as (L & fld & E & H); [|assumption|assumption].
  exists fld. split; [exact E|]. exists (fz_enabled (c_freeze c)), L. split; [tauto|exact H].
Qed.
End Operation14.
Lemma argument_C33 : forall c st v r stm r', named st (gty_name (v_type v)) ->
  (match v_default v with Some d => simple_literal d | None => True end) ->
  argument_field c st v r = (Ok stm, r') ->
  exists fld, class_fields [stm] = [fld] /\ default_recorded (v_default v) (snd (fst fld)).
Proof. intros c st v r stm r' HN HS H. apply argument_field_ok in H as (fld & E & _ & H); [|assumption]. eauto. Qed.
Lemma argument_C34 : forall c st v r stm r', named st (gty_name (v_type v)) ->
  argument_field c st v r = (Ok stm, r') -> exists fld, class_fields [stm] = [fld] /\ argument_ok (class_for st r) st v fld.
Proof. intros c st v r stm r' HN H. apply argument_field_ok in H as (fld & E & H & _); [|assumption]. eauto. Qed.
