(** Proofs about reference collection. *)
From Coq Require Import Lia.
From Verif Require Import Base Gql Referencer Spec_Refs P_Base P_Gql P_Inputs2 P_Topo.

(** ** input types *)
(** [n] has been recorded under its kind *)
Definition recorded (s : schema) (st : refs) (n : string) : Prop :=
  match get_type s n with
  | Some (TScalar _) => In n (rf_scalars st)
  | Some (TEnum _ _) => In n (rf_enums st)
  | Some (TInput _ _ _) => In n (rf_inputs st)
  | _ => False
  end.
Definition rsub (a b : refs) : Prop :=
  incl (rf_fragments a) (rf_fragments b) /\ incl (rf_enums a) (rf_enums b)
  /\ incl (rf_inputs a) (rf_inputs b) /\ incl (rf_scalars a) (rf_scalars b).
Lemma rsub_refl : forall a, rsub a a.  Proof. intros a; repeat split; apply incl_refl. Qed.
Lemma rsub_trans : forall a b c, rsub a b -> rsub b c -> rsub a c.
Proof. intros a b c (A1 & A2 & A3 & A4) (B1 & B2 & B3 & B4); repeat split; eapply incl_tran; eassumption. Qed.
Lemma sadd_incl : forall x l, incl l (sadd x l).  Proof. intros x l y H; apply sadd_In; auto. Qed.
#[local] Hint Resolve sadd_incl incl_refl rsub_refl : core.
Lemma rsub_scalar : forall n r, rsub r (register_ref_scalar n r).  Proof. intros; repeat split; cbn; auto. Qed.
Lemma rsub_enum : forall n r, rsub r (register_enum n r).  Proof. intros; repeat split; cbn; auto. Qed.
Lemma rsub_input : forall n r, rsub r (register_input n r).  Proof. intros; repeat split; cbn; auto. Qed.
Lemma rsub_fragment : forall n r, rsub r (register_fragment n r).  Proof. intros; repeat split; cbn; auto. Qed.
Lemma recorded_sub : forall s a b n, rsub a b -> recorded s a n -> recorded s b n.
Proof.
  intros s a b n (_ & H2 & H3 & H4) H. unfold recorded in *. destruct (get_type s n) as [[]|]; auto.
Qed.
(** the fields of input [m] have been recorded *)
Definition closed_at (s : schema) (st : refs) (m : string) : Prop :=
  forall d f dirs kv, get_type s m = Some (TInput d f dirs) -> In kv f ->
    recorded s st (gty_name (if_type (snd kv))).
Lemma closed_sub : forall s a b m, rsub a b -> closed_at s a m -> closed_at s b m.
Proof. intros s a b m H C d f di kv E Hk. eapply recorded_sub; [exact H|]. eapply C; eassumption. Qed.

(** everything recorded in [b] and not in [a] is needed from [n] *)
Definition from_only (s : schema) (roots : string -> Prop) (a b : refs) : Prop :=
  rf_fragments b = rf_fragments a
  /\ (forall m, In m (rf_inputs b) -> In m (rf_inputs a) \/ (needs s roots m /\ is_input s m))
  /\ (forall m, In m (rf_enums b) -> In m (rf_enums a) \/ needs s roots m)
  /\ (forall m, In m (rf_scalars b) -> In m (rf_scalars a) \/ needs s roots m).
Lemma from_refl : forall s R a, from_only s R a a.
Proof. intros; repeat split; auto. Qed.
Lemma from_trans : forall s R a b c, from_only s R a b -> from_only s R b c -> from_only s R a c.
Proof.
  intros s R a b c (A0 & A1 & A2 & A3) (B0 & B1 & B2 & B3). split; [congruence|]. repeat split; intros m H.
  - destruct (B1 m H) as [H'|H']; auto.
  - destruct (B2 m H) as [H'|H']; auto.
  - destruct (B3 m H) as [H'|H']; auto.
Qed.
Lemma needs_incl : forall s (R R' : string -> Prop) n, (forall m, R m -> needs s R' m) -> needs s R n -> needs s R' n.
Proof. intros s R R' n H HN. induction HN; [auto|]. eapply needs_field; eassumption. Qed.
Lemma from_incl : forall s (R R' : string -> Prop) a b, (forall m, R m -> needs s R' m) -> from_only s R a b -> from_only s R' a b.
Proof.
  intros s R R' a b H (A0 & A1 & A2 & A3). split; [assumption|].
  repeat split; intros m Hm.
  - destruct (A1 m Hm) as [?|[? ?]]; [auto|right]. split; [eapply needs_incl; eassumption|assumption].
  - destruct (A2 m Hm); [auto|right]. eapply needs_incl; eassumption.
  - destruct (A3 m Hm); [auto|right]. eapply needs_incl; eassumption.
Qed.

Lemma ref_input_spec : forall s fuel n st st',
  ref_input_type fuel s n st = Ok st' ->
  rsub st st' /\ recorded s st' n /\ from_only s (eq n) st st'
  /\ (forall m, In m (rf_inputs st') -> In m (rf_inputs st) \/ closed_at s st' m).
Proof.
  intros s fuel. induction fuel as [|fuel IH]; intros n st st' H; cbn [ref_input_type] in H; unfold recorded;
    destruct (get_type s n) as [[d|d vs|d i f di|d i f|d ms|d f di]|] eqn:E; try discriminate.
  1,4: injection H as <-; split; [apply rsub_scalar|]; split; [apply sadd_In; now left|]; split;
       [repeat split; cbn; auto; intros m Hm; apply sadd_In in Hm; destruct Hm as [->|Hm]; auto; right; now constructor|auto].
  1,3: injection H as <-; split; [apply rsub_enum|]; split; [apply sadd_In; now left|]; split;
       [repeat split; cbn; auto; intros m Hm; apply sadd_In in Hm; destruct Hm as [->|Hm]; auto; right; now constructor|auto].
  - destruct (mem_spec n (rf_inputs st)) as [Hin|Hin]; [|discriminate]. injection H as <-.
    split; [apply rsub_refl|]. split; [assumption|]. split; [apply from_refl|auto].
  - destruct (mem_spec n (rf_inputs st)) as [Hin|Hin].
    { injection H as <-. split; [apply rsub_refl|]. split; [assumption|]. split; [apply from_refl|auto]. }
    pose (P := fun (pre : list (string * inputfield)) (st1 : refs) =>
      rsub (register_input n st) st1 /\ from_only s (eq n) st st1
      /\ (forall kv, In kv pre -> recorded s st1 (gty_name (if_type (snd kv))))
      /\ (forall m, In m (rf_inputs st1) -> In m (rf_inputs st) \/ m = n \/ closed_at s st1 m)).
    apply (rfold_ok _ P) in H.
    + destruct H as (H1 & H2 & H3 & H4). split; [eapply rsub_trans; [apply rsub_input|exact H1]|].
      split; [apply H1; cbn; apply sadd_In; now left|]. split; [exact H2|].
      intros m Hm. destruct (H4 m Hm) as [?|[->|?]]; auto. right. intros d' f' di' kv E' Hk. rewrite E in E'.
      injection E' as <- <- <-. now apply H3.
    + unfold P. split; [apply rsub_refl|]. split.
      { repeat split; cbn; auto. intros m Hm. apply sadd_In in Hm. destruct Hm as [->|Hm]; auto. right. split; [now constructor|].
        unfold is_input; eauto. }
      split; [intros ? []|]. cbn. intros m Hm. apply sadd_In in Hm. tauto.
    + intros pre kv post st1 st2 El (Q1 & Q2 & Q3 & Q4) Hs.
      destruct (IH _ _ _ Hs) as (I1 & I2 & I3 & I4). unfold P.
      split; [eapply rsub_trans; eassumption|]. split.
      { eapply from_trans; [exact Q2|]. eapply from_incl; [|exact I3]. intros m <-.
        eapply needs_field; [constructor; reflexivity|exact E|]. rewrite El. apply in_or_app; right; now left. }
      split.
      { intros x Hx. apply in_app_or in Hx. destruct Hx as [Hx|[<-|[]]]; [|exact I2]. eapply recorded_sub; [exact I1|auto]. }
      intros m Hm. destruct (I4 m Hm) as [Hm'|?]; [|auto]. destruct (Q4 m Hm') as [?|[?|C]]; auto.
      right; right. eapply closed_sub; eassumption.
Qed.

(** ** termination: the fuel is never exhausted *)
Definition inputs_wf (s : schema) (st : refs) : Prop :=
  NoDup (rf_inputs st) /\ incl (rf_inputs st) (dkeys (s_types s)).
Definition not_fuel {A} (x : res A) : Prop := forall msg, x <> Err (Exn OutOfFuelC msg).
Lemma ref_input_fuel : forall s fuel n st,
  inputs_wf s st -> length (s_types s) <= fuel + length (rf_inputs st) ->
  not_fuel (ref_input_type fuel s n st)
  /\ forall st', ref_input_type fuel s n st = Ok st' -> inputs_wf s st' /\ length (rf_inputs st) <= length (rf_inputs st').
Proof.
  intros s fuel. induction fuel as [|fuel IH]; intros n st [W1 W2] L; cbn [ref_input_type];
    destruct (get_type s n) as [[d|d vs|d i f di|d i f|d ms|d f di]|] eqn:E;
    try (split; [intros msg; discriminate|discriminate]);
    try (split; [intros msg; discriminate|intros st' [= <-]; cbn; split; [split; assumption|lia]]).
  - destruct (mem_spec n (rf_inputs st)) as [Hin|Hin].
    + split; [intros msg; discriminate|intros st' [= <-]; split; [split; assumption|lia]].
    + exfalso. apply Hin. assert (Hk : In n (dkeys (s_types s))).
      { apply dget_Some_In in E. unfold dkeys. apply in_map_iff. exists (n, TInput d f di); auto. }
      cbn in L. assert (LL : length (dkeys (s_types s)) <= length (rf_inputs st)) by (unfold dkeys; rewrite map_length; lia).
      exact (NoDup_length_incl W1 LL W2 n Hk).
  - destruct (mem_spec n (rf_inputs st)) as [Hin|Hin].
    { split; [intros msg; discriminate|intros st' [= <-]; split; [split; assumption|lia]]. }
    set (st0 := register_input n st).
    assert (Hn : In n (dkeys (s_types s))).
    { apply dget_Some_In in E. unfold dkeys. apply in_map_iff. exists (n, TInput d f di); auto. }
    assert (L0 : length (rf_inputs st0) = S (length (rf_inputs st))).
    { cbn. unfold sadd. destruct (mem_spec n (rf_inputs st)); [contradiction|]. rewrite app_length; cbn; lia. }
    assert (W0 : inputs_wf s st0).
    { split; cbn; [now apply sadd_NoDup|]. intros x Hx. apply sadd_In in Hx. destruct Hx as [->|Hx]; auto. }
    assert (G : forall fs st1, inputs_wf s st1 -> length (rf_inputs st0) <= length (rf_inputs st1) ->
      not_fuel (rfold (fun (kv : string * inputfield) st => ref_input_type fuel s (gty_name (if_type (snd kv))) st) fs st1)
      /\ forall st', rfold (fun (kv : string * inputfield) st => ref_input_type fuel s (gty_name (if_type (snd kv))) st) fs st1 = Ok st' ->
           inputs_wf s st' /\ length (rf_inputs st1) <= length (rf_inputs st')).
    { induction fs as [|kv fs IHf]; intros st1 Wf Lf; cbn.
      - split; [intros msg; discriminate|intros st' [= <-]; split; [assumption|lia]].
      - destruct (IH (gty_name (if_type (snd kv))) st1 Wf) as [N1 S1]; [lia|].
        destruct (ref_input_type fuel s _ st1) as [st2|e] eqn:R; cbn.
        + destruct (S1 _ eq_refl) as [W2' L2]. destruct (IHf st2 W2') as [N3 S3]; [lia|]. split; [exact N3|].
          intros st' H. destruct (S3 _ H). split; [assumption|lia].
        + split; [|discriminate]. intros msg C. apply (N1 msg). congruence. }
    destruct (G f st0 W0 (le_n _)) as [N S]. split; [exact N|]. intros st' H. destruct (S _ H). split; [assumption|lia].
Qed.

(** ** success *)
Lemma ref_input_ok : forall s fuel n st, inputs_closed s -> input_side s n ->
  not_fuel (ref_input_type fuel s n st) -> exists st', ref_input_type fuel s n st = Ok st'.
Proof.
  intros s fuel. induction fuel as [|fuel IH]; intros n st HC (t & E & Ht) NF; cbn [ref_input_type] in *; rewrite E in *;
    destruct t; try contradiction; try (eexists; reflexivity).
  - destruct (mem n (rf_inputs st)); [eauto|]. exfalso. exact (NF "" eq_refl).
  - destruct (mem n (rf_inputs st)); [eauto|].
    assert (HF : forall kv, In kv fields -> input_side s (gty_name (if_type (snd kv)))) by (intros; eapply HC; eassumption).
    clear E. revert NF. generalize (register_input n st) as st1. induction fields as [|kv fs IHf]; intros st1 NF; cbn; [eauto|].
    cbn in NF. destruct (IH (gty_name (if_type (snd kv))) st1 HC) as [st2 E2].
    + apply HF; now left.
    + intros msg C. apply (NF msg). rewrite C. reflexivity.
    + rewrite E2 in *. cbn in *. apply IHf; [intros; apply HF; now right|exact NF].
Qed.

(** ** selections *)

(** one field: only enums, scalars and fragments are added *)
Definition out_step (a b : refs) : Prop := rsub a b /\ rf_inputs b = rf_inputs a.
Lemma out_refl : forall a, out_step a a.  Proof. split; auto. Qed.
Lemma out_trans : forall a b c, out_step a b -> out_step b c -> out_step a c.
Proof. intros a b c [A1 A2] [B1 B2]. split; [eapply rsub_trans; eassumption|congruence]. Qed.
Lemma rfold_rel : forall {A S} (R : S -> S -> Prop) (f : A -> S -> res S) l s s',
  (forall a, R a a) -> (forall a b c, R a b -> R b c -> R a c) ->
  (forall x a b, In x l -> f x a = Ok b -> R a b) -> rfold f l s = Ok s' -> R s s'.
Proof.
  intros A S R f l s s' HR HT HS H. eapply (rfold_ok f (fun _ x => R s x)) in H; [exact H|apply HR|].
  intros pre x post a b E Hp Hf. eapply HT; [exact Hp|]. eapply HS; [|exact Hf]. rewrite E. apply in_or_app; right; now left.
Qed.

Definition field_ref (s : schema) (td : option typedef) (f : fieldnode) (st : refs) : res refs :=
  if String.eqb (fn_name f) "__typename" then Ok st
  else match td with
       | Some td' => let? d := field_of td' (fn_name f) in recurse_find_references s f (fd_type d) st
       | None => rraise ExceptionC "Expected GraphQLObjectType"
       end.
Definition sel_ok (s : schema) (x : selection) : Prop :=
  (forall td st, match ref_selection s td x st with
                 | Ok st' => out_step st st'
                 | Err e => ecls e <> OutOfFuelC
                 end)
  /\ match x with
     | SelField f => forall t st, match recurse_find_references s f t st with
                                  | Ok st' => out_step st st'
                                  | Err e => ecls e <> OutOfFuelC
                                  end
     | _ => True
     end.
Lemma rfold_res : forall {A} (f : A -> refs -> res refs) l,
  (forall x, In x l -> forall st, match f x st with Ok st' => out_step st st' | Err e => ecls e <> OutOfFuelC end) ->
  forall st, match rfold f l st with Ok st' => out_step st st' | Err e => ecls e <> OutOfFuelC end.
Proof.
  intros A f l. induction l as [|x l IH]; intros H st; cbn; [apply out_refl|].
  pose proof (H x (or_introl eq_refl) st) as H1. destruct (f x st) as [st1|e]; cbn; [|exact H1].
  pose proof (IH (fun y Hy => H y (or_intror Hy)) st1) as H2. destruct (rfold f l st1); [eapply out_trans; eassumption|exact H2].
Qed.
Lemma sel_out : forall s x, sel_ok s x.
Proof.
  intros s. apply sel_ind.
  - intros a n ar d.
    assert (Q : forall t st, match recurse_find_references s (FieldNode a n ar d None) t st with
                                  | Ok st' => out_step st st' | Err e => ecls e <> OutOfFuelC end).
    { intros t st. cbn. destruct (get_type s (gty_name t)) as [[]|]; cbn; try discriminate;
        split; auto using rsub_scalar, rsub_enum. }
    split; [|exact Q]. intros td st. cbn [ref_selection fn_name]. destruct (String.eqb n "__typename"); [apply out_refl|].
    unfold field_of. destruct (type_fields td) as [fs|]; cbn; [|discriminate]. destruct (dget n fs); cbn; [apply Q|discriminate].
  - intros a n ar d l HL.
    assert (Q : forall t st, match recurse_find_references s (FieldNode a n ar d (Some l)) t st with
                                  | Ok st' => out_step st st' | Err e => ecls e <> OutOfFuelC end).
    { intros t st. cbn [recurse_find_references].
      assert (Q' : forall td, match rfold (ref_selection s td) l st with Ok st' => out_step st st' | Err e => ecls e <> OutOfFuelC end).
      { intros td. apply rfold_res. intros x Hx st1. rewrite Forall_forall in HL. apply (HL x Hx). }
      destruct (get_type s (gty_name t)) as [[]|]; cbn; try discriminate; try apply Q';
        split; auto using rsub_scalar, rsub_enum. }
    split; [|exact Q]. intros td st. cbn [ref_selection fn_name]. destruct (String.eqb n "__typename"); [apply out_refl|].
    unfold field_of. destruct (type_fields td) as [fs|]; cbn [rbind]; [|discriminate]. destruct (dget n fs); cbn [rbind]; [apply Q|discriminate].
  - intros n d. split; [|exact I]. intros td st. cbn. split; auto using rsub_fragment.
  - intros c d l HL. split; [|exact I]. intros td st. cbn [ref_selection]. apply rfold_res.
    intros x Hx st1. destruct x as [f| |]; try apply out_refl.
    destruct c as [c|]; [|discriminate]. destruct (String.eqb (fn_name f) "__typename"); [apply out_refl|].
    destruct (get_type s c) as [td'|]; [|discriminate]. unfold field_of.
    destruct (type_fields td') as [fs|]; cbn [rbind]; [|discriminate]. destruct (dget (fn_name f) fs); cbn [rbind]; [|discriminate].
    rewrite Forall_forall in HL. apply (proj2 (HL _ Hx)).
Qed.
Lemma field_out : forall s f t st, match recurse_find_references s f t st with
                                  | Ok st' => out_step st st' | Err e => ecls e <> OutOfFuelC end.
Proof. intros s f. exact (proj2 (sel_out s (SelField f))). Qed.
Lemma root_out : forall s t f st, match ref_root_field s t f st with
                                  | Ok st' => out_step st st' | Err e => ecls e <> OutOfFuelC end.
Proof.
  intros s t f st. unfold ref_root_field. destruct (String.eqb _ _); [apply out_refl|].
  destruct (field_of_any t (fn_name f)) as [d|e] eqn:E; cbn [rbind]; [apply field_out|].
  unfold field_of_any in E. destruct t as [[]|]; cbn in E; try (injection E as <-; discriminate);
    destruct (dget _ _); try discriminate; injection E as <-; discriminate.
Qed.
Lemma fragment_out : forall s fr st, match ref_fragment s fr st with
                                  | Ok st' => out_step st st' | Err e => ecls e <> OutOfFuelC end.
Proof.
  intros s fr st. unfold ref_fragment. apply rfold_res. intros [f|n d|[c|] d l] _ st1.
  - apply root_out.
  - apply out_refl.
  - apply rfold_res. intros [f| |] _ st2; try apply out_refl. apply root_out.
  - discriminate.
Qed.
Lemma root_sels_out : forall s t sels st,
  match rfold (fun sel st => match sel with SelField f => ref_root_field s t f st | _ => Ok st end) sels st with
  | Ok st' => out_step st st' | Err e => ecls e <> OutOfFuelC end.
Proof. intros. apply rfold_res. intros [f| |] _ st1; try apply out_refl. apply root_out. Qed.

(** ** the whole registry *)
Definition var_inv (s : schema) (pre : list operation) (st : refs) : Prop :=
  let roots n := exists o v, In o pre /\ In v (op_vars o) /\ n = gty_name (v_type v) in
  (forall n, roots n -> recorded s st n)
  /\ (forall m, In m (rf_inputs st) -> needs s roots m /\ is_input s m)
  /\ (forall m, In m (rf_inputs st) -> closed_at s st m).
Lemma op_step : forall s pre o st st', var_inv s pre st -> ref_operation s o st = Ok st' -> var_inv s (pre ++ [o]) st'.
Proof.
  intros s pre o st st' (V1 & V2 & V3) H. unfold ref_operation in H.
  set (t := match root_type s (op_kind o) with Some n => _ | None => None end) in H.
  destruct (rfold _ (op_vars o) st) as [st1|] eqn:E; [|discriminate]. cbn [rbind] in H.
  pose proof (root_sels_out s t (op_sels o) st1) as HO. rewrite H in HO. destruct HO as [O1 O2].
  pose (roots := fun n => exists o0 v, In o0 (pre ++ [o]) /\ In v (op_vars o0) /\ n = gty_name (v_type v)).
  pose (P := fun (vs : list vardef) (st1 : refs) =>
    rsub st st1 /\ (forall v, In v vs -> recorded s st1 (gty_name (v_type v)))
    /\ (forall m, In m (rf_inputs st1) -> needs s roots m /\ is_input s m)
    /\ (forall m, In m (rf_inputs st1) -> closed_at s st1 m)).
  assert (HP : P (op_vars o) st1).
  { eapply (rfold_ok _ P); [exact E| |].
    - split; [apply rsub_refl|]. split; [intros ? []|]. split; [|exact V3].
      intros m Hm. destruct (V2 m Hm) as [N I]. split; [|exact I]. eapply needs_incl; [|exact N].
      intros x (o' & v & Ho & Hv & ->). constructor. exists o', v. rewrite in_app_iff; auto.
    - intros vs v post a b El (Q1 & Q2 & Q3 & Q4) Hs. unfold recurse_type_annotation_refs in Hs.
      destruct (ref_input_spec _ _ _ _ _ Hs) as (I1 & I2 & (_ & I3 & _) & I4). unfold P.
      split; [eapply rsub_trans; eassumption|]. split; [|split].
      + intros x Hx. apply in_app_or in Hx. destruct Hx as [Hx|[<-|[]]]; [eapply recorded_sub; eauto|exact I2].
      + intros m Hm. destruct (I3 m Hm) as [?|[N I]]; [auto|]. split; [|exact I]. eapply needs_incl; [|exact N].
        intros x <-. constructor. exists o, v. rewrite in_app_iff. cbn. split; [auto|]. split; [|reflexivity].
        rewrite El. apply in_or_app; right; now left.
      + intros m Hm. destruct (I4 m Hm) as [Hm'|?]; [|assumption]. eapply closed_sub; eauto. }
  destruct HP as (Q1 & Q2 & Q3 & Q4). split; [|split].
  - intros n (o' & v & Ho & Hv & ->). eapply recorded_sub; [exact O1|]. apply in_app_or in Ho. destruct Ho as [Ho|[<-|[]]].
    + eapply recorded_sub; [exact Q1|]. apply V1. eauto.
    + auto.
  - intros m Hm. rewrite O2 in Hm. auto.
  - intros m Hm. rewrite O2 in Hm. eapply closed_sub; eauto.
Qed.

Lemma dvals_dict_of : forall {A} (l : list (string * A)), NoDup (map fst l) -> dvals (dict_of l) = map snd l.
Proof. intros A l H. unfold dvals. now rewrite dict_of_NoDup. Qed.
Lemma named_ops : forall ops l,
  rmap (fun o => match op_name o with Some n => Ok (n, o) | None => rraise AttributeErrorC "value" end) ops = Ok l ->
  map snd l = ops /\ map (fun x => Some (fst x)) l = map op_name ops.
Proof.
  induction ops as [|o ops IH]; intros l H; cbn in H; [injection H as <-; auto|].
  destruct (op_name o) as [n|] eqn:E; [|discriminate]. cbn in H.
  destruct (rmap _ ops) as [l'|]; [|discriminate]. cbn in H. injection H as <-. destruct (IH _ eq_refl) as [H1 H2].
  cbn. rewrite H1, H2, E. auto.
Qed.
Lemma In_ops : forall o d, In o (operations_of d) <-> In (DOp o) d.
Proof.
  intros o d. unfold operations_of. rewrite in_flat_map. split.
  - intros ([x|x] & H & Hx); cbn in Hx; [destruct Hx as [<-|[]]; exact H|contradiction].
  - intros H. exists (DOp o); cbn; auto.
Qed.
Lemma In_frags : forall o d, In o (fragments_of d) <-> In (DFrag o) d.
Proof.
  intros o d. unfold fragments_of. rewrite in_flat_map. split.
  - intros ([x|x] & H & Hx); cbn in Hx; [contradiction|destruct Hx as [<-|[]]; exact H].
  - intros H. exists (DFrag o); cbn; auto.
Qed.
Lemma registry_steps : forall s d r, unique_names d -> create_reference_registry s d = Ok r ->
  exists st, rfold (ref_fragment s) (fragments_of d) no_refs = Ok st /\ rfold (ref_operation s) (operations_of d) st = Ok r.
Proof.
  intros s d r [U1 U2] H. unfold create_reference_registry in H.
  rewrite dvals_dict_of in H by (rewrite map_map; exact U1). rewrite map_map in H. cbn [snd] in H. rewrite map_id in H.
  destruct (rmap _ (operations_of d)) as [l|] eqn:E; [|discriminate]. cbn [rbind] in H.
  destruct (named_ops _ _ E) as [N1 N2].
  assert (NDl : NoDup (map fst l)).
  { rewrite <- N2 in U2. clear - U2. rewrite <- (map_map fst Some) in U2. now apply NoDup_map_inv in U2. }
  rewrite (dvals_dict_of l NDl), N1 in H. destruct (rfold (ref_fragment s) _ no_refs) as [st|]; [|discriminate]. cbn [rbind] in H. eauto.
Qed.
Theorem registry_inputs : forall s d r, unique_names d -> create_reference_registry s d = Ok r ->
  (forall n, In n (rf_inputs r) <-> needs s (variable_type d) n /\ is_input s n)
  /\ (forall n, needs s (variable_type d) n -> recorded s r n).
Proof.
  intros s d r U H. destruct (registry_steps _ _ _ U H) as (st & H1 & H2).
  assert (ST : rf_inputs st = []).
  { pose proof (rfold_res (ref_fragment s) (fragments_of d) (fun x _ => fragment_out s x) no_refs) as HO.
    rewrite H1 in HO. destruct HO as [_ HO]. exact HO. }
  assert (V : var_inv s (operations_of d) r).
  { eapply (rfold_ok _ (var_inv s)); [exact H2| |].
    - split; [intros n (o & v & [] & _)|]. rewrite ST. split; intros ? [].
    - intros pre o post a b _ Hp Hs. eapply op_step; eassumption. }
  destruct V as (V1 & V2 & V3).
  assert (RO : forall n, variable_type d n <-> exists o v, In o (operations_of d) /\ In v (op_vars o) /\ n = gty_name (v_type v)).
  { intros n. unfold variable_type. split; intros (o & v & Ho & R); exists o, v; (split; [now apply In_ops|exact R]). }
  assert (REC : forall n, needs s (variable_type d) n -> recorded s r n).
  { intros n HN. induction HN as [n Hn|n dd f di kv HN IH E Hk]; [now apply V1, RO|].
    unfold recorded in IH. rewrite E in IH. exact (V3 _ IH _ _ _ _ E Hk). }
  split; [|exact REC]. intros n. split.
  - intros Hn. destruct (V2 n Hn) as [N I]. split; [|exact I]. eapply needs_incl; [|exact N].
    intros m Hm. constructor. now apply RO.
  - intros [N (dd & f & di & E)]. specialize (REC n N). unfold recorded in REC. now rewrite E in REC.
Qed.

(** never out of fuel *)
Lemma registry_fuel : forall s d, not_fuel (create_reference_registry s d).
Proof.
  intros s d msg. unfold create_reference_registry.
  destruct (rmap _ (operations_of d)) as [l|e] eqn:E; cbn [rbind].
  2: { intros [= ->]. clear - E. revert E. induction (operations_of d) as [|o ops IH]; cbn; [discriminate|].
       destruct (op_name o); cbn; [|discriminate]. destruct (rmap _ ops); cbn; [discriminate|]. intros [= ->]. auto. }
  pose proof (rfold_res (ref_fragment s) (dvals (dict_of (map (fun f => (fr_name f, f)) (fragments_of d))))
                (fun x _ => fragment_out s x) no_refs) as HO.
  destruct (rfold (ref_fragment s) _ no_refs) as [st|e]; cbn [rbind]; [|intros [= ->]; now apply HO].
  assert (W : inputs_wf s st).
  { destruct HO as [_ HO]. unfold inputs_wf. rewrite HO. split; [constructor|intros ? []]. }
  clear HO E. generalize (dvals (dict_of l)) as ops. intros ops. revert st W.
  induction ops as [|o ops IH]; intros st W; cbn; [discriminate|].
  assert (HV : forall vs st1, inputs_wf s st1 ->
    match rfold (fun v st => recurse_type_annotation_refs s (v_type v) st) vs st1 with
    | Ok st2 => inputs_wf s st2 | Err e => ecls e <> OutOfFuelC end).
  { induction vs as [|v vs IHv]; intros st1 W1; cbn; [exact W1|]. unfold recurse_type_annotation_refs at 1.
    destruct (ref_input_fuel s (length (s_types s)) (gty_name (v_type v)) st1 W1) as [NF S]; [lia|].
    destruct (ref_input_type _ s _ st1) as [st2|[c m]] eqn:R; cbn.
    - apply IHv. now apply S.
    - intros ->. exact (NF m eq_refl). }
  unfold ref_operation. specialize (HV (op_vars o) st W).
  destruct (rfold _ (op_vars o) st) as [st1|e]; cbn [rbind]; [|intros [= ->]; now apply HV].
  set (t := match root_type s (op_kind o) with Some n => _ | None => None end).
  pose proof (root_sels_out s t (op_sels o) st1) as HS.
  destruct (rfold _ (op_sels o) st1) as [st2|e]; cbn [rbind]; [|intros [= ->]; now apply HS].
  apply IH. destruct HS as [_ HS]. destruct HV as [W1 W2]. split; rewrite HS; assumption.
Qed.

(** ** enums in selections *)
Lemma field_of_def : forall s n td f d, get_type s n = Some td -> f <> "__typename" -> get_field_def s n f = Some d ->
  field_of td f = Ok d /\ field_of_any (Some td) f = Ok d.
Proof.
  intros s n td f d E N H. unfold get_field_def in H. destruct (String.eqb_spec f "__typename"); [contradiction|].
  rewrite E in H. unfold field_of, field_of_any. destruct td; cbn in *; try discriminate; rewrite H; auto.
Qed.
Lemma get_field_def_type : forall s n f d, f <> "__typename" -> get_field_def s n f = Some d -> exists td, get_type s n = Some td.
Proof.
  intros s n f d N H. unfold get_field_def in H. destruct (String.eqb_spec f "__typename"); [contradiction|].
  destruct (get_type s n); [eauto|discriminate].
Qed.
Lemma rfold_mono_in : forall {A} (f : A -> refs -> res refs) l st st' x,
  (forall x, In x l -> forall st, match f x st with Ok st' => out_step st st' | Err e => ecls e <> OutOfFuelC end) ->
  rfold f l st = Ok st' -> In x l -> exists a b, f x a = Ok b /\ rsub b st'.
Proof.
  intros A f l st st' x HS H Hx. apply in_split in Hx. destruct Hx as (l1 & l2 & ->).
  revert st H. induction l1 as [|y l1 IH]; intros st H; cbn in H.
  - destruct (f x st) as [b|] eqn:E; [|discriminate]. cbn in H. exists st, b. split; [exact E|].
    pose proof (rfold_res f l2 (fun z Hz => HS z (or_intror Hz)) b) as HO. rewrite H in HO. apply HO.
  - destruct (f y st) as [b|] eqn:E; [|discriminate]. cbn in H. apply (IH (fun z Hz => HS z (or_intror Hz)) b H).
Qed.

Definition field_hit (s : schema) (parent : string) (sels : list selection) (e : string) : Prop :=
  exists f d, In (SelField f) sels /\ fn_name f <> "__typename" /\ get_field_def s parent (fn_name f) = Some d
    /\ forall st st', recurse_find_references s f (fd_type d) st = Ok st' -> In e (rf_enums st').
Lemma selects_hit : forall s parent sels e, selects s parent sels e -> is_enum s e -> flat sels ->
  field_hit s parent sels e
  \/ exists c dirs sub, In (SelInline (Some c) dirs sub) sels /\ field_hit s c sub e.
Proof.
  intros s parent sels e H (de & vs & E). induction H as [parent sels f d Hf N D|parent sels f d sub e Hf N D Hs C HS IH|parent sels c dirs sub e Hi HS IH]; intros [F1 F2].
  - left. exists f, d. repeat split; auto. intros st st' R. destruct f as [a n ar dd ss]. cbn in R. rewrite E in R.
    injection R as <-. cbn. apply sadd_In. now left.
  - left. exists f, d. repeat split; auto. intros st st' R. specialize (IH E (F1 _ _ Hf Hs)).
    destruct f as [a n ar dd ss]. cbn in Hs. subst ss. cbn [recurse_find_references] in R.
    destruct C as (t & Ht & Hc). rewrite Ht in R.
    assert (R' : rfold (ref_selection s t) sub st = Ok st') by (destruct t; try contradiction; exact R).
    clear R. destruct IH as [(f2 & d2 & K1 & K2 & K3 & K4)|(c & dirs & sub2 & K1 & f2 & d2 & K2 & K3 & K4 & K5)].
    + destruct (rfold_mono_in _ _ _ _ _ (fun x _ => proj1 (sel_out s x) t) R' K1) as (a1 & b1 & Q1 & Q2).
      cbn [ref_selection] in Q1. destruct (String.eqb_spec (fn_name f2) "__typename"); [contradiction|].
      rewrite (proj1 (field_of_def _ _ _ _ _ Ht K2 K3)) in Q1. cbn [rbind] in Q1. apply Q2. eauto.
    + destruct (rfold_mono_in _ _ _ _ _ (fun x _ => proj1 (sel_out s x) t) R' K1) as (a1 & b1 & Q1 & Q2).
      apply Q2. cbn [ref_selection] in Q1.
      eapply rfold_mono_in with (x := SelField f2) in Q1; [|clear; intros x _ st|exact K2].
      * destruct Q1 as (a2 & b2 & Q1 & Q3). apply Q3. cbn beta iota in Q1.
        destruct (String.eqb_spec (fn_name f2) "__typename"); [contradiction|].
        destruct (get_field_def_type _ _ _ _ K3 K4) as [td' Ht']. rewrite Ht' in Q1.
        rewrite (proj1 (field_of_def _ _ _ _ _ Ht' K3 K4)) in Q1. cbn [rbind] in Q1. eauto.
      * destruct x as [f| |]; try apply out_refl. destruct (String.eqb _ _); [apply out_refl|].
        destruct (get_type s c); [|discriminate]. destruct (field_of t (fn_name f)) eqn:X; cbn [rbind]; [apply field_out|].
        unfold field_of in X. destruct (type_fields t); [destruct (dget _ _)|]; inversion X; discriminate.
  - right. destruct (F2 _ _ _ Hi) as [F3 F4]. destruct (IH E F3) as [HH|(c' & d' & s' & K & _)]; [eauto|].
    exfalso. eapply F4; [exact K|exact I].
Qed.
Lemma root_hit : forall s parent sels e f st st', f = SelField -> field_hit s parent sels e ->
  forall g, (forall x, In x sels -> forall st, match g x st with Ok st' => out_step st st' | Err e => ecls e <> OutOfFuelC end) ->
  (forall f st, g (SelField f) st = ref_root_field s (get_type s parent) f st) ->
  rfold g sels st = Ok st' -> In e (rf_enums st').
Proof.
  intros s parent sels e _ st st' _ (f2 & d2 & K1 & K2 & K3 & K4) g Hg Hf R.
  destruct (rfold_mono_in _ _ _ _ _ Hg R K1) as (a1 & b1 & Q1 & Q2). apply Q2. rewrite Hf in Q1.
  unfold ref_root_field in Q1. destruct (String.eqb_spec (fn_name f2) "__typename"); [contradiction|].
  destruct (get_field_def_type _ _ _ _ K2 K3) as [td Ht]. rewrite Ht in Q1.
  rewrite (proj2 (field_of_def _ _ _ _ _ Ht K2 K3)) in Q1. cbn [rbind] in Q1. eauto.
Qed.
Lemma ref_operation_enums : forall s o st st', ref_operation s o st = Ok st' ->
  (forall e, In e (rf_enums st) -> In e (rf_enums st'))
  /\ (forall root e, root_type s (op_kind o) = Some root -> selects s root (op_sels o) e -> is_enum s e ->
       flat (op_sels o) -> (forall x, In x (op_sels o) -> ~ is_inline x) -> In e (rf_enums st')).
Proof.
  intros s o st st' H. unfold ref_operation in H.
  set (t := match root_type s (op_kind o) with Some n => _ | None => None end) in H.
  destruct (rfold _ (op_vars o) st) as [st1|] eqn:E; [|discriminate]. cbn [rbind] in H. split.
  - intros e He. pose proof (root_sels_out s t (op_sels o) st1) as HO. rewrite H in HO. apply HO.
    eapply (rfold_ok _ (fun _ st => In e (rf_enums st))); [exact E|exact He|].
    intros pre x post a b _ Ha Hs. unfold recurse_type_annotation_refs in Hs. apply ref_input_spec in Hs. apply Hs. exact Ha.
  - intros root e Hr HS HE HF HN.
    destruct (selects_hit _ _ _ _ HS HE HF) as [HH|(c & dirs & sub & K & _)]; [|exfalso; eapply HN; [exact K|exact I]].
    eapply root_hit; [reflexivity|exact HH| | |exact H].
    + intros [f| |] _ st2; try apply out_refl. apply root_out.
    + intros f st2. cbn beta iota. unfold t. now rewrite Hr.
Qed.
Lemma ref_fragment_enums : forall s fr st st', ref_fragment s fr st = Ok st' ->
  (forall e, In e (rf_enums st) -> In e (rf_enums st'))
  /\ (forall e, selects s (fr_on fr) (fr_sels fr) e -> is_enum s e -> flat (fr_sels fr) -> In e (rf_enums st')).
Proof.
  intros s fr st st' H. split.
  - intros e He. pose proof (fragment_out s fr st) as HO. rewrite H in HO. now apply HO.
  - intros e HS HE HF. unfold ref_fragment in H.
    assert (HG : forall x, In x (fr_sels fr) -> forall st, match
       (match x with
           | SelField f => ref_root_field s (get_type s (fr_on fr)) f st
           | SelInline None _ _ => rraise AttributeErrorC "name"
           | SelInline (Some c) _ l =>
               rfold (fun sub st => match sub with
                                    | SelField f => ref_root_field s (get_type s c) f st
                                    | _ => Ok st
                                    end) l st
           | SelSpread _ _ => Ok st
           end) with Ok st' => out_step st st' | Err e => ecls e <> OutOfFuelC end).
    { intros [f|n d|[c|] d l] _ st1; [apply root_out|apply out_refl| |discriminate].
      apply rfold_res. intros [f| |] _ st2; try apply out_refl. apply root_out. }
    destruct (selects_hit _ _ _ _ HS HE HF) as [HH|(c & dirs & sub & K & HH)].
    + eapply root_hit; [reflexivity|exact HH| | |exact H]; [exact HG|reflexivity].
    + destruct (rfold_mono_in _ _ _ _ _ HG H K) as (a1 & b1 & Q1 & Q2). apply Q2. cbn beta iota in Q1.
      eapply root_hit; [reflexivity|exact HH| | |exact Q1].
      * intros [f| |] _ st2; try apply out_refl. apply root_out.
      * reflexivity.
Qed.
Theorem registry_enums : forall s d r e, unique_names d -> flat_document d -> create_reference_registry s d = Ok r ->
  document_selects s d e -> is_enum s e -> In e (rf_enums r).
Proof.
  intros s d r e U [FO FF] H HD HE. destruct (registry_steps _ _ _ U H) as (st & H1 & H2).
  assert (MONO : forall l a b, rfold (ref_operation s) l a = Ok b -> forall e, In e (rf_enums a) -> In e (rf_enums b)).
  { intros l a b R x Hx. eapply (rfold_ok _ (fun _ st => In x (rf_enums st))); [exact R|exact Hx|].
    intros pre y post a0 b0 _ Ha Hs. apply (proj1 (ref_operation_enums _ _ _ _ Hs)). exact Ha. }
  destruct HD as [(o & root & Ho & Hr & HS)|(f & Hf & HS)].
  - apply In_ops in Ho. pose proof Ho as Ho'. apply in_split in Ho'. destruct Ho' as (l1 & l2 & El). rewrite El in H2.
    clear H1. revert st H2. clear El. induction l1 as [|y l1 IH]; intros st H2; cbn in H2.
    + destruct (ref_operation s o st) as [b|] eqn:E; [|discriminate]. cbn in H2. apply (MONO _ _ _ H2).
      destruct (FO o) as [F1 F2]; [now apply In_ops|]. eapply (proj2 (ref_operation_enums _ _ _ _ E)); eauto.
    + destruct (ref_operation s y st) as [b|] eqn:E; [|discriminate]. cbn in H2. eauto.
  - apply (MONO _ _ _ H2). apply In_frags in Hf.
    destruct (rfold_mono_in _ _ _ _ _ (fun x _ => fragment_out s x) H1 Hf) as (a & b & Q1 & Q2). apply Q2.
    eapply (proj2 (ref_fragment_enums _ _ _ _ Q1)); eauto. apply FF. now apply In_frags.
Qed.
Theorem registry_C18 : forall s d r,
  unique_names d -> create_reference_registry s d = Ok r ->
  (forall n, In n (rf_inputs r) <-> needs s (variable_type d) n /\ is_input s n)
  /\ (forall n, needs s (variable_type d) n -> is_enum s n -> In n (rf_enums r))
  /\ (forall n, needs s (variable_type d) n -> is_scalar s n -> In n (rf_scalars r)).
Proof.
  intros s d r U H. destruct (registry_inputs _ _ _ U H) as [H1 H2]. split; [exact H1|].
  split; [intros n N (dd & vs & E)|intros n N (dd & E)]; specialize (H2 n N); unfold recorded in H2; now rewrite E in H2.
Qed.
Theorem variables_succeed : forall s (vs : list vardef),
  inputs_closed s -> (forall v, In v vs -> input_side s (gty_name (v_type v))) ->
  exists st, rfold (fun v st => recurse_type_annotation_refs s (v_type v) st) vs no_refs = Ok st.
Proof.
  intros s vs C. assert (W : inputs_wf s no_refs) by (split; [constructor|intros ? []]). revert W. generalize no_refs as st.
  induction vs as [|v vs IH]; intros st W HI; [cbn; eauto|]. cbn.
  destruct (ref_input_fuel s (length (s_types s)) (gty_name (v_type v)) st W) as [NF S]; [lia|].
  unfold recurse_type_annotation_refs at 1.
  destruct (ref_input_ok s (length (s_types s)) (gty_name (v_type v)) st C) as (st' & E); [apply HI; now left|exact NF|].
  rewrite E. cbn. apply IH; [apply S, E|intros; apply HI; now right].
Qed.
