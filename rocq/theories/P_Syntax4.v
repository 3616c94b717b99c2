(** The classes of selections, fragments and operations. *)
From Verif Require Import Base PyAst Gql Config Stylers Registry Utils Documents Inline Recurse Fragments Operations
  Spec_Naming Spec_Inputs Spec_Syntax Spec_Scope2 P_Base P_Stylers P_Monad P_Registry P_Gql P_Topo P_Syntax P_Syntax2 P_Syntax3.

Lemma dget_list_In : forall {A} k (d : dict (list A)) x, In x (dget_list k d) -> exists l, In (k, l) d /\ In x l.
Proof. intros A k d x H. unfold dget_list in H. destruct (dget k d) as [l|] eqn:E; [|destruct H]. apply dget_Some_In in E. eauto. Qed.
Lemma implementations_In : forall s n i, In i (implementations s n) -> exists d is fs ds, In (i, TObject d is fs ds) (s_types s) /\ In n is.
Proof.
  intros s n i H. unfold implementations in H. apply in_flat_map in H as ([k t] & H1 & H2). cbn in H2. destruct t; try destruct H2.
  destruct (mem n _) eqn:M; [|destruct H2]. destruct H2 as [<-|[]]. apply mem_In in M. eauto 6.
Qed.

Section Selections.
Variable c : gconfig.
Variable st : list styler.
Variable s : schema.
Hypothesis C : config_named c.
Hypothesis S : forall x, In x st -> styler_named x.
Hypothesis N : schema_named s.

Definition pok (r : list stmt * list stmt) : Prop := Forall sv (fst r) /\ Forall sv (snd r).
Section Typer.
Variable tfn : typer.
Definition fok (g : fieldnode) : Prop := forall parent fd, pyname parent = true -> ok (tfn g parent fd) pok.
Definition flat (x : selection) : Prop :=
  match x with SelField g => fok g | SelSpread f _ => is_name f = true | SelInline _ _ _ => True end.
Definition sok (x : selection) : Prop :=
  match x with SelInline on _ sub => opt_named on = true /\ Forall flat sub | _ => flat x end.
Definition aok (r : list stmt * expr) : Prop := Forall sv (fst r) /\ ev (snd r).
Definition pynames (l : list string) : Prop := Forall (fun n => pyname n = true) l.
(** classes, bases, body *)
Definition cbb (acc : list stmt * list string * list stmt) : Prop := Forall sv (fst (fst acc)) /\ pynames (snd (fst acc)) /\ Forall sv (snd acc).

Lemma walk_ok : forall {A} (item : A -> selection -> M A) sels (J : A -> Prop),
  (forall l, sels = Some l -> forall a x, In x l -> J a -> ok (item a x) J) -> forall a, J a -> ok (walk item sels a) J.
Proof.
  intros A item [l|] J H a Ha; [|now apply ok_ret]. cbn. apply ok_mfold; [|exact Ha]. intros b x Hx Hb.
  destruct (is_typename_field x); [now apply ok_ret|]. now apply (H l eq_refl).
Qed.
Lemma snoc_ok : forall {A} (Q : A -> Prop) l x, Forall Q l -> Q x -> Forall Q (l ++ [x]).
Proof. intros A Q l x L X. apply Forall_app. split; [exact L|]. now constructor. Qed.

Lemma inline_item_ok : forall cls on acc x, pyname cls = true -> flat x -> cbb acc -> ok (inline_item s tfn cls on acc x) cbb.
Proof.
  intros cls on [[classes bases] fields] x P X (A1 & A2 & A3). cbn in A1, A2, A3. destruct x as [g|f ds|on' ds sub]; cbn [inline_item].
  - destruct (String.eqb _ _); [now apply ok_ret|]. destruct (get_type s on) as [[]|]; try apply ok_raise.
    eapply ok_bind with (P := fun _ => True); [destruct (dget _ _); [now apply ok_ret|apply ok_raise]|]. intros fd _.
    eapply ok_bind; [apply (X cls fd P)|]. intros [r1 r2] [R1 R2]. apply ok_ret. split; [|split]; cbn; [apply Forall_app; now split|exact A2|apply Forall_app; now split].
  - eapply ok_bind with (P := fun _ => True); [now apply ok_gets|]. intros i _. destruct i; [apply ok_raise|].
    bnd; [apply inherited_fragment|]. apply ok_ret. split; [exact A1|]. split; [now apply snoc_ok|exact A3].
  - now apply ok_ret.
Qed.
Definition inlined (parent on : string) : string := parent +s+ on +s+ "InlineFragment".
Lemma lower_app : forall a b, sforall is_lower (a +s+ b) = sforall is_lower a && sforall is_lower b.
Proof. intros a b. apply sforall_app. Qed.
Lemma inlined_named : forall parent on, pyname parent = true -> is_name on = true -> pyname (parent +s+ on +s+ "InlineFragment") = true.
Proof.
  intros parent on P O. apply pyname_app; [now apply pyname_name| |].
  - rewrite sforall_app. rewrite (proj2 (is_name_split _ O)). reflexivity.
  - rewrite sforall_app. apply andb_false_r.
Qed.
Lemma union_item_ok : forall parent acc x, pyname parent = true -> sok x -> Forall sv (fst acc) /\ pynames (snd acc) ->
  ok (union_item c s tfn parent acc x) (fun acc => Forall sv (fst acc) /\ pynames (snd acc)).
Proof.
  intros parent [classes names] x P X [A1 A2]. cbn in A1, A2. destruct x as [g|f ds|on ds sub]; cbn [union_item].
  - now apply ok_ret.
  - bnd; [apply inherited_fragment|]. apply ok_ret. split; [exact A1|now apply snoc_ok].
  - destruct X as [O X]. destruct on as [on|]; [|apply ok_raise]. cbn in O. unfold from_opt at 1. eapply ok_bind with (P := fun o => o = on); [now apply ok_ret|].
    intros ? ->. cbv zeta. assert (PN := inlined_named _ _ P O).
    eapply ok_bind with (P := cbb).
    { apply ok_mfold; [|repeat split; constructor]. intros a y Hy Ha. apply inline_item_ok; [exact PN| |exact Ha]. rewrite Forall_forall in X. now apply X. }
    intros [[nested bases] fields] (B1 & B2 & B3). cbn in B1, B2, B3.
    eapply ok_bind with (P := Forall sv).
    { destruct bases; [|now apply ok_ret]. bnd; [apply typename_ok|]. apply ok_ret. now constructor. }
    intros body HB. eapply ok_bind with (P := Forall ev).
    { destruct bases; [apply additional_bases_ok, C|]. apply ok_ret. now apply ev_names. }
    intros add HA. bnd; [apply config_ok, C|]. apply ok_ret. split; cbn [fst snd]; [|now apply snoc_ok].
    repeat (apply Forall_app; split); [exact A1|exact B1|]. constructor; [|constructor]. apply sv_class; [exact PN| | | |constructor].
    + apply Forall_app. split; [exact HA|now apply object_bases_ok].
    + now destruct (body ++ x).
    + assert (V : Forall sv (body ++ x)) by (apply Forall_app; now split). destruct (body ++ x); [now repeat constructor|exact V].
Qed.
Lemma union_annotation_ok : forall parent sels o, pyname parent = true -> (forall l, sels = Some l -> Forall sok l) ->
  ok (union_annotation c s tfn parent sels o) aok.
Proof.
  intros parent sels o P X. unfold union_annotation.
  eapply ok_bind with (P := fun acc => Forall sv (fst acc) /\ pynames (snd acc)).
  { apply walk_ok; [|repeat split; constructor]. intros l E a x Hx Ha. apply union_item_ok; [exact P| |exact Ha].
    specialize (X _ E). rewrite Forall_forall in X. now apply X. }
  intros [classes names] [A1 A2]. cbn in A1, A2. destruct names as [|n [|n' names]]; [apply ok_raise| |].
  - apply ok_ret. split; [exact A1|]. inversion A2; subst. now apply ev_name.
  - imp. bnd; [apply optional_if_ok, ok_ret, ev_union; now apply ev_names|]. apply ok_ret. now split.
Qed.

(** ** interfaces *)
Record ipok (p : iparts) : Prop := IPok {
  io_classes : Forall sv (ip_classes p); io_fields : Forall sv (ip_fields p);
  io_bases : forall k l n, In (k, l) (ip_bases p) -> In n l -> pyname n = true;
  io_inline : forall k l x, In (k, l) (ip_inline p) -> In x l -> sv x }.
Lemma extend_names : forall (m : dict string) b, (forall i t, In (i, t) m -> pyname t = true) ->
  (forall k l n, In (k, l) b -> In n l -> pyname n = true) ->
  forall k l n, In (k, l) (fold_left (fun b kv => dextend (fst kv) [snd kv] b) m b) -> In n l -> pyname n = true.
Proof.
  induction m as [|[i t] m IH]; intros b M B; [exact B|]. cbn [fold_left fst snd]. apply IH; [intros; eapply M; now right; eassumption|].
  intros k l n Hk Hn. destruct (dextend_In _ _ _ _ _ _ Hk Hn) as [(l' & H1 & H2)|[_ [<-|[]]]]; [eauto|]. eapply M. now left.
Qed.
Lemma spread_bases_ok : forall f b, (forall k l n, In (k, l) b -> In n l -> pyname n = true) ->
  ok (spread_bases f b) (fun b => forall k l n, In (k, l) b -> In n l -> pyname n = true).
Proof.
  intros f b B. unfold spread_bases. eapply ok_bind; [apply ok_gets with (Q := fun m => forall k m' i t, In (k, m') m -> In (i, t) m' -> pyname t = true)|].
  { intros r R. exact (rn_iffrag _ R). }
  intros m HM. destruct (dget f m) as [impls|] eqn:E.
  - apply ok_ret. apply dget_Some_In in E. apply extend_names; [|exact B]. intros i t. apply (HM _ _ _ _ E).
  - eapply ok_bind with (P := fun _ => True).
    { unfold get_fragment_type. eapply ok_bind; [apply ok_gets with (Q := fun _ => True); trivial|]. intros m' _. destruct (dget f m'); [now apply ok_ret|apply ok_raise]. }
    intros x _. bnd; [apply inherited_fragment|]. apply ok_ret. intros k l n Hk Hn.
    destruct (dextend_In _ _ _ _ _ _ Hk Hn) as [(l' & H1 & H2)|[_ [<-|[]]]]; [eauto|assumption].
Qed.
Lemma inline_fields_ok : forall strict parent on sub, pyname parent = true -> Forall flat sub -> ok (inline_fields s tfn strict parent on sub) pok.
Proof.
  intros strict parent on sub P X. apply ok_mfold; [|split; constructor]. intros [a1 a2] x Hx [A1 A2]. cbn in A1, A2. rewrite Forall_forall in X. specialize (X _ Hx).
  destruct x as [g|f ds|on' ds sub']; try (now apply ok_ret). destruct (String.eqb _ _); [now apply ok_ret|].
  eapply ok_bind with (P := fun _ => True); [destruct (get_field_def _ _ _); [now apply ok_ret|apply ok_raise]|]. intros fd _.
  eapply ok_bind; [apply (X parent fd P)|]. intros [r1 r2] [R1 R2]. apply ok_ret. split; cbn; apply Forall_app; now split.
Qed.
Definition ifok (p : iparts) : Prop := ipok p /\ ip_fields p <> [].
Lemma iface_item_ok : forall strict fields parent p x, pyname parent = true -> sok x -> ifok p -> ok (iface_item s tfn strict fields parent p x) ifok.
Proof.
  intros strict fields parent p x P X [[A1 A2 A3 A4] E]. destruct x as [g|f ds|on ds sub]; cbn [iface_item].
  - eapply ok_bind with (P := fun _ => True); [destruct (dget _ _); [now apply ok_ret|apply ok_raise]|]. intros fd _.
    eapply ok_bind; [apply (X parent fd P)|]. intros [r1 r2] [R1 R2]. apply ok_ret.
    split; [|intros E'; apply app_eq_nil in E' as [E' _]; now apply E]. constructor; cbn; try assumption; apply Forall_app; now split.
  - eapply ok_bind; [apply spread_bases_ok; exact A3|]. intros b HB. apply ok_ret. now split.
  - destruct X as [O X]. eapply ok_bind with (P := fun _ => True); [destruct on; [now apply ok_ret|apply ok_raise]|]. intros n _.
    eapply ok_bind with (P := fun _ => True); [destruct (get_type s n) as [[]|]; destruct strict; try (now apply ok_ret); apply ok_raise|]. intros _ _.
    eapply ok_bind; [now apply inline_fields_ok|]. intros [r1 r2] [R1 R2]. apply ok_ret. split; [|exact E].
    constructor; cbn; try assumption; [apply Forall_app; now split|].
    intros k l y Hk Hy. destruct (dextend_In _ _ _ _ _ _ Hk Hy) as [(l' & H1 & H2)|[_ H]]; [eauto|]. cbn in R2. rewrite Forall_forall in R2. now apply R2.
Qed.
Lemma implementing_class_ok : forall mother cls p i, pyname mother = true -> pyname cls = true -> ipok p -> ok (implementing_class c s mother cls p i) sv.
Proof.
  intros mother cls p i PM PC [A1 A2 A3 A4]. unfold implementing_class. bnd; [apply additional_bases_ok, C|]. bnd; [apply interface_bases_ok, C|].
  bnd; [apply typename_ok|]. apply ok_ret. apply sv_class; [exact PC| |discriminate| |constructor].
  - repeat (apply Forall_app; split); try assumption; [|now repeat constructor; apply ev_name]. apply ev_names, Forall_forall. intros n Hn.
    apply dget_list_In in Hn as (l & H1 & H2). eauto.
  - apply Forall_app. split; [constructor; [apply sv_docs|constructor; [assumption|constructor]]|]. apply Forall_forall. intros y Hy. apply dget_list_In in Hy as (l & H1 & H2). eauto.
Qed.
Lemma tail_named : forall a b d, is_name a = true -> sforall name_char (b +s+ d) = true -> sforall is_lower b = false -> pyname ((a +s+ b) +s+ d) = true.
Proof. intros a b d A B L. rewrite app_assoc_s. apply pyname_app; [exact A|exact B|]. rewrite sforall_app, L. reflexivity. Qed.
Lemma field_discriminator : ev (field_call [("discriminator", estr "typename")]).
Proof. apply ev_kwcall; [now apply ev_name|repeat constructor; cbn; tauto|]. kws. Qed.
Lemma interface_annotation_ok : forall parent target n d fields sels o, pyname parent = true -> is_name target = true -> (forall l, sels = Some l -> Forall sok l) ->
  ok (interface_annotation c s tfn parent target n d fields sels o) aok.
Proof.
  intros parent target n d fields sels o P T X. unfold interface_annotation.
  assert (PB := pyname_capitalized _ _ (pyname_name _ P) T). set (base := parent +s+ py_capitalize target) in *. cbv zeta.
  eapply ok_bind with (P := ifok).
  { apply walk_ok; [|split; [|discriminate]; constructor; cbn; [constructor|constructor; [apply sv_docs|constructor]|intros k l z []|intros k l z []]].
    intros l E a x Hx Ha. apply iface_item_ok; [exact PB| |exact Ha]. specialize (X _ E). rewrite Forall_forall in X. now apply X. }
  intros p [HP HE]. assert (PM : pyname (base +s+ "Base") = true) by (apply pyname_app; [now apply pyname_name|reflexivity|reflexivity]).
  assert (PI : forall i, In i (implementations s n) -> pyname ((base +s+ "Base") +s+ i) = true).
  { intros i Hi. apply implementations_In in Hi as (? & ? & ? & ? & Hi & _). apply tail_named; [now apply pyname_name| |reflexivity].
    exact (proj2 (is_name_split _ (sn_types _ N _ _ Hi))). }
  bnd; [apply additional_bases_ok, C|]. bnd; [apply interface_bases_ok, C|]. bnd; [apply config_ok, C|].
  bnd; [apply ok_mmap with (Q := sv); intros i Hi; apply implementing_class_ok; [exact PM|now apply PI|exact HP]|]. imp. imp. cbv zeta.
  set (members := union_of _). set (ann := annotated_of _).
  assert (EA : ev ann).
  { apply ev_annotated. constructor; [|constructor; [exact field_discriminator|constructor]]. apply ev_union, Forall_map, Forall_forall. intros i Hi. now apply ev_name, PI. }
  assert (PC : pyname ((base +s+ "Base") +s+ "CatchAll") = true) by (apply pyname_app; [now apply pyname_name|reflexivity|reflexivity]).
  eapply ok_bind with (P := aok).
  { destruct (c_create_catchall c); [|apply ok_ret; split; [constructor|exact EA]]. bnd; [apply interface_bases_ok, C|]. bnd; [apply generic_typename_ok|].
    imp. apply ok_ret. split; cbn [fst snd].
    - constructor; [|constructor]. apply sv_class; [exact PC| |discriminate| |constructor]; [constructor; [now apply ev_name|assumption]|].
      constructor; [apply sv_doc|constructor; [assumption|constructor]].
    - apply ev_union. constructor; [exact EA|constructor; [now apply ev_name|constructor]]. }
  intros rest [R1 R2]. bnd; [now apply optional_if_ok, ok_ret|].
  eapply ok_bind with (P := fun _ => True); [destruct o; [now apply ok_ret|now apply import_kept]|]. intros _ _. apply ok_ret.
  destruct HP as [A1 A2 A3 A4]. split; cbn [fst snd]; [|assumption]. repeat (apply Forall_app; split); try assumption.
  constructor; [|constructor]. apply sv_class; [exact PM| | | |constructor]; try (apply Forall_app; now split).
  intros E. apply app_eq_nil in E as [E _]. now apply HE.
Qed.

(** ** objects *)
Lemma object_item_ok : forall n cls fields acc x, pyname cls = true -> sok x -> cbb acc /\ snd acc <> [] ->
  ok (object_item tfn n cls fields acc x) (fun a => cbb a /\ snd a <> []).
Proof.
  intros n cls fields [[classes bases] body] x P X [(A1 & A2 & A3) E]. cbn in A1, A2, A3, E. destruct x as [g|f ds|on ds sub]; cbn [object_item].
  - destruct (String.eqb _ _); [now apply ok_ret|].
    eapply ok_bind with (P := fun _ => True); [destruct (dget _ _); [now apply ok_ret|apply ok_raise]|]. intros fd _.
    eapply ok_bind; [apply (X cls fd P)|]. intros [r1 r2] [R1 R2]. apply ok_ret. split; [|intros E'; apply app_eq_nil in E' as [E' _]; now apply E].
    split; [|split]; cbn; [apply Forall_app; now split|exact A2|apply Forall_app; now split].
  - bnd; [apply implementation_ok|]. eapply ok_bind with (P := fun b => pyname b = true).
    { destruct x as [b|]; [now apply ok_ret, Hx|apply inherited_fragment]. }
    intros b HB. apply ok_ret. split; [|exact E]. split; [exact A1|]. split; [now apply snoc_ok|exact A3].
  - apply ok_raise.
Qed.
Lemma object_annotation_ok : forall parent target n d fields sels o, pyname parent = true -> is_name target = true -> (forall l, sels = Some l -> Forall sok l) ->
  ok (object_annotation c st tfn parent target n d fields sels o) aok.
Proof.
  intros parent target n d fields sels o P T X. unfold object_annotation.
  assert (PB := pyname_capitalized _ _ (pyname_name _ P) T). set (base := parent +s+ py_capitalize target) in *. cbv zeta.
  bnd; [apply typename_ok|].
  assert (G : ok (let* r := walk (object_item tfn n base fields) sels ([], [], [doc_stmt d; x]) in
      let '(classes, bases, body) := r in
      let* add := match bases with [] => get_additional_bases_for_type c n | _ => ret (map EName bases) end in
      let* cfg := generate_pydantic_config (KT KObject) c None in
      let* e := optional_if o (ret (EName base)) in
      ret (classes ++ [SClass base (add ++ names_of (c_object_bases c)) (body ++ cfg) []], e)) aok).
  { eapply ok_bind with (P := fun a => cbb a /\ snd a <> []).
    { apply walk_ok; [|split; [|discriminate]; repeat split; cbn; [constructor|constructor|constructor; [apply sv_docs|constructor; [assumption|constructor]]]].
      intros l E a y Hy Ha. apply object_item_ok; [exact PB| |exact Ha]. specialize (X _ E). rewrite Forall_forall in X. now apply X. }
    intros [[classes bases] body] [(A1 & A2 & A3) E]. cbn in A1, A2, A3, E. eapply ok_bind with (P := Forall ev).
    { destruct bases; [apply additional_bases_ok, C|]. apply ok_ret. now apply ev_names. }
    intros add HA. bnd; [apply config_ok, C|]. bnd; [now apply optional_if_ok, ok_ret, ev_name|]. apply ok_ret. split; cbn [fst snd]; [|assumption].
    apply snoc_ok; [exact A1|]. apply sv_class; [exact PB| | | |constructor]; try (apply Forall_app; split; try assumption; now apply object_bases_ok).
    intros E'. apply app_eq_nil in E' as [E' _]. now apply E. }
  destruct (option_map non_typename sels) as [[|[g|f ds|on ds sub] [|y l]]|] eqn:ES; try exact G.
  bnd; [apply implementation_ok|]. eapply ok_bind with (P := ev).
  { destruct x0 as [b|]; [now apply ok_ret, ev_name, Hx0|]. destruct sels as [l|]; [|discriminate]. injection ES as ES.
    specialize (X _ eq_refl). rewrite Forall_forall in X. assert (HI : In (SelSpread f ds) l).
    { assert (HI : In (SelSpread f ds) (non_typename l)) by (rewrite ES; now left). unfold non_typename in HI. now apply filter_In in HI. }
    apply fragment_ref; [exact S|exact (X _ HI)|auto]. }
  intros e He. bnd; [now apply optional_if_ok, ok_ret|]. apply ok_ret. now split; [constructor|].
Qed.
Lemma named_annotation_ok : forall parent target sels n o, pyname parent = true -> is_name target = true -> (forall l, sels = Some l -> Forall sok l) ->
  ok (named_annotation c st s tfn parent target sels n o) aok.
Proof.
  intros parent target sels n o P T X. unfold named_annotation. destruct (get_type s n) as [[]|]; try apply ok_raise.
  - bnd; [apply optional_if_ok, scalar_ok|]. apply ok_ret. now split; [constructor|].
  - bnd; [apply optional_if_ok, enum_ref; [exact S|auto]|]. apply ok_ret. now split; [constructor|].
  - now apply object_annotation_ok.
  - now apply interface_annotation_ok.
  - now apply union_annotation_ok.
Qed.
Lemma wrap_ok : forall named, (forall n o, ok (named n o) aok) -> forall t o, ok (wrap_annotation c named t o) aok.
Proof.
  intros named H. induction t as [n|t IH|t IH]; intros o; cbn [wrap_annotation]; [apply H| |apply IH].
  eapply ok_bind; [apply import_kept; now destruct (fz_enabled (c_freeze c))|]. intros _ _. eapply ok_bind; [now apply import_when|]. intros _ _.
  eapply ok_bind; [apply IH|]. intros [r1 r2] [R1 R2]. cbn in R1, R2. apply ok_ret. split; [exact R1|]. cbn.
  destruct (fz_enabled _), o; repeat first [apply ev_optional|apply ev_tupled|apply ev_list]; assumption.
Qed.
End Typer.

Notation tfn := (type_field_node c st s).
Definition deep (x : selection) : Prop :=
  match x with
  | SelField g => field_named g = true -> fok tfn g
  | SelInline _ _ sub => forall g, In (SelField g) sub -> field_named g = true -> fok tfn g
  | SelSpread _ _ => True
  end.
Lemma deep_sok : forall l, Forall deep l -> forallb sel_named l = true -> Forall (sok tfn) l.
Proof.
  intros l D H. apply Forall_forall. intros x Hx. rewrite Forall_forall in D. rewrite forallb_forall in H. specialize (D _ Hx). specialize (H _ Hx).
  destruct x as [g|f ds|on ds sub]; cbn in H, D |- *; [now apply D|exact H|]. apply andb_true_iff in H as [H1 H2]. split; [exact H1|].
  apply Forall_forall. intros y Hy. rewrite forallb_forall in H2. specialize (H2 _ Hy). destruct y as [g|f' ds'|]; cbn in *; auto.
Qed.
Lemma node_ok : forall a n ar ds sels, (forall l, sels = Some l -> Forall deep l) -> field_named (FieldNode a n ar ds sels) = true -> fok tfn (FieldNode a n ar ds sels).
Proof.
  intros a n ar ds sels D H parent fd P. cbn [type_field_node]. cbn [field_named] in H. apply andb_true_iff in H as [H HS]. apply andb_true_iff in H as [HA HN].
  assert (T : is_name (match a with Some a => a | None => n end) = true) by (destruct a; assumption). cbv zeta.
  eapply ok_bind with (P := aok).
  { apply wrap_ok. intros m o. apply named_annotation_ok; [exact P|exact T|]. intros l ->. apply deep_sok; [now apply D|exact HS]. }
  intros r [R1 R2]. eapply ok_bind; [apply field_statements_ok; [exact C|exact S|exact T|exact R2]|]. intros body [HB _]. apply ok_ret. now split.
Qed.
Lemma all_deep : forall x, deep x.
Proof.
  apply sel_ind.
  - intros a n ar d. cbn [deep]. apply node_ok. discriminate.
  - intros a n ar d l H. cbn [deep]. apply node_ok. now intros l' [= <-].
  - intros n d. exact I.
  - intros c0 d l H g Hg. rewrite Forall_forall in H. exact (H _ Hg).
Qed.
Lemma sels_ok : forall l, forallb sel_named l = true -> Forall (sok tfn) l.
Proof. intros l. apply deep_sok, Forall_forall. intros x _. apply all_deep. Qed.
Lemma field_ok : forall g parent fd, field_named g = true -> pyname parent = true -> ok (tfn g parent fd) (fun r => pok r).
Proof. intros g parent fd H P. exact (all_deep (SelField g) H parent fd P). Qed.
End Selections.
