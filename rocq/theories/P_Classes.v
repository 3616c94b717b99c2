(** Names of the classes of a module. *)
From Coq Require Import Lia.
From Verif Require Import Base PyAst Gql Config Stylers Registry Utils Documents Inline Referencer Enums Inputs Recurse Fragments Objects Operations
  Spec_Types Spec_Fields Spec_Names Spec_Inputs Spec_Paths Spec_Classes
  P_Base P_Monad P_Stylers P_Annot P_Inputs P_Recurse P_Fields P_Dispatch P_Attr P_Trace P_Enums P_Paths P_InlineProps.

(** ** Styling class names *)
Lemma ends_under_app : forall a b, b <> "" -> ends_under (a +s+ b) = ends_under b.
Proof.
  induction a as [|x a IH]; intros b H; [reflexivity|]. change (String x a +s+ b) with (String x (a +s+ b)). cbn [ends_under].
  destruct (a +s+ b) as [|y z] eqn:E; [|now rewrite <- E, IH]. destruct a; destruct b; try discriminate; congruence.
Qed.
Lemma keyword_no_under : forall n, In n kwlist -> ends_under n = false.
Proof.
  assert (F : forallb (fun n => negb (ends_under n)) kwlist = true) by (vm_compute; reflexivity).
  intros n H. rewrite forallb_forall in F. apply F in H. now apply negb_true_iff.
Qed.
Lemma cap_upper : forall n, starts_with (fun c => negb (is_lower c)) n = true -> cap_first n = n.
Proof.
  intros [|x n] H; [reflexivity|]. cbn in *. f_equal.
  assert (T := ascii_forall (fun x => is_lower x || Ascii.eqb (to_upper x) x)). cbn beta in T.
  specialize (T ltac:(vm_compute; reflexivity) x). apply negb_true_iff in H. rewrite H in T. now apply Ascii.eqb_eq.
Qed.
Lemma starts_app : forall p a b, starts_with p a = true -> starts_with p (a +s+ b) = true.
Proof. intros p [|x a] b H; [discriminate|exact H]. Qed.
Lemma styled_suffix : forall sel st, class_method sel -> Forall shipped st -> exists x, forall n, starts_with (fun c => negb (is_lower c)) n = true ->
  fold_left (fun n s => sel s n) st n = n +s+ x.
Proof.
  intros sel st HC HS. assert (G : forall w, exists x, forall n, starts_with (fun c => negb (is_lower c)) n = true -> fold_left (fun n s => sel s n) st (n +s+ w) = n +s+ x).
  { induction HS as [|y st Hy HS IH]; intros w; [exists w; reflexivity|].
    assert (Hw : exists w', forall n, starts_with (fun c => negb (is_lower c)) n = true -> sel y (n +s+ w) = n +s+ w').
    { assert (HK : forall n, starts_with (fun c => negb (is_lower c)) n = true -> cap_first (n +s+ w) = n +s+ w) by (intros n Hn; apply cap_upper, starts_app, Hn).
      destruct HC; destruct Hy; try (exists w; intros n Hn; first [exact (HK n Hn)|reflexivity]);
        eexists; intros n Hn; cbn; apply app_assoc_s. }
    destruct Hw as [w' Hw]. destruct (IH w') as [x Hx]. exists x. intros n Hn. cbn [fold_left]. rewrite Hw by assumption. auto. }
  destruct (G "") as [x Hx]. exists x. intros n Hn. specialize (Hx n Hn). now rewrite app_nil_s in Hx.
Qed.
Lemma app_inv_tail_s : forall a b x, a +s+ x = b +s+ x -> a = b.
Proof.
  assert (L : forall u v, String.length (u +s+ v) = String.length u + String.length v).
  { induction u as [|y u IH]; intros v; [reflexivity|]. cbn. now rewrite <- IH. }
  induction a as [|y a IH]; intros [|z b] x H; [reflexivity| | |].
  - apply (f_equal String.length) in H. rewrite !L in H. cbn in H. lia.
  - apply (f_equal String.length) in H. rewrite !L in H. cbn in H. lia.
  - cbn in H. injection H as -> H. f_equal. eapply IH; exact H.
Qed.
Lemma style_inj : forall sel st a b, class_method sel -> Forall shipped st -> plain_class a -> plain_class b ->
  style_with sel st a = style_with sel st b -> a = b.
Proof.
  intros sel st a b HC HS (A1 & A2 & _) (B1 & B2 & _) E. destruct (styled_suffix _ _ HC HS) as [x Hx].
  unfold style_with in E. rewrite !Hx in E by assumption.
  assert (C : forall a b, starts_with (fun c => negb (is_lower c)) b = true -> ends_under b = false -> iskeyword (a +s+ x) = true -> (a +s+ x) +s+ "_" = b +s+ x -> False).
  { clear. intros a b HB HU HK E. apply mem_In in HK. apply keyword_no_under in HK.
    assert (U : ends_under (b +s+ x) = true) by (rewrite <- E; now rewrite ends_under_app).
    destruct x as [|y x]; [rewrite app_nil_s in U; congruence|]. rewrite ends_under_app in U, HK by discriminate. congruence. }
  destruct (iskeyword (a +s+ x)) eqn:KA, (iskeyword (b +s+ x)) eqn:KB.
  - apply app_inv_tail_s in E. now apply app_inv_tail_s in E.
  - exfalso. eapply (C a b); eauto.
  - exfalso. eapply (C b a); eauto.
  - now apply app_inv_tail_s in E.
Qed.
Lemma style_plain : forall sel st a, class_method sel -> Forall adds_nothing st -> plain_class a -> style_with sel st a = a.
Proof.
  intros sel st a HC HS (A1 & _ & A3). unfold style_with.
  assert (E : fold_left (fun n s => sel s n) st a = a).
  { induction HS as [|y st Hy HS IH]; [reflexivity|]. cbn [fold_left].
    replace (sel y a) with a; [exact IH|]. destruct HC; destruct Hy; cbn; unfold ident; try rewrite cap_upper by assumption; reflexivity. }
  rewrite E. destruct (iskeyword a) eqn:K; [|reflexivity]. exfalso. apply A3. now apply mem_In.
Qed.
Lemma style_object_plain : forall st a, Forall shipped st -> ~ In a kwlist -> style_with sty_object st a = a.
Proof.
  intros st a HS HK. unfold style_with.
  assert (E : fold_left (fun n s => sty_object s n) st a = a).
  { induction HS as [|y st Hy HS IH]; [reflexivity|]. cbn [fold_left]. replace (sty_object y a) with a; [exact IH|]. destruct Hy; reflexivity. }
  rewrite E. destruct (iskeyword a) eqn:K; [|reflexivity]. exfalso. apply HK. now apply mem_In.
Qed.
Lemma NoDup_map_on : forall {A B} (f : A -> B) l, (forall x y, In x l -> In y l -> f x = f y -> x = y) -> NoDup l -> NoDup (map f l).
Proof.
  intros A B f l HI N. induction N as [|x l Hx N IH]; [constructor|]. cbn. constructor.
  - intros H. apply in_map_iff in H as (y & E & Hy). apply HI in E; [subst; auto|now right|now left].
  - apply IH. intros; apply HI; [now right|now right|assumption].
Qed.

(** ** Enums and inputs: each class is registered *)
Lemma named_app : forall a b, named (a ++ b) = named a ++ named b.
Proof. intros. apply flat_map_app. Qed.
Definition from_keys (style : string -> string) (P : string -> Prop) (l : list stmt) (ks : list string) : Prop :=
  named l = map style ks /\ Forall P ks.
Lemma from_keys_app : forall style P a b ks ks', from_keys style P a ks -> from_keys style P b ks' -> from_keys style P (a ++ b) (ks ++ ks').
Proof. intros style P a b ks ks' [E F] [E' F']. split; [now rewrite named_app, map_app, E, E'|apply Forall_app; auto]. Qed.

Section Mod.
Variable c : gconfig.
Variable st : list styler.
Variable s : schema.
Lemma tr_ev_inputs : forall {A} K (m : M A), ev st K m -> ~ In KInp K -> tr r_inputs (fun _ ks => ks = []) m.
Proof. intros A K m HE HK. apply tr_silent. intros r a r' E. eapply frame_inputs; [exact HK|]. eapply ev_ok; eassumption. Qed.
Lemma tr_ev_enums : forall {A} K (m : M A), ev st K m -> ~ In KEnu K -> tr r_enums (fun _ ks => ks = []) m.
Proof. intros A K m HE HK. apply tr_silent. intros r a r' E. eapply frame_enums; [exact HK|]. eapply ev_ok; eassumption. Qed.
Ltac quiet := eapply (tr_ev_inputs input_kinds); [unfold input_kinds; ev_tac|cbn; intuition discriminate].

Lemma enums_named : forall pc documents r l r', enums_plugin c st pc s documents r = (Ok l, r') ->
  exists ks, dkeys (r_enums r') = dkeys (r_enums r) ++ ks /\ NoDup ks /\ from_keys (style_with sty_enum st) (fun k => In k (enum_names s)) l ks.
Proof.
  intros pc documents r l r' H.
  assert (T : tr r_enums (from_keys (style_with sty_enum st) (fun k => In k (enum_names s))) (enums_plugin c st pc s documents)).
  { unfold enums_plugin. apply tr_skip; [eapply (tr_ev_enums [KImp]); [ev_tac|cbn; intuition discriminate]|]. intros _.
    unfold generate_enums. apply tr_skip; [eapply (tr_ev_enums []); [apply ev_plugin_refs|intros []]|]. intros rf.
    apply tr_mconcat; [|split; constructor]. intros ys ks [key [d vs]] Hin HR. cbn [fst snd].
    destruct (enum_skipped pc rf key); [apply tr_ret; rewrite !app_nil_r; exact HR|].
    eapply tr_bind; [apply (tr_generate_in r_enums with_enums); reflexivity|]. intros a ks' [-> ->]. apply tr_ret. cbn [app].
    apply from_keys_app; [exact HR|]. split; [reflexivity|]. constructor; [|constructor].
    unfold enum_types in Hin. apply in_flat_map in Hin as ([k t] & Hk & Hin). apply in_flat_map. exists (k, t). split; [exact Hk|].
    cbn [snd fst] in *. destruct t; try contradiction. destruct Hin as [E|[]]. injection E as -> -> ->. now left. }
  destruct (T _ _ _ H) as (ks & E & N & _ & HF). exists ks. auto.
Qed.
Variable pc : inputs_config.
Definition infrom := from_keys (style_with sty_input st) (fun k => In k (input_names s)).
Lemma ins_key : forall key t, In (key, t) (input_types s) -> In key (input_names s).
Proof.
  intros key t H. unfold input_types in H. apply in_flat_map in H as ([k x] & Hk & H). apply in_flat_map. exists (k, x). split; [exact Hk|].
  cbn [snd fst] in *. destruct x; try contradiction. destruct H as [E|[]]. injection E as -> _. now left.
Qed.
Lemma ins_wrapper : forall key t f, In (key, t) (input_types s) -> is_oneof_input_type (TInput (id_desc t) (id_fields t) (id_dirs t)) = true ->
  In f (id_fields t) -> In (key +s+ cap_first (fst f)) (input_names s).
Proof.
  intros key t f H HO Hf. unfold input_types in H. apply in_flat_map in H as ([k x] & Hk & H). apply in_flat_map. exists (k, x). split; [exact Hk|].
  cbn [snd fst] in *. destruct x; try contradiction. destruct H as [E|[]]. injection E as -> <-. cbn [id_desc id_fields id_dirs] in *. right.
  assert (O : oneof_b dirs = true) by exact HO. rewrite O. apply in_map_iff. exists f. auto.
Qed.
Lemma tr_generate_input : forall n, tr r_inputs (fun cls ks => cls = style_with sty_input st n /\ ks = [n]) (generate_inputtype st n).
Proof. intros n. apply (tr_generate_in r_inputs with_inputs). reflexivity. Qed.
Lemma input_class_named : forall name key d fs bases ds r x r', input_class c st pc s name key d fs bases ds r = (Ok x, r') -> exists b body decs, x = SClass name b body decs.
Proof.
  intros name key d fs bases ds r x r' H. unfold input_class in H. minv. do 3 eexists. reflexivity.
Qed.
Lemma tr_input_class : forall name key d fs bases ds, tr r_inputs (fun x ks => ks = [] /\ named [x] = [name]) (input_class c st pc s name key d fs bases ds).
Proof.
  intros name key d fs bases ds r x r' H. destruct (input_class_named _ _ _ _ _ _ _ _ _ H) as (b & body & decs & ->).
  exists []. rewrite app_nil_r. split; [|repeat split; [constructor|intros k []]]. f_equal. eapply frame_inputs; [|eapply ev_ok; [apply ev_input_class|exact H]]. cbn; intuition discriminate.
Qed.
Lemma wrapper_named : forall key t, In (key, t) (input_types s) -> is_oneof_input_type (TInput (id_desc t) (id_fields t) (id_dirs t)) = true ->
  tr r_inputs infrom (generate_oneof_wrapper_input c st pc s key (id_fields t)).
Proof.
  intros key t Hin HO. unfold generate_oneof_wrapper_input.
  apply tr_skip; [eapply (tr_ev_inputs); [apply ev_additional_bases|cbn; intuition discriminate]|]. intros add.
  eapply tr_bind.
  - apply (tr_mmap r_inputs (fun ys ks => infrom (map snd ys) ks) _ (id_fields t)) with (ys := []) (ks := []); [|split; constructor].
    intros ys ks [k v] Hx HR. unfold oneof_wrapper_class. eapply tr_bind; [apply tr_try, tr_generate_input|]. intros cls ks' [-> ->].
    apply tr_skip; [eapply (tr_ev_inputs input_kinds); [apply ev_generate_input_annotation|cbn; intuition discriminate]|]. intros a0.
    apply tr_skip; [eapply (tr_ev_inputs input_kinds); [unfold input_kinds; ev_tac|cbn; intuition discriminate]|]. intros a.
    apply tr_skip; [eapply (tr_ev_inputs [KImp]); [apply ev_generate_input_field_value|cbn; intuition discriminate]|]. intros value.
    apply tr_skip; [eapply (tr_ev_inputs input_kinds); [unfold input_kinds; ev_tac|cbn; intuition discriminate]|]. intros cfg.
    apply tr_ret. rewrite map_app. apply from_keys_app; [exact HR|]. split; [reflexivity|]. constructor; [|constructor].
    apply (ins_wrapper key t (k, v)); assumption.
  - intros ws ks HR. cbn beta in HR. cbn [app] in HR. eapply tr_bind; [apply tr_generate_input|]. intros alias ks' [-> ->].
    unfold generate_union_alias.
    assert (G : forall e, infrom (map snd ws ++ [SAssign (EName (style_with sty_input st key)) e]) (ks ++ [key] ++ [])).
    { intros e. apply from_keys_app; [exact HR|]. split; [reflexivity|]. constructor; [|constructor]. eapply ins_key; exact Hin. }
    destruct (map fst ws) as [|m [|m' l]].
    + eapply tr_bind; [apply tr_skip; [quiet|intros _; apply (tr_ret r_inputs (fun a ks => ks = [] /\ exists e, a = SAssign (EName (style_with sty_input st key)) e)); eauto]|].
      intros a ks' [-> [e ->]]. apply tr_ret. apply G.
    + eapply tr_bind; [apply (tr_ret r_inputs (fun a ks => ks = [] /\ exists e, a = SAssign (EName (style_with sty_input st key)) e)); eauto|].
      intros a ks' [-> [e ->]]. apply tr_ret. apply G.
    + eapply tr_bind; [apply tr_skip; [quiet|intros _; apply (tr_ret r_inputs (fun a ks => ks = [] /\ exists e, a = SAssign (EName (style_with sty_input st key)) e)); eauto]|].
      intros a ks' [-> [e ->]]. apply tr_ret. apply G.
Qed.
Lemma direct_named : forall key ms, In key (input_names s) -> tr r_inputs infrom (generate_oneof_direct_union st key ms).
Proof.
  intros key ms Hk. unfold generate_oneof_direct_union. eapply tr_bind; [apply tr_generate_input|]. intros alias ks [-> ->]. cbn zeta.
  apply tr_skip; [quiet|]. intros classes. apply tr_skip; [quiet|]. intros _. apply tr_skip; [quiet|]. intros _. apply tr_skip; [quiet|]. intros _.
  apply tr_ret. split; [reflexivity|]. repeat constructor. exact Hk.
Qed.
Lemma prepass_named : forall rf acc ks kt, In kt (input_types s) -> infrom (snd acc) ks ->
  tr r_inputs (fun acc' ks' => infrom (snd acc') (ks ++ ks')) (prepass_type c st pc s rf acc kt).
Proof.
  intros rf [p tree] ks [key t] Hin HR. unfold prepass_type. cbn [snd] in HR. apply tr_skip; [quiet|]. intros [ms discr].
  destruct ms as [|m ms]; [apply tr_ret; rewrite app_nil_r; exact HR|].
  apply tr_skip; [quiet|]. intros ds. eapply tr_bind; [apply tr_generate_input|]. intros name ks' [-> ->].
  eapply tr_bind.
  - unfold generate_input_type. apply tr_skip; [quiet|]. intros add. apply tr_input_class.
  - intros x ks' [-> HX]. apply tr_ret. cbn [snd app]. apply from_keys_app; [exact HR|]. split; [exact HX|]. repeat constructor. eapply ins_key; exact Hin.
Qed.
Lemma main_named : forall rf p acc ks kt, In kt (input_types s) -> infrom (fst acc) ks /\ Forall (fun km => In (fst km) (input_names s)) (snd acc) ->
  tr r_inputs (fun acc' ks' => infrom (fst acc') (ks ++ ks') /\ Forall (fun km => In (fst km) (input_names s)) (snd acc')) (main_type c st pc s rf p acc kt).
Proof.
  intros rf p [tree deferred] ks [key t] Hin [HR HD]. cbn [fst snd] in HR, HD. unfold main_type.
  assert (SAME : tr r_inputs (fun acc' ks' => infrom (fst acc') (ks ++ ks') /\ Forall (fun km => In (fst km) (input_names s)) (snd acc')) (ret (tree, deferred))).
  { apply tr_ret. rewrite app_nil_r. auto. }
  destruct (mem key (pp_types p)); [exact SAME|]. destruct (match rf with Some r => _ | None => _ end); [exact SAME|].
  destruct (_ && _); [exact SAME|]. destruct (is_oneof_input_type _) eqn:O.
  - apply tr_skip; [quiet|]. intros _. cbn zeta.
    assert (W : tr r_inputs (fun acc' ks' => infrom (fst acc') (ks ++ ks') /\ Forall (fun km => In (fst km) (input_names s)) (snd acc'))
      (bind (generate_oneof_wrapper_input c st pc s key (id_fields t)) (fun l => ret (tree ++ l, deferred)))).
    { eapply tr_bind; [apply wrapper_named; assumption|]. intros l ks' Hl. apply tr_ret. rewrite app_nil_r. split; [|exact HD].
      apply from_keys_app; assumption. }
    destruct (if String.eqb _ _ then _ else _) as [ms|]; [|exact W]. destruct (existsb _ ms); [exact W|].
    apply tr_ret. rewrite app_nil_r. split; [exact HR|]. apply Forall_app. split; [exact HD|]. repeat constructor. eapply ins_key; exact Hin.
  - destruct (dget key (pp_unions p)) as [members|].
    + apply tr_skip; [quiet|]. intros _. apply tr_skip; [quiet|]. intros _. apply tr_skip; [quiet|]. intros _.
      eapply tr_bind; [apply tr_generate_input|]. intros alias ks' [-> ->]. apply tr_ret. split; [|exact HD].
      apply from_keys_app; [exact HR|]. split; [reflexivity|]. repeat constructor. eapply ins_key; exact Hin.
    + apply tr_skip; [quiet|]. intros add. eapply tr_bind; [apply tr_generate_input|]. intros name ks' [-> ->].
      eapply tr_bind; [apply tr_input_class|]. intros x ks' [-> HX]. apply tr_ret. split; [|exact HD].
      apply from_keys_app; [exact HR|]. split; [exact HX|]. repeat constructor. eapply ins_key; exact Hin.
Qed.
Lemma inputs_named : forall documents r l r', inputs_plugin c st pc s documents r = (Ok l, r') ->
  exists ks, dkeys (r_inputs r') = dkeys (r_inputs r) ++ ks /\ NoDup ks /\ infrom l ks.
Proof.
  intros documents r l r' H.
  assert (T : tr r_inputs infrom (inputs_plugin c st pc s documents)).
  { unfold inputs_plugin, generate_inputs. apply tr_skip; [quiet|]. intros _. apply tr_skip; [eapply (tr_ev_inputs []); [apply ev_plugin_refs|intros []]|]. intros rf.
    apply tr_skip; [quiet|]. intros _. eapply tr_bind.
    { apply (tr_mfold r_inputs (fun acc ks => infrom (snd acc) ks) (prepass_type c st pc s rf)) with (ks := []); [|split; constructor].
      intros a ks x Hx HR. apply prepass_named; assumption. }
    intros x ks Hx. cbn [app] in Hx. eapply tr_bind.
    { apply (tr_mfold r_inputs (fun acc ks => infrom (fst acc) ks /\ Forall (fun km => In (fst km) (input_names s)) (snd acc)) (main_type c st pc s rf (fst x))) with (ks := ks).
      - intros a ks' y Hy HR. apply main_named; assumption.
      - split; [exact Hx|constructor]. }
    intros y ks' [Hy HD]. eapply tr_bind.
    { apply (tr_mconcat r_inputs infrom); [|split; constructor]. intros ys k2 km Hkm HR. rewrite Forall_forall in HD.
      intros r1 a r2 E. destruct (direct_named _ (snd km) (HD _ Hkm) _ _ _ E) as (k3 & E3 & N3 & D3 & F3). exists k3. repeat split; auto; apply (from_keys_app _ _ _ _ _ _ HR F3). }
    intros l2 k2 H2. apply tr_ret. rewrite app_nil_r, app_assoc. apply from_keys_app; assumption. }
  destruct (T _ _ _ H) as (ks & E & N & _ & HF). exists ks. auto.
Qed.
End Mod.

(** ** Objects *)
Lemma flat_unique : forall {A B} (g : A -> list B) l a b x, NoDup (flat_map g l) -> In a l -> In b l -> In x (g a) -> In x (g b) -> a = b.
Proof.
  intros A B g. induction l as [|y l IH]; intros a b x N Ha Hb Hxa Hxb; [contradiction|]. cbn in N.
  assert (D : forall z, In z (g y) -> ~ In z (flat_map g l)).
  { clear -N. induction (g y) as [|w q IH]; intros z Hz; [contradiction|]. cbn in N. inversion N as [|? ? N1 N2]; subst.
    destruct Hz as [->|Hz]; [|now apply IH]. intros H. apply N1. apply in_app_iff. auto. }
  assert (N' : NoDup (flat_map g l)) by (clear -N; induction (g y); [exact N|]; inversion N; auto).
  destruct Ha as [->|Ha], Hb as [->|Hb].
  - reflexivity.
  - exfalso. apply (D x Hxa). apply in_flat_map. eauto.
  - exfalso. apply (D x Hxb). apply in_flat_map. eauto.
  - eapply IH; eassumption.
Qed.
Lemma dkeys_dextend : forall {A} k (v : list A) d k', In k' (dkeys (dextend k v d)) -> k' = k \/ In k' (dkeys d).
Proof.
  intros A k v d k'. unfold dextend.
  assert (G : forall w, In k' (dkeys (dset k w d)) -> k' = k \/ In k' (dkeys d)).
  { intros w. induction d as [|[a b] d IH]; cbn; [intuition|]. destruct (String.eqb_spec k a); cbn; intuition. }
  destruct (dget k d); apply G.
Qed.
Lemma NoDup_dset : forall {A} k (v : A) d, NoDup (dkeys d) -> NoDup (dkeys (dset k v d)).
Proof.
  intros A k v. induction d as [|[a b] d IH]; intros N; cbn; [repeat constructor; intros []|]. inversion N as [|? ? N1 N2]; subst.
  destruct (String.eqb_spec k a) as [->|Hk]; [exact N|]. cbn. constructor; [|now apply IH].
  intros H. apply N1. clear -H Hk. induction d as [|[x y] d IH]; cbn in *; [destruct H as [H|[]]; congruence|].
  destruct (String.eqb_spec k x); cbn in *; intuition.
Qed.
Lemma NoDup_dextend : forall {A} k (v : list A) d, NoDup (dkeys d) -> NoDup (dkeys (dextend k v d)).
Proof. intros A k v d N. unfold dextend. destruct (dget k d); now apply NoDup_dset. Qed.
Lemma dkeys_dset : forall {A} k (v : A) d k', In k' (dkeys (dset k v d)) -> k' = k \/ In k' (dkeys d).
Proof. intros A k w d k'. induction d as [|[a b] d IH]; cbn; [intuition|]. destruct (String.eqb_spec k a); cbn; intuition. Qed.

Section Objs.
Variable c : gconfig.
Variable st : list styler.
Variable s : schema.
Variable pc : obcfg.
Definition cls_of (kt : string * typedef) : string := schema_class_name st (fst kt) (snd kt).
Record ostate_ok (pre : list (string * typedef)) (x : obstate) : Prop := {
  oo_tree : exists ts, incl ts pre /\ NoDup ts /\ named (os_tree x) = map cls_of ts;
  oo_impl : NoDup (dkeys (os_implementing x));
  oo_impl_in : forall i, In i (dkeys (os_implementing x)) -> exists k t, In (k, t) pre /\ In i (type_interfaces t);
  oo_base : NoDup (dkeys (os_base x));
  oo_base_in : forall i, In i (dkeys (os_base x)) -> exists t, In (i, t) pre /\ is_interface_def t = true }.
Lemma object_step_named : forall pre x kt r x' r', ~ In kt pre -> ostate_ok pre x -> object_step c st s pc x kt r = (Ok x', r') -> ostate_ok (pre ++ [kt]) x'.
Proof.
  intros pre x [key t] r x' r' HN [H1 H2 H3 H4 H5] H. unfold object_step in H. apply bind_ok in H as (add & r1 & _ & H).
  assert (W : ostate_ok (pre ++ [(key, t)]) x).
  { constructor; auto.
    - destruct H1 as (ts & I & N & E). exists ts. split; [now apply incl_appl|auto].
    - intros i Hi. destruct (H3 i Hi) as (k & u & Hk & Hu). exists k, u. rewrite in_app_iff. auto.
    - intros i Hi. destruct (H5 i Hi) as (u & Hk & Hu). exists u. rewrite in_app_iff. auto. }
  destruct (_ || _); [apply ret_ok in H as [-> ->]; exact W|].
  apply bind_ok in H as (cn & r2 & Hcn & H). apply bind_ok in H as (ib & r3 & _ & H). apply bind_ok in H as (fs & r4 & _ & H).
  apply bind_ok in H as (cfg & r5 & _ & H). cbn zeta in H. apply ret_ok in H as [-> ->].
  assert (En : cn = schema_class_name st key t).
  { destruct t; cbn [is_interface_def] in Hcn; first [apply generate_interface_name in Hcn|apply generate_objecttype_name in Hcn]; exact Hcn. }
  constructor; cbn [os_tree os_implementing os_base].
  - destruct H1 as (ts & I & N & E). exists (ts ++ [(key, t)]). split; [apply incl_app; [now apply incl_appl|apply incl_appr, incl_refl]|].
    split; [|rewrite named_app, map_app, E; cbn; unfold cls_of; cbn; now rewrite En].
    clear -N I HN. induction N as [|y l Hy N IH]; [repeat constructor; intros []|]. cbn. constructor.
    + rewrite in_app_iff. intros [H|[H|[]]]; [auto|]. apply HN. rewrite H. apply I. now left.
    + apply IH. intros z Hz. apply I. now right.
  - generalize (os_implementing x) H2. induction (type_interfaces t) as [|i l IH]; intros d Hd; [exact Hd|]. cbn [fold_left]. apply IH. now apply NoDup_dextend.
  - intros i Hi. assert (G : forall l d, In i (dkeys (fold_left (fun m i => dextend i [cn] m) l d)) -> In i l \/ In i (dkeys d)).
    { clear. induction l as [|j l IH]; intros d H; [auto|]. cbn [fold_left] in H. apply IH in H as [H|H]; [left; now right|].
      apply dkeys_dextend in H as [->|H]; [left; now left|auto]. }
    apply G in Hi as [Hi|Hi]; [exists key, t; rewrite in_app_iff; split; [right; now left|exact Hi]|].
    destruct (H3 i Hi) as (k & u & Hk & Hu). exists k, u. rewrite in_app_iff. auto.
  - destruct (is_interface_def t); [now apply NoDup_dset|exact H4].
  - intros i Hi. destruct (is_interface_def t) eqn:IT; [apply dkeys_dset in Hi as [->|Hi]|].
    + exists t. rewrite in_app_iff. split; [right; now left|exact IT].
    + destruct (H5 i Hi) as (u & Hk & Hu). exists u. rewrite in_app_iff. auto.
    + destruct (H5 i Hi) as (u & Hk & Hu). exists u. rewrite in_app_iff. auto.
Qed.
Definition ob_names (kt : string * typedef) : list string :=
  match snd kt with TObject _ _ _ _ => [fst kt] | TInterface _ _ _ => [fst kt; fst kt +s+ "Base"] | _ => [] end.
Lemma NoDup_of_keys : forall {A} (l : list (string * A)), NoDup (map fst l) -> NoDup l.
Proof. intros A l. apply NoDup_map_inv. Qed.
Lemma objects_named : forall r body r', Forall shipped st -> interfaces_exist s -> NoDup (object_names_of s) ->
  (forall n, In n (object_names_of s) -> ~ In n kwlist) ->
  generate_types c st s pc r = (Ok body, r') -> NoDup (named body) /\ incl (named body) (object_names_of s).
Proof.
  intros r body r' HS HI ND HP H. unfold generate_types in H. apply bind_ok in H as (u & r1 & _ & H).
  apply bind_ok in H as (x & r2 & H2 & H). apply bind_ok in H as (us & r3 & H3 & H). cbn zeta in H.
  apply bind_ok in H as (u2 & r4 & _ & H). apply ret_ok in H as [-> ->].
  assert (HSO : forall kt, In kt (sorted_objects s) -> In kt (s_types s) /\ ob_names kt <> []).
  { intros [k t] Hk. unfold sorted_objects in Hk. apply in_app_iff in Hk as [Hk|Hk]; apply filter_In in Hk as [Hk Ht]; split; try exact Hk; destruct t; discriminate. }
  assert (NS : NoDup (sorted_objects s)).
  { assert (G : forall f (l : list (string * typedef)), NoDup (flat_map ob_names l) -> (forall y, f y = true -> ob_names y <> []) -> NoDup (filter f l)).
    { clear. intros f l N HF. induction l as [|y l IH]; [constructor|]. cbn in N |- *.
      assert (N' : NoDup (flat_map ob_names l)) by (clear -N; induction (ob_names y); [exact N|]; inversion N; auto).
      destruct (f y) eqn:E; [|auto]. constructor; [|auto]. intros Hin. apply filter_In in Hin as [Hin _]. specialize (HF y E).
      destruct (ob_names y) as [|z q] eqn:Ey; [congruence|]. cbn in N. inversion N as [|? ? N1 N2]; subst. apply N1. apply in_app_iff. right.
      apply in_flat_map. exists y. split; [exact Hin|]. rewrite Ey. now left. }
    unfold sorted_objects. assert (A := G (fun kv => is_interface_def (snd kv)) _ ND ltac:(intros [k t] Ht; destruct t; discriminate)).
    assert (B := G (fun kv => is_object_def (snd kv)) _ ND ltac:(intros [k t] Ht; destruct t; discriminate)).
    apply NoDup_app_iff; [exact A|exact B|]. intros y Hy Hy'. apply filter_In in Hy as [_ Hy], Hy' as [_ Hy']. destruct (snd y); discriminate. }
  assert (F : ostate_ok (sorted_objects s) x).
  { eapply (mfold_ok _ (fun pre y _ => ostate_ok pre y)) in H2; [exact H2| |].
    - constructor; try (constructor); try (intros i []). exists []. split; [intros i []|]. split; [constructor|reflexivity].
    - intros pre kt post' y ra y' rb El HO Hst. eapply object_step_named; [|exact HO|exact Hst]. rewrite El in NS. clear -NS.
      intros Hin. apply NoDup_remove_2 in NS. apply NS. apply in_app_iff. now left. }
  destruct F as [(ts & I & NT & ET) F2 F3 F4 F5].
  assert (EC : forall kt, In kt (sorted_objects s) -> In (cls_of kt) (ob_names kt) /\ (is_interface_def (snd kt) = true -> cls_of kt = fst kt +s+ "Base")).
  { intros [k t] Hk. destruct (HSO _ Hk) as [Hin HO].
    assert (Q : ~ In k kwlist). { apply HP. apply in_flat_map. exists (k, t). split; [exact Hin|]. cbn. destruct t; try (cbn in HO; congruence); now left. }
    unfold cls_of, ob_names. cbn [fst snd]. destruct t; cbn in HO; try congruence; cbn [schema_class_name]; rewrite style_object_plain by assumption; cbn; auto.
    split; [auto|discriminate]. }
  assert (AL : forall i, In i (dkeys (os_implementing x)) \/ In i (dkeys (os_base x)) -> exists t, In (i, t) (s_types s) /\ is_interface_def t = true).
  { intros i [Hi|Hi].
    - destruct (F3 i Hi) as (k & t & Hk & Ht). destruct (HI k t i) as (d & is & fs & Hin); [apply HSO, Hk|destruct t; exact Ht|].
      exists (TInterface d is fs). auto.
    - destruct (F5 i Hi) as (t & Hk & Ht). exists t. split; [apply HSO, Hk|exact Ht]. }
  assert (EU : named us = dkeys (os_implementing x)).
  { clear -H3. revert r2 us r3 H3. generalize (os_implementing x). induction d as [|[k v] d IH]; intros r2 us r3 H; cbn [mmap] in H.
    - apply ret_ok in H as [-> _]. reflexivity.
    - apply bind_ok in H as (y & ra & Hy & H). apply bind_ok in H as (ys & rb & Hys & H). apply ret_ok in H as [-> ->].
      apply bind_ok in Hy as (u & rc & _ & Hy). apply ret_ok in Hy as [-> _]. cbn. f_equal. eapply IH; exact Hys. }
  set (lonely := filter (fun kv => negb (dmem (fst kv) (os_implementing x))) (os_base x)).
  assert (EL : named (map (fun kv => SAssign (EName (fst kv)) (EName (snd kv))) lonely) = map fst lonely).
  { induction lonely as [|kv l IH]; [reflexivity|]. cbn. now f_equal. }
  assert (LI : forall i, In i (map fst lonely) -> In i (dkeys (os_base x)) /\ ~ In i (dkeys (os_implementing x))).
  { intros i Hi. apply in_map_iff in Hi as (kv & <- & Hi). apply filter_In in Hi as [Hi Hd]. split; [apply in_map, Hi|].
    apply negb_true_iff in Hd. unfold dmem in Hd. destruct (dget (fst kv) (os_implementing x)) eqn:G; [discriminate|]. now apply dget_None_keys. }
  rewrite !named_app, ET, EU, EL.
  assert (AB : forall i, In i (map cls_of ts) -> In i (dkeys (os_implementing x)) \/ In i (dkeys (os_base x)) -> False).
  { intros i Hi HA. apply in_map_iff in Hi as (kt & <- & Hk). apply I in Hk. destruct (EC _ Hk) as [E1 E2]. destruct (AL _ HA) as (t & Ht & HTI).
    assert (kt = (cls_of kt, t)).
    { eapply (flat_unique ob_names); [exact ND|apply HSO, Hk|exact Ht|exact E1|]. destruct t; try discriminate. now left. }
    rewrite H in E2 at 1. cbn [snd] in E2. specialize (E2 HTI). rewrite H in E2 at 2. cbn [fst] in E2. symmetry in E2. apply string_app_self in E2. discriminate. }
  split.
  - apply NoDup_app_iff; [|apply NoDup_app_iff|].
    + apply NoDup_map_on; [|exact NT]. intros a b Ha Hb E. apply I in Ha, Hb.
      eapply (flat_unique ob_names); [exact ND|apply HSO, Ha|apply HSO, Hb|apply EC, Ha|]. rewrite E. apply EC, Hb.
    + exact F2.
    + clear -F4. unfold lonely. induction (os_base x) as [|kv d IH]; [constructor|]. inversion F4 as [|? ? N1 N2]; subst. cbn.
      destruct (negb _); [|auto]. cbn. constructor; [|auto]. intros H. apply N1. apply in_map_iff in H as (kv' & E & H). apply filter_In in H as [H _].
      apply in_map_iff. exists kv'. auto.
    + intros i Hi Hl. now apply LI in Hl as [_ Hl].
    + intros i Hi Hl. apply (AB i Hi). apply in_app_iff in Hl as [Hl|Hl]; [auto|]. right. now apply LI.
  - intros i Hi. rewrite !in_app_iff in Hi. destruct Hi as [Hi|[Hi|Hi]].
    + apply in_map_iff in Hi as (kt & <- & Hk). apply I in Hk. apply in_flat_map. exists kt. split; [apply HSO, Hk|apply EC, Hk].
    + destruct (AL i (or_introl Hi)) as (t & Ht & HT). apply in_flat_map. exists (i, t). split; [exact Ht|]. destruct t; try discriminate. now left.
    + apply LI in Hi as [Hi _]. destruct (AL i (or_intror Hi)) as (t & Ht & HT). apply in_flat_map. exists (i, t). split; [exact Ht|]. destruct t; try discriminate. now left.
Qed.
End Objs.

(** ** The property *)
Lemma keys_distinct : forall sel st P l ks, class_method sel -> Forall shipped st -> from_keys (style_with sel st) P l ks -> NoDup ks ->
  (forall k, P k -> plain_class k) -> NoDup (named l).
Proof.
  intros sel st P l ks HC HS [E F] N HP. rewrite E. apply NoDup_map_on; [|exact N]. rewrite Forall_forall in F. intros a b Ha Hb.
  apply style_inj; auto.
Qed.
Lemma enums_C10 : forall c st pc s documents r l r', Forall shipped st -> (forall n, In n (enum_names s) -> plain_class n) ->
  enums_plugin c st pc s documents r = (Ok l, r') -> NoDup (named l).
Proof.
  intros c st pc s documents r l r' HS HP H. apply enums_named in H as (ks & _ & N & F). eapply keys_distinct; [apply cm_enum|exact HS|exact F|exact N|exact HP].
Qed.
Lemma inputs_C10 : forall c st pc s documents r l r', Forall shipped st -> (forall n, In n (input_names s) -> plain_class n) ->
  inputs_plugin c st pc s documents r = (Ok l, r') -> NoDup (named l).
Proof.
  intros c st pc s documents r l r' HS HP H. apply inputs_named in H as (ks & _ & N & F). eapply keys_distinct; [apply cm_input|exact HS|exact F|exact N|exact HP].
Qed.
Lemma adds_shipped : forall st, Forall adds_nothing st -> Forall shipped st.
Proof. intros st H. eapply Forall_impl; [|exact H]. intros x []; constructor. Qed.
Lemma schema_C10 : forall c st s pce pci pco de di r1 l1 r1' r2 l2 r2' r3 l3 r3', Forall adds_nothing st -> interfaces_exist s ->
  NoDup (enum_names s ++ input_names s ++ object_names_of s) ->
  (forall n, In n (enum_names s ++ input_names s ++ object_names_of s) -> plain_class n) ->
  enums_plugin c st pce s de r1 = (Ok l1, r1') -> inputs_plugin c st pci s di r2 = (Ok l2, r2') -> generate_types c st s pco r3 = (Ok l3, r3') ->
  NoDup (named (l1 ++ l2 ++ l3)).
Proof.
  intros c st s pce pci pco de di r1 l1 r1' r2 l2 r2' r3 l3 r3' HS HI ND HP H1 H2 H3. assert (HS' := adds_shipped _ HS).
  apply enums_named in H1 as (k1 & _ & N1 & E1 & F1). apply inputs_named in H2 as (k2 & _ & N2 & E2 & F2).
  assert (ND' := ND). apply nodup_tail in ND'. assert (ND3 := ND'). apply nodup_tail in ND3.
  apply objects_named in H3 as [N3 I3]; [|exact HS'|exact HI|exact ND3|intros n Hn; apply HP; rewrite !in_app_iff; auto].
  rewrite Forall_forall in F1, F2.
  assert (G1 : named l1 = k1). { rewrite E1. rewrite <- (map_id k1) at 2. apply map_ext_in. intros a Ha. apply style_plain; [constructor|exact HS|]. apply HP. rewrite in_app_iff. auto. }
  assert (G2 : named l2 = k2). { rewrite E2. rewrite <- (map_id k2) at 2. apply map_ext_in. intros a Ha. apply style_plain; [constructor|exact HS|]. apply HP. rewrite !in_app_iff. auto. }
  rewrite !named_app, G1, G2. apply NoDup_app_iff; [exact N1|apply NoDup_app_iff; [exact N2|exact N3|]|].
  - intros x Hx Hx'. apply (nodup_split _ _ [] ltac:(rewrite app_nil_r; exact ND') x); [now apply F2|now apply I3].
  - intros x Hx Hx'. apply (nodup_split _ _ [] ltac:(rewrite app_nil_r; exact ND) x); [now apply F1|]. apply in_app_iff. apply in_app_iff in Hx' as [Hx'|Hx']; auto.
Qed.

(** ** Operations and fragments *)
Definition of_kind (k : optype) (o : operation) : bool :=
  match op_kind o, k with OpQuery, OpQuery | OpMutation, OpMutation | OpSubscription, OpSubscription => true | _, _ => false end.
Definition table (k : optype) : reg -> dict string :=
  match k with OpQuery => r_queries | OpMutation => r_muts | OpSubscription => r_subs end.
Lemma frame_table : forall k st K r r', ~ In KQry K -> ~ In KMut K -> ~ In KSub K -> evolve st K r r' -> table k r' = table k r.
Proof.
  intros k st K r r' H1 H2 H3 H. induction H as [r|r r1 r2 k' Hk Hs _ IH]; [reflexivity|]. rewrite IH.
  destruct Hs; try (destruct k; reflexivity); contradiction.
Qed.
Section Ops.
Variables (c : gconfig) (st : list styler) (s : schema) (pc : ocfg) (po : operation -> string) (add : string -> res string) (doc_of : operation -> option string).
Definition quiet_ops : list kind := KSin :: Ksel.
Local Hint Resolve ev_arguments_class ev_replace : evdb.
Lemma operation_step : forall o r l r', generate_operation c st s pc po add doc_of o r = (Ok l, r') -> exists name, op_name o = Some name
  /\ In (style_with (match op_kind o with OpQuery => sty_query | OpMutation => sty_mutation | OpSubscription => sty_subscription end) st name) (named l)
  /\ forall k, if of_kind k o then dget name (table k r) = None /\ dkeys (table k r') = dkeys (table k r) ++ [name] else table k r' = table k r.
Proof.
  intros o r l r' H. unfold generate_operation in H. apply bind_ok in H as (name & r1 & H1 & H). apply from_opt_ok in H1 as [EN ->].
  apply bind_ok in H as ([cls bases] & r2 & H2 & H). exists name. split; [exact EN|].
  assert (ES : forall k, table k r' = table k r2).
  { intros k. eapply (frame_table k st quiet_ops); [cbn; intuition discriminate..|]. eapply ev_ok; [|exact H].
    unfold quiet_ops, root_item, bases_or_default, Ksel. ev_go. }
  assert (B : forall b ra x rb k, bases_or_default c b ra = (Ok x, rb) -> table k rb = table k ra).
  { intros b ra x rb k Hb. eapply (frame_table k st quiet_ops); [cbn; intuition discriminate..|]. eapply ev_ok; [|exact Hb].
    unfold quiet_ops, bases_or_default, Ksel. ev_go. }
  assert (EC : cls = style_with (match op_kind o with OpQuery => sty_query | OpMutation => sty_mutation | OpSubscription => sty_subscription end) st name
    /\ forall k, if of_kind k o then dget name (table k r) = None /\ dkeys (table k r2) = dkeys (table k r) ++ [name] else table k r2 = table k r).
  { unfold operation_class, of_kind in *. destruct (op_kind o); apply bind_ok in H2 as (n & r3 & H2 & H3); apply bind_ok in H3 as (b & r4 & H3 & H4);
      apply ret_ok in H4 as [[= -> ->] ->]; apply generate_in_spec in H2 as (HN & -> & ->); (split; [reflexivity|]); intros k; rewrite (B _ _ _ _ k H3);
      destruct k; try reflexivity; (split; [exact HN|]); cbn [table]; cbn; rewrite dset_new by exact HN; unfold dkeys; now rewrite map_app. }
  destruct EC as [EC ET]. split.
  - apply bind_ok in H as (root & r3 & _ & H). cbn zeta in H. apply bind_ok in H as (acc & r4 & _ & H). apply bind_ok in H as (u & r5 & _ & H).
    apply bind_ok in H as (d & r6 & _ & H). apply bind_ok in H as (a & r7 & _ & H). apply bind_ok in H as (cfg & r8 & _ & H). apply ret_ok in H as [-> _].
    rewrite named_app, in_app_iff. right. left. exact EC.
  - intros k. rewrite ES. apply ET.
Qed.
Lemma operations_table : forall ops r ls r', mmap (generate_operation c st s pc po add doc_of) ops r = (Ok ls, r') ->
  forall k, exists names, map Some names = operation_names k ops /\ NoDup names /\ dkeys (table k r') = dkeys (table k r) ++ names
    /\ (forall n, In n names -> ~ In n (dkeys (table k r)))
    /\ (forall n, In n names -> In (style_with (match k with OpQuery => sty_query | OpMutation => sty_mutation | OpSubscription => sty_subscription end) st n) (named (concat ls))).
Proof.
  induction ops as [|o ops IH]; intros r ls r' H k; cbn [mmap] in H.
  - apply ret_ok in H as [-> ->]. exists []. rewrite app_nil_r. repeat split; try constructor; intros n [].
  - apply bind_ok in H as (l & r1 & H1 & H). apply bind_ok in H as (ls' & r2 & H2 & H). apply ret_ok in H as [-> ->].
    apply operation_step in H1 as (name & EN & HC & HT). specialize (HT k). destruct (IH _ _ _ H2 k) as (names & E1 & N & E2 & D & C).
    unfold operation_names. cbn [filter]. fold (of_kind k o). destruct (of_kind k o) eqn:K.
    + destruct HT as [HN HT]. exists (name :: names). cbn [map]. rewrite E2, HT, <- app_assoc. split; [rewrite EN; f_equal; exact E1|].
      split; [constructor; [|exact N]; intros Hi; apply (D _ Hi); rewrite HT, in_app_iff; right; now left|]. split; [reflexivity|].
      split; intros n [<-|Hn].
      * now apply dget_None_keys.
      * intros Hi. apply (D _ Hn). rewrite HT, in_app_iff. auto.
      * cbn [concat]. rewrite named_app, in_app_iff. left. unfold of_kind in K. destruct (op_kind o), k; try discriminate; exact HC.
      * cbn [concat]. rewrite named_app, in_app_iff. right. auto.
    + exists names. rewrite HT in *. split; [exact E1|]. repeat split; auto. intros n Hn. cbn [concat]. rewrite named_app, in_app_iff. right. auto.
Qed.
Lemma operations_C10 : forall d r l r', operations_plugin c st s pc po add doc_of d r = (Ok l, r') ->
  forall k, exists names, map Some names = operation_names k (operations_of d) /\ NoDup names
    /\ let cls := style_with (match k with OpQuery => sty_query | OpMutation => sty_mutation | OpSubscription => sty_subscription end) st in
       incl (map cls names) (named l) /\ (Forall shipped st -> Forall plain_class names -> NoDup (map cls names)).
Proof.
  intros d r l r' H k. unfold operations_plugin in H. apply mconcat_ok in H as (ls & H & ->).
  destruct (operations_table _ _ _ _ H k) as (names & E1 & N & _ & _ & C). exists names. split; [exact E1|]. split; [exact N|]. split.
  - intros x Hx. apply in_map_iff in Hx as (n & <- & Hn). auto.
  - intros HS HP. rewrite Forall_forall in HP. apply NoDup_map_on; [|exact N]. intros a b Ha Hb. apply style_inj; auto. destruct k; constructor.
Qed.
End Ops.
Lemma fragments_C10 : forall c st s pc pf add d r l r' fs, ordered_fragments d = Ok fs ->
  fragments_plugin c st s pc pf add d r = (Ok l, r') -> NoDup (map fr_name fs).
Proof.
  intros c st s pc pf add d r l r' fs EF H. unfold fragments_plugin in H. apply bind_ok in H as (fs' & r1 & H1 & H). apply lift_ok in H1 as [E1 ->].
  rewrite EF in E1. injection E1 as <-. apply mconcat_ok in H as (ls & H & _). clear EF.
  revert r ls r' H. assert (G : forall r ls r', mmap (generate_fragment c st s pc pf add) fs r = (Ok ls, r') ->
    NoDup (map fr_name fs) /\ forall n, In n (map fr_name fs) -> ~ In n (dkeys (r_fragdocs r))); [|intros r ls r' H; eapply G; exact H].
  induction fs as [|f fs IH]; intros r ls r' H; cbn [mmap] in H; [split; [constructor|intros n []]|].
  apply bind_ok in H as (x & r1 & H1 & H). apply bind_ok in H as (xs & r2 & H2 & H). apply fragment_docs in H1 as [HN E].
  destruct (IH _ _ _ H2) as [N D]. rewrite E, dset_new in D by exact HN. unfold dkeys in D. rewrite map_app in D. cbn [map] in D. split.
  - cbn [map]. constructor; [|exact N]. intros Hi. apply (D _ Hi), in_app_iff. right. now left.
  - intros n [<-|Hn]; [now apply dget_None_keys|]. intros Hi. apply (D _ Hn), in_app_iff. auto.
Qed.
