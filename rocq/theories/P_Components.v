(** Proofs about the options of components. *)
From Verif Require Import Base PyAst Gql Config Loaders Registry Settings Components Spec_Settings Spec_Components P_Base P_Settings P_Settings2.

Section Proofs.
Variable builtins : list string.
Variable importable : string -> bool.
Variable number_str : string -> string.
Notation validate := (validate builtins importable).
Notation validate_ckind := (validate_ckind builtins importable number_str).

(** ** The documented options are those of the classes *)
Definition key (x : string * ckind * option json) : string := fst (fst x).
Definition fits (x : string * string * list (string * otype * json)) : Prop :=
  let '(t, prefix, options) := x in
  exists fs, dget t components = Some (Settings_ prefix fs) /\ NoDup (map key fs)
  /\ Forall (fun x => In (fst (fst x), CLeaf (leaf_of (snd (fst x))), Some (snd x)) fs /\ validate (leaf_of (snd (fst x))) (snd x) = Some (snd x)) options
  /\ forallb (fun k => mem k ("type" :: map (fun x => fst (fst x)) options ++ further_options t)) (map key fs) = true
  /\ forallb (fun k => mem k (map key fs)) ("type" :: map (fun x => fst (fst x)) options) = true
  /\ In "type" (map key fs)
  /\ Forall (fun f => exists d v, snd f = Some d /\ validate_ckind (snd (fst f)) d = Some v) fs
  /\ (forall f, In f fs -> key f = "type" -> snd (fst f) = CLeaf LStr).
Ltac in_fields := cbn [In fst snd]; repeat (first [left; reflexivity | right]).
Lemma all_fit : Forall fits component_options.
Proof.
  repeat (apply Forall_cons; [eexists; split; [reflexivity|]; split; [apply NoDup_b; reflexivity|];
    split; [repeat (apply Forall_cons; [split; [in_fields|reflexivity]|]); apply Forall_nil|];
    split; [reflexivity|]; split; [reflexivity|]; split; [now left|];
    split; [repeat (apply Forall_cons; [eexists; eexists; split; reflexivity|]); apply Forall_nil|];
    intros f If; repeat (destruct If as [<-|If]; [first [reflexivity|discriminate]|]); destruct If|]).
  apply Forall_nil.
Qed.
Lemma keys_of : forall prefix fs, map sf_key (map (cfield prefix) fs) = map key fs.
Proof. intros prefix fs. rewrite map_map. apply map_ext. now intros [[k p] v]. Qed.

Variable decode : string -> option json.
Variable environ : list (string * string).
Notation env := (env_vars environ).
Notation load_component := (load_component builtins importable number_str decode env).
Lemma loaded_settings : forall entry t c prefix fs, load_component entry = Some (t, c) -> dget t components = Some (Settings_ prefix fs) ->
  settings decode env ckind ckind_text validate_ckind (map (cfield prefix) fs) false entry = Some c.
Proof.
  intros entry t c prefix fs H D. unfold Components.load_component in H. destruct (dget "type" entry) as [[| | |t'| |]|]; try discriminate. destruct (dget t' components) as [cl|] eqn:E; [|discriminate].
  destruct (load_class _ _ _ _ _ cl entry) as [c'|] eqn:L; [|discriminate]. injection H as -> ->. rewrite D in E. injection E as <-. exact L.
Qed.
Theorem component_type : forall entry t c, load_component entry = Some (t, c) -> dget "type" entry = Some (JString t).
Proof.
  intros entry t c H. unfold Components.load_component in H. destruct (dget "type" entry) as [[| | |t'| |]|]; try discriminate. destruct (dget t' components) as [cl|]; [|discriminate].
  destruct (load_class _ _ _ _ _ cl entry); [|discriminate]. now injection H as -> _.
Qed.
Theorem component_loaded : forall t prefix options entry c, In (t, prefix, options) component_options -> uniq (JObject entry) -> load_component entry = Some (t, c) ->
  incl (dkeys entry) ("type" :: map (fun x => fst (fst x)) options ++ further_options t)
  /\ Forall (has_option decode environ builtins importable entry prefix c) options.
Proof.
  intros t prefix options entry c I U H. pose proof all_fit as F. rewrite Forall_forall in F. destruct (F _ I) as (fs & D & N & O & K & _). pose proof (loaded_settings _ _ _ _ _ H D) as S. split.
  - intros k Hk. apply settings_known in S. specialize (S k Hk). rewrite keys_of in S. rewrite forallb_forall in K. apply mem_In. now apply K.
  - rewrite Forall_forall in O. apply Forall_forall. intros [[o ty] d] Io. destruct (O _ Io) as [O1 O2]. cbn [fst snd] in O1, O2.
    rewrite <- (keys_of prefix) in N. destruct (settings_get decode _ _ _ _ _ _ _ _ _ S N (in_map (cfield prefix) _ _ O1)) as (v & Dv & L). cbn [cfield sf_key] in Dv, L.
    eapply (field_option builtins importable decode environ ckind ckind_text validate_ckind entry prefix (CLeaf (leaf_of ty)) o ty d c v); try eassumption; reflexivity.
Qed.

(** ** Lists of objects *)
Section Records.
Variables A B : Type.
Variable f : B -> A.
Variable valid : A -> json -> option json.
Variable value : B -> json -> json -> Prop.
Hypothesis HV : forall b raw v, valid (f b) raw = Some v -> value b raw v.
Definition rows_of (keys : list (string * B * option json)) : rows A := map (fun x : string * B * option json => let '(o, b, d) := x in (o, f b, d)) keys.
Lemma record_object : forall keys raw v, NoDup (map (fun x => fst (fst x)) keys) -> validate_record valid (rows_of keys) raw = Some v -> object_of B value keys raw v.
Proof.
  intros keys raw v N H. destruct raw as [| | | | |d]; try discriminate. cbn [validate_record] in H. destruct (all_some _ _) as [z|] eqn:E; [|discriminate]. injection H as <-.
  exists d, z. split; [reflexivity|]. split; [reflexivity|]. unfold rows_of in E. revert z E. induction keys as [|[[o b] def] keys IH]; intros z E.
  - cbn in E. injection E as <-. split; [reflexivity|constructor].
  - cbn [map all_some] in E. destruct (match dget o d with Some y => valid (f b) y | None => def end) as [y|] eqn:Y; [|discriminate]. cbn [option_map] in E.
    destruct (all_some _ _) as [z'|] eqn:E'; [|discriminate]. injection E as <-. inversion N as [|? ? No N']; subst. destruct (IH N' z' eq_refl) as [K F]. split; [cbn; now rewrite K|].
    apply Forall_cons.
    + exists y. cbn [dget]. rewrite String.eqb_refl. split; [reflexivity|]. destruct (dget o d); [now apply HV|exact Y].
    + rewrite Forall_forall in *. intros [[o' b'] def'] I. destruct (F _ I) as (y' & G & M). exists y'. split; [|exact M]. cbn [dget]. destruct (String.eqb_spec o' o) as [->|]; [|exact G].
      destruct No. apply in_map_iff. exists (o, b', def'). auto.
Qed.
Lemma records_objects : forall keys raw v, NoDup (map (fun x => fst (fst x)) keys) -> validate_records valid (rows_of keys) raw = Some v -> objects_of B value keys raw v.
Proof.
  intros keys raw v N H. destruct raw as [| | | |l|]; try discriminate. cbn [validate_records] in H. destruct (all_some _ _) as [k|] eqn:E; [|discriminate]. injection H as <-.
  exists l, k. split; [reflexivity|]. split; [reflexivity|]. apply all_some_Forall2 in E. eapply Forall2_imp; [|exact E]. intros x y Hxy. now apply record_object.
Qed.
End Records.
Definition dkind_of (p : part) : dkind := match p with POption t => DLeaf (leaf_of t) | PObjects keys => DRecords (rows_of leaf otype leaf_of keys) end.
Definition part_keys (p : part) : Prop := match p with POption _ => True | PObjects keys => NoDup (map (fun x => fst (fst x)) keys) end.
Lemma dkind_value : forall p raw v, part_keys p -> validate_dkind builtins importable (dkind_of p) raw = Some v -> part_value builtins importable p raw v.
Proof.
  intros [t|keys] raw v N H; cbn in *.
  - now apply validate_means.
  - eapply records_objects; [|exact N|exact H]. intros b r w. apply validate_means.
Qed.
Lemma objects_option : forall A (value : A -> json -> json -> Prop) keys r entry prefix o c v, uniq (JObject entry) ->
  (forall raw w, validate_records (validate_dkind builtins importable) r raw = Some w -> objects_of A value keys raw w) ->
  load_field decode env ckind ckind_text validate_ckind entry (SField o (prefix +s+ o) (CRecords r) (Some (JArray []))) = Some (o, v) -> dget o c = Some v ->
  has_objects decode environ value entry prefix c o keys.
Proof.
  intros A value keys r entry prefix o c v U HV H Hc. unfold has_objects. exists v. split; [exact Hc|]. unfold load_field, from_env in H. cbn [sf_env sf_key sf_kind sf_default ckind_text] in H. rewrite env_variable in H.
  destruct (variable environ (prefix +s+ o)) as [x|] eqn:E.
  - destruct (decode x) as [w|] eqn:W; [|discriminate]. cbn [option_map] in H. assert (IV : in_variable decode environ (OList OFree) (prefix +s+ o) w) by (exists x; cbn; auto).
    destruct (dget o entry) as [y|] eqn:D; cbn [over] in H; cbn [Components.validate_ckind] in H;
      (destruct (validate_records _ r _) as [z|] eqn:V; [|discriminate]); cbn [option_map] in H; injection H as <-; left; eexists; (split; [|apply HV; exact V]).
    + eapply g_both; [exact D|exact IV|]. apply deep_overlay. eapply uniq_get; eassumption.
    + now apply g_env.
  - cbn [over] in H. destruct (dget o entry) as [y|] eqn:D.
    + cbn [Components.validate_ckind] in H. destruct (validate_records _ r _) as [z|] eqn:V; [|discriminate]. cbn [option_map] in H. injection H as <-. left. exists y. split; [|apply HV; exact V].
      apply g_file; [exact D|]. intros a (x' & Hx & _). congruence.
    + cbn in H. injection H as <-. right. split; [now split|reflexivity].
Qed.
Definition is_funcs : {fs | funcs_class = Settings_ "TURMS_PLUGINS_FUNCS_" fs} := exist _ _ eq_refl.
Theorem funcs_loaded : forall entry c, uniq (JObject entry) -> load_component entry = Some ("turms.plugins.funcs.FuncsPlugin", c) ->
  has_objects decode environ (means builtins importable) entry "TURMS_PLUGINS_FUNCS_" c "global_args" (argument described)
  /\ has_objects decode environ (means builtins importable) entry "TURMS_PLUGINS_FUNCS_" c "global_kwargs" (keyword described)
  /\ has_objects decode environ (part_value builtins importable) entry "TURMS_PLUGINS_FUNCS_" c "definitions" (definition described).
Proof.
  intros entry c U H. pose proof (loaded_settings _ _ _ "TURMS_PLUGINS_FUNCS_" (proj1_sig is_funcs) H eq_refl) as S.
  assert (N : NoDup (map sf_key (map (cfield "TURMS_PLUGINS_FUNCS_") (proj1_sig is_funcs)))) by (apply NoDup_b; reflexivity).
  assert (G : forall o r, In (o, CRecords r, Some (JArray [])) (proj1_sig is_funcs) -> exists v, dget o c = Some v /\
    load_field decode env ckind ckind_text validate_ckind entry (SField o ("TURMS_PLUGINS_FUNCS_" +s+ o) (CRecords r) (Some (JArray []))) = Some (o, v)).
  { intros o r I. exact (settings_get decode _ _ _ _ _ _ _ _ _ S N (in_map (cfield "TURMS_PLUGINS_FUNCS_") _ _ I)). }
  assert (HL : forall (keys : list (string * otype * option json)) raw w, NoDup (map (fun x => fst (fst x)) keys) ->
    validate_records (validate_dkind builtins importable) (leaf_rows (rows_of leaf otype leaf_of keys)) raw = Some w -> objects_of otype (means builtins importable) keys raw w).
  { intros keys raw w Nk V. eapply (records_objects dkind otype (fun t => DLeaf (leaf_of t)) (validate_dkind builtins importable)); [intros b x y; cbn; apply validate_means|exact Nk|].
    unfold leaf_rows, rows_of in V. rewrite map_map in V. rewrite <- V. unfold rows_of. f_equal. apply map_ext. now intros [[? ?] ?]. }
  split; [|split].
  - destruct (G "global_args" (leaf_rows (rows_of leaf otype leaf_of (argument described)))) as (v & D & L); [in_fields|].
    eapply objects_option; [exact U| |exact L|exact D]. intros raw w. apply HL. apply NoDup_b. reflexivity.
  - destruct (G "global_kwargs" (leaf_rows (rows_of leaf otype leaf_of (keyword described)))) as (v & D & L); [in_fields|].
    eapply objects_option; [exact U| |exact L|exact D]. intros raw w. apply HL. apply NoDup_b. reflexivity.
  - destruct (G "definitions" (rows_of dkind part dkind_of (definition described))) as (v & D & L); [in_fields|].
    eapply objects_option; [exact U| |exact L|exact D]. intros raw w V.
    destruct raw as [| | | |l|]; try discriminate. cbn [validate_records] in V. destruct (all_some _ _) as [k|] eqn:E; [|discriminate]. injection V as <-.
    exists l, k. split; [reflexivity|]. split; [reflexivity|]. apply all_some_Forall2 in E. eapply Forall2_imp; [|exact E]. intros x y Hxy.
    assert (Q : object_of part (fun p a b => part_keys p -> part_value builtins importable p a b) (definition described) x y).
    { eapply (record_object dkind part dkind_of (validate_dkind builtins importable)); [intros b a z Hz Hk; now apply dkind_value|apply NoDup_b; reflexivity|exact Hxy]. }
    destruct Q as (d & z & -> & -> & Kz & F). exists d, z. split; [reflexivity|]. split; [reflexivity|]. split; [exact Kz|]. rewrite Forall_forall in F. apply Forall_forall. intros [[o p] def] Io.
    destruct (F _ Io) as (q & Gq & M). exists q. split; [exact Gq|]. destruct (dget o d) as [rr|]; [|exact M]. apply M. clear -Io. repeat (destruct Io as [[= <- <- <-]|Io]; [first [exact I|apply NoDup_b; reflexivity]|]). destruct Io.
Qed.

(** ** python_version and command *)
Lemma over_plain : forall e y, (forall d, y <> JObject d) -> over e (Some y) = Some y.
Proof. intros [l|] y H; [|reflexivity]. cbn. f_equal. destruct y, l; try reflexivity. destruct (H d eq_refl). Qed.
Theorem version_loaded : forall entry c, load_component entry = Some ("turms.parsers.polyfill.PolyfillParser", c) ->
  exists v, dget "python_version" c = Some (JString v) /\ In v python_versions
  /\ (forall w, dget "python_version" entry = Some (JString w) -> v = w) /\ (forall w, dget "python_version" entry = Some (JNumber w) -> v = number_str w)
  /\ (dget "python_version" entry = None -> v = match variable environ "TURMS_PARSERS_POLYFILL_python_version" with Some w => w | None => "3.9" end).
Proof.
  intros entry c H. pose proof (loaded_settings _ _ _ _ _ H eq_refl) as S. match type of S with settings _ _ _ _ _ ?fs _ _ = _ => assert (N : NoDup (map sf_key fs)) by (apply NoDup_b; reflexivity) end.
  destruct (settings_get decode _ _ _ _ _ _ _ _ (SField "python_version" "TURMS_PARSERS_POLYFILL_python_version" CVersion (Some (JString "3.9"))) S N) as (v & D & L); [right; right; now left|].
  cbn [sf_key] in D, L. rewrite D. unfold load_field, from_env in L. cbn [sf_env sf_key sf_kind sf_default ckind_text] in L. rewrite env_variable in L.
  assert (HV : forall x, option_map (pair "python_version") (validate_ckind CVersion x) = Some ("python_version", v) ->
    exists w, v = JString w /\ In w versions /\ ((x = JString w) \/ exists n, x = JNumber n /\ w = number_str n)).
  { intros x Hx. cbn [Components.validate_ckind] in Hx. destruct x as [| |n|w| |]; try discriminate; cbn [validate_version] in Hx; (destruct (mem _ versions) eqn:M; [|discriminate]); cbn in Hx; injection Hx as <-; apply mem_In in M; eauto 7. }
  destruct (dget "python_version" entry) as [y|] eqn:E.
  - assert (Hy : forall e, option_map (pair "python_version") (validate_ckind CVersion (match over e (Some y) with Some z => z | None => JNull end)) = Some ("python_version", v) -> option_map (pair "python_version") (validate_ckind CVersion y) = Some ("python_version", v)).
    { intros e He. destruct y as [| | | | |d]; try (rewrite over_plain in He by discriminate; exact He). destruct e as [[| | | | |l]|]; cbn in He; discriminate. }
    assert (V : option_map (pair "python_version") (validate_ckind CVersion y) = Some ("python_version", v)).
    { destruct (variable environ _) as [x|]; [apply (Hy (Some (JString x)))|apply (Hy None)]; exact L. }
    apply HV in V as (w & -> & Iw & [->|(n & -> & ->)]).
    + exists w. repeat split; try assumption; try congruence.
    + exists (number_str n). repeat split; try assumption; try congruence.
  - destruct (variable environ _) as [x|]; cbn [over] in L; apply HV in L as (w & -> & Iw & [Ew|(n & Ew & _)]); try discriminate Ew; injection Ew as ->; exists w; repeat split; try assumption; try discriminate.
Qed.
Lemma strings_list : forall l k, all_some (validate LStr) l = Some k -> exists m, l = map JString m /\ k = map JString m.
Proof.
  induction l as [|x l IH]; intros k H; cbn [all_some] in H; [injection H as <-; exists []; split; reflexivity|]. destruct x as [| | |w| |]; try discriminate. cbn [Settings.validate] in H. destruct (all_some _ l) as [k'|]; [|discriminate]. injection H as <-.
  destruct (IH k' eq_refl) as (m & -> & ->). exists (w :: m). split; reflexivity.
Qed.
Theorem command_loaded : forall entry c, load_component entry = Some ("turms.processors.command.CommandProcessor", c) ->
  exists v, dget "command" c = Some v /\ command_value v
  /\ match dget "command" entry with Some raw => v = raw | None => exists x, variable environ "COMMAND" = Some x /\ (v = JString x \/ decode x = Some v) end.
Proof.
  intros entry c H. pose proof (loaded_settings _ _ _ _ _ H eq_refl) as S. match type of S with settings _ _ _ _ _ ?fs _ _ = _ => assert (N : NoDup (map sf_key fs)) by (apply NoDup_b; reflexivity) end.
  destruct (settings_get decode _ _ _ _ _ _ _ _ (SField "command" "command" CCommand None) S N) as (v & D & L); [right; now left|].
  cbn [sf_key] in D, L. exists v. split; [exact D|]. unfold load_field, from_env in L. cbn [sf_env sf_key sf_kind sf_default ckind_text] in L. rewrite env_variable in L.
  assert (HV : forall x, option_map (pair "command") (validate_ckind CCommand x) = Some ("command", v) -> v = x /\ command_value x).
  { intros x Hx. destruct x as [| |n|w|l|]; cbn in Hx; try discriminate.
    - injection Hx as <-. split; [reflexivity|left; eauto].
    - destruct (all_some _ l) as [k|] eqn:E; [|discriminate]. injection Hx as <-. apply strings_list in E as (m & -> & ->). split; [reflexivity|right; eauto]. }
  assert (EC : variable environ "COMMAND" = variable environ "command") by (apply variable_case; reflexivity). rewrite EC.
  destruct (dget "command" entry) as [y|] eqn:E.
  - assert (V : option_map (pair "command") (validate_ckind CCommand y) = Some ("command", v)).
    { assert (Hy : forall e, over e (Some y) = None \/ exists z, over e (Some y) = Some z /\ (option_map (pair "command") (validate_ckind CCommand z) = Some ("command", v) -> option_map (pair "command") (validate_ckind CCommand y) = Some ("command", v))).
      { intros e. right. destruct y as [| | | | |d]; try (rewrite over_plain by discriminate; eauto; fail). destruct e as [[| | | | |l]|]; cbn; eexists; split; try reflexivity; intros; discriminate. }
      destruct (variable environ "command") as [x|].
      - destruct (Hy (Some (match decode x with Some w => w | None => JString x end))) as [O|(z & O & Hz)]; rewrite O in L; [discriminate|auto].
      - destruct (Hy None) as [O|(z & O & Hz)]; rewrite O in L; [discriminate|auto]. }
    apply HV in V as [-> V]. auto.
  - destruct (variable environ "command") as [x|]; [|discriminate]. cbn [over] in L. apply HV in L as [-> V]. split; [exact V|]. exists x. split; [reflexivity|]. destruct (decode x); auto.
Qed.

(** ** Entries that follow the documentation *)
Theorem entry_loads : forall t prefix options entry, In (t, prefix, options) component_options -> documented_entry builtins importable t options entry ->
  (forall o, In o ("type" :: map (fun x => fst (fst x)) options ++ further_options t) -> variable environ (prefix +s+ o) = None) ->
  exists c, load_component entry = Some (t, c).
Proof.
  intros t prefix options entry I (HT & HK & HM) HE. pose proof all_fit as F. rewrite Forall_forall in F. destruct (F _ I) as (fs & D & N & O & K & K2 & _ & DF & TY).
  assert (L : forall f, In f fs -> exists v, load_field decode env ckind ckind_text validate_ckind entry (cfield prefix f) = Some v).
  { intros f If. unfold load_field, from_env. rewrite env_variable. destruct f as [[o k] def]. cbn [cfield sf_env sf_key sf_kind sf_default].
    rewrite HE by (rewrite forallb_forall in K; apply mem_In, K; apply (in_map key) in If; exact If). cbn [over]. destruct (dget o entry) as [raw|] eqn:Do.
    - assert (Io : In o (dkeys entry)) by (apply dget_Some_In in Do; apply (in_map fst) in Do; exact Do). apply HK in Io as [<-|Io].
      + rewrite HT in Do. injection Do as <-. pose proof (TY _ If eq_refl) as TYf. cbn [fst snd] in TYf. subst k. cbn. eauto.
      + apply in_map_iff in Io as ([[o' ty] d] & E & Io). cbn in E. subst o'. destruct (HM _ _ _ _ Io Do) as (v & M). rewrite Forall_forall in O. destruct (O _ Io) as [O1 _]. cbn [fst snd] in O1.
        assert (E : (o, k, def) = (o, CLeaf (leaf_of ty), Some d)).
        { rewrite <- (keys_of prefix) in N. pose proof (keys_inj _ _ _ N (in_map (cfield prefix) _ _ If) (in_map (cfield prefix) _ _ O1) eq_refl) as E. cbn [cfield] in E. congruence. }
        injection E as -> ->. cbn [Components.validate_ckind]. apply means_validate in M. rewrite M. cbn. eauto.
    - rewrite Forall_forall in DF. destruct (DF _ If) as (d & v & E & V). cbn [fst snd] in E, V. rewrite E, V. cbn. eauto. }
  assert (A : exists d, all_some (load_field decode env ckind ckind_text validate_ckind entry) (map (cfield prefix) fs) = Some d).
  { clear -L. induction fs as [|f fs IH]; [exists []; reflexivity|]. destruct IH as (d & IH); [intros; apply L; now right|]. destruct (L f (or_introl eq_refl)) as (v & V). exists (v :: d). cbn [map all_some]. now rewrite V, IH. }
  destruct A as (d & A). exists d. unfold Components.load_component. rewrite HT, D. cbn [load_class]. unfold settings. cbn zeta.
  assert (E : filter (fun kv : string * json => negb (mem (fst kv) (map sf_key (map (cfield prefix) fs)))) entry = []).
  { rewrite keys_of. rewrite forallb_forall in K2. clear -HK K2. induction entry as [|[k v] entry IH]; [reflexivity|]. cbn [filter fst]. rewrite (K2 k) by (apply HK; now left). cbn [negb]. apply IH. intros x Hx. apply HK. now right. }
  rewrite E, A. cbn. now rewrite app_nil_r.
Qed.
End Proofs.

(** ** Other variables do not matter *)
Section Isolation.
Variable builtins : list string.
Variable importable : string -> bool.
Variable number_str : string -> string.
Variable decode : string -> option json.
Variable e1 e2 : list (string * string).
Notation load1 := (load_component builtins importable number_str decode (env_vars e1)).
Notation load2 := (load_component builtins importable number_str decode (env_vars e2)).
Theorem same_component : forall t prefix options entry, In (t, prefix, options) component_options -> dget "type" entry = Some (JString t) ->
  (forall o, In o ("type" :: map (fun x => fst (fst x)) options ++ further_options t) -> variable e1 (prefix +s+ o) = variable e2 (prefix +s+ o)) -> load1 entry = load2 entry.
Proof.
  intros t prefix options entry I HT HE. pose proof (all_fit builtins importable number_str) as F. rewrite Forall_forall in F. destruct (F _ I) as (fs & D & N & O & K & _).
  unfold load_component. rewrite HT, D. cbn [load_class]. f_equal. apply settings_ext; [|reflexivity]. intros f If. apply in_map_iff in If as ([[o k] def] & <- & If). cbn [cfield sf_env].
  rewrite !env_variable. apply HE. rewrite forallb_forall in K. apply mem_In, K. apply (in_map key) in If. exact If.
Qed.
Theorem same_plugin : forall t prefix options entry, In (t, prefix, options) plugin_options -> dget "type" entry = Some (JString t) ->
  (forall n, with_prefix prefix n -> variable e1 n = variable e2 n) -> load1 entry = load2 entry.
Proof.
  intros t prefix options entry I HT HE. eapply same_component; [apply in_or_app; left; exact I|exact HT|]. intros o _. apply HE. exists (str_lower o).
  clear. induction prefix as [|a p IH]; [reflexivity|]. cbn. f_equal. exact IH.
Qed.
End Isolation.
(** a plain model looks at its keys only *)
Lemma model_ext : forall builtins importable number_str decode env fs e1 e2, (forall k, In k (map key fs) -> dget k e1 = dget k e2) ->
  load_class builtins importable number_str decode env (Model fs) e1 = load_class builtins importable number_str decode env (Model fs) e2.
Proof.
  intros b i ns d env fs e1 e2 H. cbn [load_class validate_record].
  match goal with |- match option_map _ ?a with _ => _ end = match option_map _ ?c with _ => _ end => assert (E : a = c); [|now rewrite E] end.
  induction fs as [|[[o k] def] fs IH]; [reflexivity|]. cbn [all_some]. rewrite (H o) by now left. rewrite IH by (intros; apply H; now right). reflexivity.
Qed.
Lemma capitalize_ext : forall builtins importable number_str decode env e1 e2, dget "type" e1 = Some (JString "turms.stylers.capitalize.CapitalizeStyler") ->
  (forall k, In k ("type" :: map (fun x => "capitalize_" +s+ x) ["fragment"; "query"; "mutation"; "subscription"; "enum"; "input"]) -> dget k e1 = dget k e2) ->
  load_component builtins importable number_str decode env e1 = load_component builtins importable number_str decode env e2.
Proof.
  intros b i ns d env e1 e2 HT H. unfold load_component. rewrite <- (H "type") by now left. rewrite HT. change (dget "turms.stylers.capitalize.CapitalizeStyler" components) with (Some capitalize_class). cbn iota.
  unfold capitalize_class. f_equal. apply model_ext. exact H.
Qed.
