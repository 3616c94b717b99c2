(** Proofs about the classes of config.py. *)
From Verif Require Import Base PyAst Gql Config Loaders Settings Spec_Settings P_Base P_Settings.

Section Proofs.
Variable builtins : list string.
Variable importable : string -> bool.
Variable decode : string -> option json.
Variable environ : list (string * string).
Notation env := (env_vars environ).
Notation validate := (validate builtins importable).

Ltac dv H z V := match type of H with context [Settings.validate ?b ?i ?p ?x] => destruct (Settings.validate b i p x) as [z|] eqn:V; [|discriminate] end; cbn [option_map] in H; injection H as <-.
(** a field of a documented type *)
Lemma leaf_plain : forall t, structured t = false -> leaf_text (leaf_of t) = Plain.
Proof. intros [| | | | | | | |t]; try reflexivity; try discriminate. destruct t; try reflexivity; discriminate. Qed.
Lemma leaf_json : forall t, structured t = true -> leaf_text (leaf_of t) <> Plain.
Proof. intros [| | | | | | | |t] H; try discriminate. destruct t; try discriminate. Qed.
Lemma maybe_text : forall t x, structured t = true -> leaf_text (leaf_of t) = MaybeJson -> validate (leaf_of t) (JString x) = None.
Proof. intros [| | | | | | | |t] x H1 H2; try discriminate. destruct t; try discriminate; reflexivity. Qed.

Lemma uniq_get : forall file o x, uniq (JObject file) -> dget o file = Some x -> uniq x.
Proof. intros file o x U D. apply uniq_object in U as [_ U]. rewrite Forall_forall in U. apply dget_Some_In in D. apply (U _ D). Qed.

Lemma field_option : forall K text_of valid file prefix (k : K) o t d c v0, uniq (JObject file) ->
  text_of k = leaf_text (leaf_of t) -> (forall x, valid k x = validate (leaf_of t) x) -> validate (leaf_of t) d = Some d ->
  load_field decode env K text_of valid file (SField o (prefix +s+ o) k (Some d)) = Some (o, v0) -> dget o c = Some v0 ->
  has_option decode environ builtins importable file prefix c (o, t, d).
Proof.
  intros K text_of valid file prefix k o t d c v0 U HT HV Hd H Hc. unfold has_option. exists v0. split; [exact Hc|].
  unfold load_field, from_env in H. cbn [sf_env sf_key sf_kind sf_default] in H. rewrite env_variable, HT in H. destruct (variable environ (prefix +s+ o)) as [x|] eqn:E.
  - left. destruct (leaf_text (leaf_of t)) eqn:T.
    + assert (S : structured t = false) by (destruct (structured t) eqn:S; [apply leaf_json in S; congruence|reflexivity]).
      assert (IV : in_variable decode environ t (prefix +s+ o) (JString x)) by (exists x; rewrite S; auto).
      destruct (dget o file) as [y|] eqn:D; cbn [over] in H.
      * rewrite HV in H. dv H z V. exists (deep_update (JString x) y). split; [|now apply validate_means].
        eapply g_both; [exact D|exact IV|]. apply deep_overlay. eapply uniq_get; eassumption.
      * rewrite HV in H. dv H z V. exists (JString x). split; [|now apply validate_means]. now apply g_env.
    + assert (S : structured t = true) by (destruct (structured t) eqn:S; [reflexivity|apply leaf_plain in S; congruence]).
      destruct (decode x) as [w|] eqn:W; [|discriminate]. cbn [option_map] in H. assert (IV : in_variable decode environ t (prefix +s+ o) w) by (exists x; rewrite S; auto).
      destruct (dget o file) as [y|] eqn:D; cbn [over] in H; rewrite HV in H; dv H z V; eexists; (split; [|apply validate_means; exact V]).
      * eapply g_both; [exact D|exact IV|]. apply deep_overlay. eapply uniq_get; eassumption.
      * now apply g_env.
    + assert (S : structured t = true) by (destruct (structured t) eqn:S; [reflexivity|apply leaf_plain in S; congruence]).
      destruct (decode x) as [w|] eqn:W.
      * assert (IV : in_variable decode environ t (prefix +s+ o) w) by (exists x; rewrite S; auto).
        destruct (dget o file) as [y|] eqn:D; cbn [over] in H; rewrite HV in H; dv H z V; eexists; (split; [|apply validate_means; exact V]).
        -- eapply g_both; [exact D|exact IV|]. apply deep_overlay. eapply uniq_get; eassumption.
        -- now apply g_env.
      * destruct (dget o file) as [y|] eqn:D; cbn [over] in H; rewrite HV in H.
        -- replace (deep_update (JString x) y) with y in H by (destruct y; reflexivity). dv H z V. exists y. split; [|apply validate_means; exact V]. apply g_file; [exact D|].
           intros a (x' & Hx & Ha). rewrite S in Ha. congruence.
        -- rewrite (maybe_text t x S T) in H. discriminate.
  - cbn [over] in H. destruct (dget o file) as [y|] eqn:D.
    + rewrite HV in H. dv H z V. left. exists y. split; [|apply validate_means; exact V]. apply g_file; [exact D|].
      intros a (x' & Hx & Ha). congruence.
    + rewrite HV, Hd in H. cbn [option_map] in H; injection H as <-. right. split; [now split|reflexivity].
Qed.
Lemma NoDup_b : forall l, (fix go (l : list string) : bool := match l with [] => true | x :: r => negb (mem x r) && go r end) l = true -> NoDup l.
Proof.
  induction l as [|x l IH]; intros H; constructor; apply andb_prop in H as [H1 H2]; [|auto]. intros I. apply mem_In in I. now rewrite I in H1.
Qed.
Lemma keys_inj : forall {K} (fs : list (sfield K)) f g, NoDup (map sf_key fs) -> In f fs -> In g fs -> sf_key f = sf_key g -> f = g.
Proof.
  intros K. induction fs as [|h fs IH]; intros f g N If Ig E; [destruct If|]. inversion N as [|? ? Nh N']; subst. destruct If as [<-|If], Ig as [<-|Ig]; [reflexivity| | |now apply IH].
  - destruct Nh. rewrite E. now apply in_map.
  - destruct Nh. rewrite <- E. now apply in_map.
Qed.
Lemma validate_null : forall p raw, validate p raw = Some JNull -> raw = JNull.
Proof.
  induction p as [| | |l| | | |p IH|p IH|p IH]; intros raw H; destruct raw; cbn [Settings.validate] in H; try discriminate; try reflexivity;
    try (repeat match type of H with context [if ?x then _ else _] => destruct x end; discriminate).
  - destruct (pythontype_validate _ _); discriminate.
  - destruct (dget "type" d) as [[| | |n| |]|]; try discriminate. destruct (importable n); discriminate.
  - destruct (all_some _ _); discriminate.
  - destruct (all_some _ _); discriminate.
  - now apply IH.
  - now apply IH.
  - now apply IH.
  - now apply IH.
  - now apply IH.
Qed.
Lemma generator_keys : NoDup (map sf_key generator_fields).
Proof. apply NoDup_b. reflexivity. Qed.
Lemma freeze_keys : NoDup (map sf_key freeze_fields).
Proof. apply NoDup_b. reflexivity. Qed.
Lemma options_keys : NoDup (map sf_key options_fields).
Proof. apply NoDup_b. reflexivity. Qed.
Ltac in_tac := cbn [map gfield field_of In]; repeat (first [left; reflexivity | right]).
Lemma general_in : Forall (fun x => In (gfield (fst (fst x), GLeaf (leaf_of (snd (fst x))), snd x)) generator_fields /\ validate (leaf_of (snd (fst x))) (snd x) = Some (snd x)) general_options.
Proof. repeat (apply Forall_cons; [split; [in_tac|reflexivity]|]). apply Forall_nil. Qed.
Lemma freeze_in : Forall (fun x => In (field_of "" (fst (fst x), leaf_of (snd (fst x)), snd x)) freeze_fields /\ validate (leaf_of (snd (fst x))) (snd x) = Some (snd x)) freeze_options.
Proof. repeat (apply Forall_cons; [split; [in_tac|reflexivity]|]). apply Forall_nil. Qed.
Lemma options_in : Forall (fun x => In (field_of "" (fst (fst x), leaf_of (snd (fst x)), snd x)) options_fields /\ validate (leaf_of (snd (fst x))) (snd x) = Some (snd x)) pydantic_options.
Proof. repeat (apply Forall_cons; [split; [in_tac|reflexivity]|]). apply Forall_nil. Qed.

Notation load_generator := (load_generator builtins importable decode env).
Lemma generator_settings : forall file c, load_generator file = Some c -> settings decode env gkind gkind_text (validate_gkind builtins importable decode env) generator_fields false file = Some c.
Proof. intros file c H. unfold Settings.load_generator in H. destruct (settings _ _ _ _ _ _ _ _) as [c'|]; [|discriminate]. destruct (Bool.eqb _ _); [exact H|discriminate]. Qed.
Theorem general_loaded : forall file c, uniq (JObject file) -> load_generator file = Some c -> Forall (has_option decode environ builtins importable file "TURMS_" c) general_options.
Proof.
  intros file c U H. apply generator_settings in H. pose proof general_in as G. rewrite Forall_forall in G. apply Forall_forall. intros [[o t] d] I. specialize (G _ I) as [G1 G2]. cbn [fst snd] in G1, G2.
  destruct (settings_get decode _ _ _ _ _ _ _ _ _ H generator_keys G1) as (v & D & L). cbn [gfield sf_key] in D, L.
  eapply (field_option gkind gkind_text (validate_gkind builtins importable decode env) file "TURMS_" (GLeaf (leaf_of t)) o t d c v); try eassumption; try reflexivity.
Qed.
Theorem known_options : forall file c, load_generator file = Some c -> incl (dkeys file) (map (fun x => fst (fst x)) general_options ++ other_options).
Proof.
  intros file c H. apply generator_settings, settings_known in H. intros k Hk. specialize (H k Hk). revert H. clear.
  assert (G : forallb (fun x => mem x (map (fun x => fst (fst x)) general_options ++ other_options)) (map sf_key generator_fields) = true) by reflexivity.
  rewrite forallb_forall in G. intros H. apply mem_In. now apply G.
Qed.

(** ** Sections *)
Lemma variable_case : forall n m, str_lower n = str_lower m -> variable environ n = variable environ m.
Proof. intros n m H. rewrite <- (env_variable environ n), <- (env_variable environ m). now rewrite H. Qed.
Lemma unprefixed_unset : forall n, plain_environ environ -> existsb (fun m => String.eqb (str_lower n) (str_lower m)) unprefixed = true -> dget (str_lower n) env = None.
Proof. intros n HP H. apply existsb_exists in H as (m & Im & E). apply String.eqb_eq in E. rewrite env_variable. rewrite (variable_case n m E). now apply HP. Qed.
Notation from_section := (from_section builtins importable).
Lemma section_loaded : forall fs rows d z, plain_environ environ -> (forall f, In f fs -> existsb (fun m => String.eqb (str_lower (sf_env f)) (str_lower m)) unprefixed = true) -> NoDup (map sf_key fs) ->
  Forall (fun x => In (field_of "" (fst (fst x), leaf_of (snd (fst x)), snd x)) fs /\ validate (leaf_of (snd (fst x))) (snd x) = Some (snd x)) rows ->
  settings decode env leaf leaf_text validate fs false d = Some z -> Forall (from_section d z) rows /\ incl (dkeys d) (map sf_key fs).
Proof.
  intros fs rows d z HP HE N R H. split; [|now apply settings_known in H]. rewrite Forall_forall in R. apply Forall_forall. intros [[o t] def] I. specialize (R _ I) as [R1 R2]. cbn [fst snd] in R1, R2.
  destruct (settings_get decode _ _ _ _ _ _ _ _ _ H N R1) as (v & D & L). cbn [field_of sf_key] in D, L. exists v. split; [exact D|].
  unfold load_field, from_env in L. cbn [sf_env sf_key sf_kind sf_default field_of] in L. pose proof (unprefixed_unset _ HP (HE _ R1)) as UU. cbn [field_of sf_env] in UU. rewrite UU in L. cbn [over] in L. destruct (dget o d) as [raw|].
  - dv L x V. now apply validate_means.
  - rewrite R2 in L. now cbn [option_map] in L; injection L as <-.
Qed.
Notation section := (section decode environ).
Lemma section_given : forall file c o fs, uniq (JObject file) -> load_generator file = Some c -> In (gfield (o, GSettings fs, JObject [])) generator_fields ->
  exists d z, section file o d /\ dget o c = Some (JObject z) /\ settings decode env leaf leaf_text validate fs false d = Some z.
Proof.
  intros file c o fs U H I. apply generator_settings in H. destruct (settings_get decode _ _ _ _ _ _ _ _ _ H generator_keys I) as (v & D & L). cbn [gfield sf_key] in D, L.
  unfold load_field, from_env in L. cbn [sf_env sf_key sf_kind sf_default gfield gkind_text] in L. rewrite env_variable in L.
  assert (X : exists w, (given decode environ file o (OMap OFree) ("TURMS_" +s+ o) w \/ (not_given environ file o ("TURMS_" +s+ o) /\ w = JObject [])) /\ validate_gkind builtins importable decode env (GSettings fs) w = Some v).
  { destruct (variable environ ("TURMS_" +s+ o)) as [x|] eqn:E.
    - destruct (decode x) as [w|] eqn:W; [|discriminate]. cbn [option_map] in L. assert (IV : in_variable decode environ (OMap OFree) ("TURMS_" +s+ o) w) by (exists x; auto).
      destruct (dget o file) as [y|] eqn:Df; cbn [over] in L; (destruct (validate_gkind _ _ _ _ _ _) as [q|] eqn:V in L; [|discriminate]); cbn [option_map] in L; injection L as <-; eexists; (split; [|exact V]); left.
      + eapply g_both; [exact Df|exact IV|]. apply deep_overlay. eapply uniq_get; eassumption.
      + now apply g_env.
    - cbn [over] in L. destruct (dget o file) as [y|] eqn:Df; (destruct (validate_gkind _ _ _ _ _ _) as [q|] eqn:V in L; [|discriminate]); cbn [option_map] in L; injection L as <-; eexists; (split; [|exact V]).
      + left. apply g_file; [exact Df|]. intros a (x' & Hx & Ha). congruence.
      + right. split; [now split|reflexivity]. }
  destruct X as (w & Hw & V). destruct w as [| | | | |d]; try discriminate. cbn [validate_gkind] in V. destruct (settings decode env leaf leaf_text validate fs false d) as [z|] eqn:S; [|discriminate]. cbn [option_map] in V. injection V as <-.
  exists d, z. split; [|auto]. destruct Hw as [Hw|[Hw [= ->]]]; [now left|right; auto].
Qed.
Theorem sections_loaded : forall file c, plain_environ environ -> uniq (JObject file) -> load_generator file = Some c ->
  (exists d z, section file "freeze" d /\ dget "freeze" c = Some (JObject z) /\ Forall (from_section d z) freeze_options /\ incl (dkeys d) (map (fun x => fst (fst x)) freeze_options))
  /\ (exists d z, section file "options" d /\ dget "options" c = Some (JObject z) /\ Forall (from_section d z) pydantic_options /\ incl (dkeys d) (map (fun x => fst (fst x)) pydantic_options)).
Proof.
  intros file c HP U H. split.
  - destruct (section_given file c "freeze" freeze_fields U H) as (d & z & S & D & L); [in_tac|]. exists d, z. split; [exact S|]. split; [exact D|].
    destruct (section_loaded freeze_fields freeze_options d z HP) as [F I]; [|apply freeze_keys|apply freeze_in|exact L|].
    + intros f If. repeat (destruct If as [<-|If]; [reflexivity|]). destruct If.
    + split; [exact F|]. intros k Hk. specialize (I k Hk). revert I. assert (G : forallb (fun x => mem x (map (fun x => fst (fst x)) freeze_options)) (map sf_key freeze_fields) = true) by reflexivity.
      rewrite forallb_forall in G. intros I. apply mem_In. now apply G.
  - destruct (section_given file c "options" options_fields U H) as (d & z & S & D & L); [in_tac|]. exists d, z. split; [exact S|]. split; [exact D|].
    destruct (section_loaded options_fields pydantic_options d z HP) as [F I]; [|apply options_keys|apply options_in|exact L|].
    + intros f If. repeat (destruct If as [<-|If]; [reflexivity|]). destruct If.
    + split; [exact F|]. intros k Hk. specialize (I k Hk). revert I. assert (G : forallb (fun x => mem x (map (fun x => fst (fst x)) pydantic_options)) (map sf_key options_fields) = true) by reflexivity.
      rewrite forallb_forall in G. intros I. apply mem_In. now apply G.
Qed.

(** ** Files that follow the documentation *)
Theorem documented_loads : forall file, (forall n, turms_variable n -> variable environ n = None) -> plain_environ environ -> documented builtins importable file -> exists c, load_generator file = Some c.
Proof.
  intros file HT HP (HK & HM & HU). pose (get := fun f : sfield gkind => match dget (sf_key f) file with Some raw => raw | None => match sf_default f with Some d => d | None => JNull end end).
  assert (NE : forall f, In f generator_fields -> dget (str_lower (sf_env f)) env = None).
  { intros f If. rewrite env_variable. apply HT. assert (S : startswith "turms_" (str_lower (sf_env f)) = true) by (repeat (destruct If as [<-|If]; [reflexivity|]); destruct If). apply prefix_ex in S as (r & S). exists r. exact S. }
  assert (G : forall f, In f generator_fields -> exists v, load_field decode env gkind gkind_text (validate_gkind builtins importable decode env) file f = Some (sf_key f, v) /\
      (forall p, sf_kind f = GLeaf (LOpt p) -> sf_default f = Some JNull -> is_null (Some v) = is_null (dget (sf_key f) file))).
  { intros f If. unfold load_field, from_env. rewrite (NE f If). cbn [over]. destruct (dget (sf_key f) file) as [raw|] eqn:D.
    - assert (exists t d, In (sf_key f, t, d) general_options) as (t & d & IG).
      { assert (I : In (sf_key f) (map fst file)) by (apply dget_Some_In in D; apply (in_map fst) in D; exact D). apply HK, in_map_iff in I as ([[o t] d] & E & I). cbn in E. subst o. eauto. }
      destruct (HM _ _ _ _ IG D) as (v & M). pose proof general_in as GI. rewrite Forall_forall in GI. specialize (GI _ IG) as [GI _]. cbn [fst snd] in GI.
      assert (f = gfield (sf_key f, GLeaf (leaf_of t), d)) as EF. { eapply keys_inj; [apply generator_keys|exact If|exact GI|reflexivity]. }
      rewrite EF. cbn [gfield sf_key sf_kind]. cbn [validate_gkind]. pose proof M as M'. apply means_validate in M. rewrite M. exists v. split; [reflexivity|]. intros p [= Ep] _. rewrite Ep in M. destruct raw; cbn [is_null]; try (cbn in M; injection M as <-; reflexivity).
      all: destruct v; try reflexivity; apply validate_null in M; discriminate.
    - assert (exists d, sf_default f = Some d /\ exists v, validate_gkind builtins importable decode env (sf_kind f) d = Some v /\ (d = JNull -> v = JNull)) as (d & E1 & v & E2 & E3).
      { assert (SG : forall fs, (forall g, In g fs -> dget (str_lower (sf_env g)) env = None) -> (forall g, In g fs -> exists d, sf_default g = Some d /\ validate (sf_kind g) d = Some d) -> exists z, settings decode env leaf leaf_text validate fs false [] = Some z).
        { intros fs H1 H2. unfold settings. cbn [filter]. cbn zeta. assert (A : exists k, all_some (load_field decode env leaf leaf_text validate []) fs = Some k).
          { induction fs as [|g fs IH]; [exists []; reflexivity|]. destruct IH as (k & IH); [intros; apply H1; now right|intros; apply H2; now right|]. destruct (H2 g (or_introl eq_refl)) as (d & D1 & D2). exists ((sf_key g, d) :: k). cbn [all_some].
            rewrite IH. unfold load_field, from_env. rewrite (H1 g (or_introl eq_refl)). cbn [over dget]. rewrite D1. rewrite D2. reflexivity. }
          destruct A as (k & A). rewrite A. eexists. reflexivity. }
        assert (SF : forall f', In f' freeze_fields -> dget (str_lower (sf_env f')) env = None) by (intros g Ig; apply unprefixed_unset; [exact HP|]; repeat (destruct Ig as [<-|Ig]; [reflexivity|]); destruct Ig).
        assert (SO : forall f', In f' options_fields -> dget (str_lower (sf_env f')) env = None) by (intros g Ig; apply unprefixed_unset; [exact HP|]; repeat (destruct Ig as [<-|Ig]; [reflexivity|]); destruct Ig).
        destruct (SG freeze_fields SF) as (z1 & Z1). { intros g Ig. repeat (destruct Ig as [<-|Ig]; [eexists; split; reflexivity|]). destruct Ig. }
        destruct (SG options_fields SO) as (z2 & Z2). { intros g Ig. repeat (destruct Ig as [<-|Ig]; [eexists; split; reflexivity|]). destruct Ig. }
        repeat (destruct If as [<-|If]; [eexists; split; [reflexivity|]; first [eexists; split; [reflexivity|discriminate]|exists JNull; split; reflexivity|eexists; split; [cbn [gfield sf_kind validate_gkind]; first [rewrite Z1|rewrite Z2]; reflexivity|discriminate]]|]). destruct If. }
      rewrite E1, E2. exists v. split; [reflexivity|]. intros p _ ED. injection ED as ->. now rewrite (E3 eq_refl). }
  assert (E : filter (fun kv : string * json => negb (mem (fst kv) (map sf_key generator_fields))) file = []).
  { assert (FG : forallb (fun x => mem x (map sf_key generator_fields)) (map (fun x => fst (fst x)) general_options) = true) by reflexivity. rewrite forallb_forall in FG.
    clear -HK FG. induction file as [|[k v] file IH]; [reflexivity|]. cbn [filter fst]. rewrite (FG k (HK k (or_introl eq_refl))). cbn [negb]. apply IH. intros x Hx. apply HK. now right. }
  assert (A : exists c, settings decode env gkind gkind_text (validate_gkind builtins importable decode env) generator_fields false file = Some c).
  { unfold settings. cbn zeta. rewrite E. assert (A : forall fs, incl fs generator_fields -> exists k, all_some (load_field decode env gkind gkind_text (validate_gkind builtins importable decode env) file) fs = Some k).
    { induction fs as [|g fs IH]; intros I; [exists []; reflexivity|]. destruct IH as (k & IH); [intros x Hx; apply I; now right|]. destruct (G g (I g (or_introl eq_refl))) as (v & V & _). exists ((sf_key g, v) :: k). cbn [all_some]. now rewrite V, IH. }
    destruct (A generator_fields (incl_refl _)) as (k & K). rewrite K. eexists. reflexivity. }
  destruct A as (c & A). exists c. unfold Settings.load_generator. rewrite A.
  assert (N : forall o, In (gfield (o, GLeaf (LOpt LPath), JNull)) generator_fields -> is_null (dget o c) = is_null (dget o file)).
  { intros o I. destruct (settings_get decode _ _ _ _ _ _ _ _ _ A generator_keys I) as (v & D & L). destruct (G _ I) as (v' & L' & NN). rewrite L in L'. injection L' as <-. cbn [gfield sf_key] in *. rewrite D. eapply NN; reflexivity. }
  rewrite (N "unset_type_class"), (N "unset_instance") by in_tac.
  assert (AB : forall o, absent file o <-> is_null (dget o file) = true).
  { intros o. unfold absent. destruct (dget o file) as [[| | | | |]|]; cbn; split; intros X; auto; try discriminate; destruct X; discriminate. }
  rewrite !AB in HU. destruct (is_null (dget "unset_type_class" file)), (is_null (dget "unset_instance" file)); cbn; try reflexivity; destruct HU as [U1 U2]; [specialize (U1 eq_refl); discriminate|specialize (U2 eq_refl); discriminate].
Qed.

(** ** Loading again *)
Lemma again_gkind : forall k raw v, validate_gkind builtins importable decode env k raw = Some v ->
  (match k with GLeaf _ => True | GSettings fs => NoDup (map sf_key fs) end) -> validate_gkind builtins importable decode [] k v = Some v.
Proof.
  intros [p|fs] raw v H N; cbn in H |- *; [eapply validate_again; exact H|]. destruct raw as [| | | | |d]; try discriminate.
  destruct (settings _ _ _ _ _ _ _ _) as [z|] eqn:S; [|discriminate]. cbn [option_map] in H; injection H as <-.
  rewrite (reload decode leaf env leaf_text validate fs d z validate S N); [reflexivity|]. intros f x y _. apply validate_again.
Qed.
Theorem load_again : forall file c, load_generator file = Some c -> Settings.load_generator builtins importable decode [] c = Some c.
Proof.
  intros file c H. pose proof H as HG. apply generator_settings in HG. unfold Settings.load_generator.
  rewrite (reload decode gkind env gkind_text _ generator_fields file c (validate_gkind builtins importable decode []) HG generator_keys).
  - unfold Settings.load_generator in H. destruct (settings _ _ _ _ _ _ _ _) as [c'|]; [|discriminate]. destruct (Bool.eqb _ _) eqn:E; [|discriminate]. injection H as ->. now rewrite E.
  - intros f raw v If V. eapply again_gkind; [exact V|]. repeat (destruct If as [<-|If]; [first [exact I|apply freeze_keys|apply options_keys]|]). destruct If.
Qed.
End Proofs.

(** ** Environments *)
Section Isolation.
Variable builtins : list string.
Variable importable : string -> bool.
Variable decode : string -> option json.
Variable e1 e2 : list (string * string).
Hypothesis HT : same_turms e1 e2.
Hypothesis HL : forall n, In n unprefixed -> variable e1 n = variable e2 n.
Lemma same_var : forall n, (startswith "turms_" (str_lower n) || existsb (fun m => String.eqb (str_lower n) (str_lower m)) unprefixed)%bool = true ->
  dget (str_lower n) (env_vars e1) = dget (str_lower n) (env_vars e2).
Proof.
  intros n H. rewrite !env_variable. apply orb_prop in H as [H|H].
  - apply HT. apply prefix_ex in H as (r & H). exists r. exact H.
  - apply existsb_exists in H as (m & Im & E). apply String.eqb_eq in E. rewrite (variable_case e1 n m E), (variable_case e2 n m E). now apply HL.
Qed.
Lemma same_generator : forall file, load_generator builtins importable decode (env_vars e1) file = load_generator builtins importable decode (env_vars e2) file.
Proof.
  intros file. unfold load_generator. rewrite (settings_ext decode gkind (env_vars e1) gkind_text _ (env_vars e2) (validate_gkind builtins importable decode (env_vars e2)) generator_fields); [reflexivity| |].
  - intros f If. apply same_var. repeat (destruct If as [<-|If]; [reflexivity|]). destruct If.
  - intros f v If. assert (G : forall fs, (forall g, In g fs -> dget (str_lower (sf_env g)) (env_vars e1) = dget (str_lower (sf_env g)) (env_vars e2)) ->
      validate_gkind builtins importable decode (env_vars e1) (GSettings fs) v = validate_gkind builtins importable decode (env_vars e2) (GSettings fs) v).
    { intros fs Hfs. cbn. destruct v; try reflexivity. now rewrite (settings_ext decode leaf (env_vars e1) leaf_text _ (env_vars e2) (validate builtins importable) fs). }
    repeat (destruct If as [<-|If]; [first [reflexivity|apply G; intros g Ig; apply same_var; repeat (destruct Ig as [<-|Ig]; [reflexivity|]); destruct Ig]|]). destruct If.
Qed.
Lemma same_project : forall file, load_project builtins importable decode (env_vars e1) file = load_project builtins importable decode (env_vars e2) file.
Proof.
  intros file. unfold load_project. apply settings_ext.
  - intros f If. apply same_var. repeat (destruct If as [<-|If]; [reflexivity|]). destruct If.
  - intros f v _. destruct (sf_kind f); [reflexivity|]. cbn. destruct v as [| | | | |d]; try reflexivity. destruct (dget "turms" d) as [[| | | | |t]|]; try reflexivity. now rewrite same_generator.
Qed.
Theorem same_projects : forall file, load_projects builtins importable decode (env_vars e1) file = load_projects builtins importable decode (env_vars e2) file.
Proof.
  intros file. unfold load_projects. destruct (dmem "projects" file); [|now rewrite same_project]. unfold load_multiple.
  rewrite (settings_ext decode unit (env_vars e1) (fun _ => Json) _ (env_vars e2) (validate_projects builtins importable decode (env_vars e2))); [reflexivity| |].
  - intros f If. destruct If as [<-|[]]. apply same_var. reflexivity.
  - intros f v _. unfold validate_projects. destruct v as [| | | | |d]; try reflexivity. assert (G : forall (g h : string * json -> option (string * json)) l, (forall x, g x = h x) -> all_some g l = all_some h l).
    { intros g h l Hg. induction l as [|x l IH]; cbn; [reflexivity|]. now rewrite Hg, IH. }
    erewrite G; [reflexivity|]. intros [k x]. cbn. destruct x; try reflexivity. now rewrite same_project.
Qed.
End Isolation.

(** ** Dumps *)
Lemma dump_no_schema : forall p, dget "schema" (dump_project p) = None.
Proof. induction p as [|[k v] p IH]; cbn [dump_project map dget fst]; [reflexivity|]. destruct (String.eqb_spec k "schema") as [->|N]; cbn [dget fst]; [exact IH|]. destruct (String.eqb_spec "schema" k); [congruence|exact IH]. Qed.
Theorem dump_unloadable : forall builtins importable decode environ p, variable environ "SCHEMA" = None -> load_project builtins importable decode (env_vars environ) (dump_project p) = None.
Proof.
  intros b i d e p H. unfold load_project, settings, project_fields. cbn zeta. cbn [all_some]. assert (L : load_field d (env_vars e) pkind pkind_text (validate_pkind b i d (env_vars e)) (dump_project p) (SField "schema" "schema" (PLeaf LSchema) None) = None).
  { unfold load_field, from_env. cbn [sf_env sf_key sf_kind sf_default]. rewrite env_variable, (variable_case e "schema" "SCHEMA" eq_refl), H. cbn [over]. now rewrite dump_no_schema. }
  rewrite L. destruct (filter _ _); reflexivity.
Qed.
