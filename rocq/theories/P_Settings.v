(** Proofs about loading configurations. *)
From Verif Require Import Base PyAst Gql Config Loaders Settings Spec_Settings P_Base Spec_Imports P_Imports.

(** ** JSON *)
Section JsonInd.
Variable P : json -> Prop.
Hypothesis HN : P JNull.
Hypothesis HB : forall b, P (JBool b).
Hypothesis HM : forall t, P (JNumber t).
Hypothesis HS : forall t, P (JString t).
Hypothesis HA : forall l, Forall P l -> P (JArray l).
Hypothesis HO : forall d, Forall (fun kv => P (snd kv)) d -> P (JObject d).
Fixpoint json_ind2 (v : json) : P v :=
  match v with
  | JNull => HN | JBool b => HB b | JNumber t => HM t | JString t => HS t
  | JArray l => HA l ((fix go (l : list json) : Forall P l := match l with [] => Forall_nil _ | x :: r => Forall_cons _ (json_ind2 x) (go r) end) l)
  | JObject d => HO d ((fix go (d : list (string * json)) : Forall (fun kv => P (snd kv)) d := match d with [] => Forall_nil _ | x :: r => Forall_cons _ (json_ind2 (snd x)) (go r) end) d)
  end.
End JsonInd.
Lemma uniq_object : forall d, uniq (JObject d) <-> NoDup (map fst d) /\ Forall (fun kv => uniq (snd kv)) d.
Proof.
  intros d. cbn. set (go := fix go (d : list (string * json)) : Prop := match d with [] => True | x :: r => uniq (snd x) /\ go r end).
  assert (G : forall d, go d <-> Forall (fun kv => uniq (snd kv)) d).
  { clear d. induction d as [|x d IH].
    - split; intros _; [apply Forall_nil|exact I].
    - cbn. rewrite IH. split; [intros [H1 H2]; now constructor|]. intros H. inversion H; subst. auto. }
  rewrite G. tauto.
Qed.
Fixpoint updates (h acc : dict json) : dict json :=
  match h with [] => acc | (k, v) :: r => updates r (dset k (match dget k acc with Some x => deep_update x v | None => v end) acc) end.
Lemma deep_objects : forall l h, deep_update (JObject l) (JObject h) = JObject (updates h l).
Proof. reflexivity. Qed.
Lemma dget_none_notin : forall {A} k (d : dict A), ~ In k (map fst d) -> dget k d = None.
Proof. intros A k d H. induction d as [|[a b] d IH]; cbn in *; [reflexivity|]. destruct (String.eqb_spec k a); [subst; tauto|]. apply IH. tauto. Qed.
Lemma dget_updates : forall h acc k, NoDup (map fst h) ->
  dget k (updates h acc) = match dget k h with None => dget k acc | Some y => Some (match dget k acc with Some x => deep_update x y | None => y end) end.
Proof.
  induction h as [|[a v] h IH]; intros acc k N; cbn in *; [reflexivity|]. inversion N as [|? ? Na N']; subst. rewrite IH by exact N'. rewrite dget_dset.
  destruct (String.eqb_spec k a) as [->|Hka]; [rewrite (dget_none_notin a h Na)|]; reflexivity.
Qed.
Lemma deep_overlay : forall h l, uniq h -> overlay l h (deep_update l h).
Proof.
  induction h as [| | | |h IH|h IH] using json_ind2; intros low U; try (destruct low; cbn; apply ov_other; congruence).
  destruct low as [| | | | |l]; try (cbn; apply ov_other; congruence). rewrite deep_objects. apply uniq_object in U as [N U]. constructor.
  - intros k H. rewrite dget_updates by exact N. now rewrite H.
  - intros k y H1 H2. rewrite dget_updates by exact N. now rewrite H1, H2.
  - intros k x y H1 H2. rewrite dget_updates by exact N. rewrite H1, H2. eexists. split; [reflexivity|].
    apply dget_Some_In in H1. rewrite Forall_forall in IH, U. apply (IH _ H1). apply (U _ H1).
Qed.

(** ** Variables *)
Lemma env_variable : forall environ n, dget (str_lower n) (env_vars environ) = variable environ n.
Proof.
  intros environ n. unfold env_vars, dict_of.
  assert (G : forall l acc, dget (str_lower n) (fold_left (fun acc kv => dset (fst kv) (snd kv) acc) (map (fun kv => (str_lower (fst kv), snd kv)) l) acc)
    = match variable l n with Some x => Some x | None => dget (str_lower n) acc end).
  { induction l as [|[k v] l IH]; intros acc; cbn; [reflexivity|]. rewrite IH. rewrite dget_dset, (String.eqb_sym (str_lower n)).
    destruct (variable l n); [reflexivity|]. destruct (String.eqb _ _); reflexivity. }
  rewrite G. now destruct (variable environ n).
Qed.

(** ** Types *)
Fixpoint leaf_of (t : otype) : leaf :=
  match t with
  | OBool => LBool | OStr => LStr | OPath => LPath | OOne l => LLit l | OFree => LAny | OComponent => LProxy
  | OList t => LList (leaf_of t) | OMap t => LMap (leaf_of t) | OMaybe t => LOpt (leaf_of t)
  end.
Lemma all_some_Forall2 : forall {A B} (f : A -> option B) l k, all_some f l = Some k -> Forall2 (fun x y => f x = Some y) l k.
Proof.
  intros A B f. induction l as [|x l IH]; intros k H; cbn in H; [injection H as <-; constructor|].
  destruct (f x) eqn:E; [|discriminate]. destruct (all_some f l); [|discriminate]. injection H as <-. constructor; auto.
Qed.
Lemma Forall2_all_some : forall {A B} (f : A -> option B) l k, Forall2 (fun x y => f x = Some y) l k -> all_some f l = Some k.
Proof. intros A B f l k H. induction H as [|x y l k E H IH]; cbn; [reflexivity|]. now rewrite E, IH. Qed.
Lemma Forall2_imp : forall {A B} (P Q : A -> B -> Prop) l k, (forall x y, P x y -> Q x y) -> Forall2 P l k -> Forall2 Q l k.
Proof. intros A B P Q l k H F. induction F; constructor; auto. Qed.

Section Proofs.
Variable builtins : list string.
Variable importable : string -> bool.

Lemma validate_means : forall t raw v, validate builtins importable (leaf_of t) raw = Some v -> means builtins importable t raw v.
Proof.
  induction t as [| | |l| | |t IH|t IH|t IH]; intros raw v H; cbn [leaf_of validate] in H.
  - destruct raw as [|b|n|n| |]; try discriminate.
    + injection H as <-. exists b. auto.
    + destruct (String.eqb_spec n "1") as [->|]; [injection H as <-; exists true; split; [reflexivity|]; right; now left|].
      destruct (String.eqb_spec n "0") as [->|]; [injection H as <-; exists false; split; [reflexivity|]; right; now left|discriminate].
    + destruct (mem (str_lower n) true_words) eqn:T.
      * injection H as <-. exists true. split; [reflexivity|]. right. right. exists n. split; [reflexivity|]. apply mem_In in T. unfold true_words in T. unfold word_bool. cbn in *. tauto.
      * destruct (mem (str_lower n) false_words) eqn:F; [|discriminate]. injection H as <-. exists false. split; [reflexivity|]. right. right. exists n. split; [reflexivity|].
        apply mem_In in F. unfold false_words in F. unfold word_bool. cbn in *. tauto.
  - destruct raw; try discriminate. injection H as <-. cbn. eauto.
  - destruct raw as [| | |x| |]; try discriminate. unfold pythontype_validate in H. destruct (mem x builtins) eqn:M.
    + injection H as <-. split; [reflexivity|]. exists x. split; [reflexivity|]. left. now apply mem_In.
    + unfold has_dot in H. destruct (rsplit_dot x) as [[a b]|] eqn:R; [|discriminate]. injection H as <-. split; [reflexivity|]. exists x. split; [reflexivity|]. right.
      exists a, b. apply rsplit_join in R as [R _]. symmetry. exact R.
  - destruct raw as [| | |x| |]; try discriminate. destruct (mem x l) eqn:M; [|discriminate]. injection H as <-. split; [reflexivity|]. exists x. split; [reflexivity|]. now apply mem_In.
  - destruct raw; injection H as <-; reflexivity.
  - destruct raw as [| | | | |d]; try discriminate. destruct (dget "type" d) as [[| | |n| |]|] eqn:D; try discriminate. destruct (importable n) eqn:I; [|discriminate]. injection H as <-. cbn. eauto 8.
  - destruct raw as [| | | |l|]; try discriminate. destruct (all_some _ l) as [k|] eqn:E; [|discriminate]. injection H as <-. exists l, k. split; [reflexivity|]. split; [reflexivity|].
    eapply Forall2_imp; [exact IH|]. now apply all_some_Forall2.
  - destruct raw as [| | | | |l]; try discriminate. destruct (all_some _ l) as [k|] eqn:E; [|discriminate]. injection H as <-. exists l, k. split; [reflexivity|]. split; [reflexivity|].
    apply all_some_Forall2 in E. eapply Forall2_imp; [|exact E]. intros x y Hxy. cbv beta in Hxy. destruct (validate _ _ _ (snd x)) as [z|] eqn:V; [|discriminate]. injection Hxy as <-. cbn. auto.
  - destruct raw; try (right; apply IH; exact H). injection H as <-. now left.
Qed.
Lemma means_null : forall t v, means builtins importable t JNull v -> v = JNull.
Proof.
  induction t as [| | |l| | |t IH|t IH|t IH]; intros v H; cbn in H.
  - destruct H as (b & _ & [H|[H|(w & H & _)]]); discriminate.
  - destruct H as [<- (x & H)]. discriminate.
  - destruct H as [<- (x & H & _)]. discriminate.
  - destruct H as [<- (x & H & _)]. discriminate.
  - congruence.
  - destruct H as [<- (x & n & H & _)]. discriminate.
  - destruct H as (x & n & H & _). discriminate.
  - destruct H as (x & n & H & _). discriminate.
  - destruct H as [[_ H]|H]; auto.
Qed.
Lemma words_apart : forall w, In w true_words -> mem w false_words = false.
Proof. intros w H. repeat (destruct H as [<-|H]; [reflexivity|]). destruct H. Qed.
Lemma means_validate : forall t raw v, means builtins importable t raw v -> validate builtins importable (leaf_of t) raw = Some v.
Proof.
  induction t as [| | |l| | |t IH|t IH|t IH]; intros raw v H; cbn [leaf_of].
  - destruct H as (b & -> & [->|[->|(w & -> & W)]]); [reflexivity|destruct b; reflexivity|]. cbn [validate]. destruct b.
    + assert (M : mem (str_lower w) true_words = true) by (apply mem_In; unfold word_bool in W; unfold true_words; cbn in *; tauto). now rewrite M.
    + assert (M : mem (str_lower w) false_words = true) by (apply mem_In; unfold word_bool in W; unfold false_words; cbn in *; tauto). rewrite M.
      destruct (mem (str_lower w) true_words) eqn:T; [|reflexivity]. apply mem_In, words_apart in T. congruence.
  - destruct H as [<- (x & ->)]. reflexivity.
  - destruct H as [<- (x & -> & H)]. cbn [validate]. unfold pythontype_validate. destruct (mem x builtins) eqn:M; [reflexivity|]. destruct H as [H|(a & b & ->)]; [apply mem_In in H; congruence|].
    change (a +s+ "." +s+ b) with (dotted a b). now rewrite has_dot_dotted.
  - destruct H as [<- (x & -> & H)]. cbn [validate]. apply mem_In in H. now rewrite H.
  - cbn in H. subst v. destruct raw; reflexivity.
  - destruct H as [<- (d & n & -> & D & I)]. cbn [validate]. now rewrite D, I.
  - destruct H as (l & k & -> & -> & F). cbn [validate]. erewrite Forall2_all_some; [reflexivity|]. eapply Forall2_imp; [|exact F]. exact IH.
  - destruct H as (l & k & -> & -> & F). cbn [validate]. erewrite Forall2_all_some; [reflexivity|]. eapply Forall2_imp; [|exact F]. intros [a x] [b y] [E H]. cbn in *. subst. now rewrite (IH _ _ H).
  - destruct H as [[-> ->]|H]; [reflexivity|]. destruct raw; try (cbn [validate]; apply IH; exact H). apply means_null in H. now subst.
Qed.
(** values read are read again as themselves *)
Lemma validate_again : forall p raw v, validate builtins importable p raw = Some v -> validate builtins importable p v = Some v.
Proof.
  induction p as [| | |l| | | |p IH|p IH|p IH]; intros raw v H; cbn [leaf_of validate] in H.
  - destruct raw as [|b|n|n| |]; try discriminate; repeat match type of H with context [if ?x then _ else _] => destruct x end; try discriminate; injection H as <-; reflexivity.
  - destruct raw; try discriminate. now injection H as <-.
  - destruct raw as [| | |x| |]; try discriminate. cbn. unfold pythontype_validate in *. destruct (mem x builtins) eqn:M; [injection H as <-; cbn; unfold pythontype_validate; now rewrite M|].
    destruct (has_dot x) eqn:D; [|discriminate]. injection H as <-. cbn. unfold pythontype_validate. now rewrite M, D.
  - destruct raw as [| | |x| |]; try discriminate. destruct (mem x l) eqn:M; [|discriminate]. injection H as <-. cbn. now rewrite M.
  - destruct raw; injection H as <-; reflexivity.
  - destruct raw as [| | | | |d]; try discriminate. destruct (dget "type" d) as [[| | |n| |]|] eqn:D; try discriminate. destruct (importable n) eqn:I; [|discriminate]. injection H as <-. cbn. now rewrite D, I.
  - assert (v = raw) as ->. { destruct raw; repeat match type of H with context [if ?x then _ else _] => destruct x end; congruence. } exact H.
  - destruct raw as [| | | |l|]; try discriminate. destruct (all_some _ l) as [k|] eqn:E; [|discriminate]. injection H as <-. cbn. apply all_some_Forall2 in E.
    assert (G : all_some (validate builtins importable p) k = Some k). { apply Forall2_all_some. clear -E IH. induction E; constructor; eauto. } now rewrite G.
  - destruct raw as [| | | | |l]; try discriminate. destruct (all_some _ l) as [k|] eqn:E; [|discriminate]. injection H as <-. cbn. apply all_some_Forall2 in E.
    assert (G : all_some (fun kv => option_map (pair (fst kv)) (validate builtins importable p (snd kv))) k = Some k).
    { apply Forall2_all_some. clear -E IH. induction E as [|[a x] y l k Hxy E IHE]; constructor; [|exact IHE]. cbn in Hxy. destruct (validate _ _ _ x) as [z|] eqn:V; [|discriminate]. injection Hxy as <-. cbn. now rewrite (IH _ _ V). }
    now rewrite G.
  - destruct raw; try (cbn in H; destruct v; try reflexivity; cbn; eapply IH; exact H). injection H as <-. reflexivity.
Qed.

(** ** Settings classes *)
Variable decode : string -> option json.
Section Class.
Variable K : Type.
Variable env : dict string.
Variable text_of : K -> text.
Variable valid : K -> json -> option json.
Notation load_field := (load_field decode env K text_of valid).
Notation settings := (settings decode env K text_of valid).
Lemma load_field_key : forall file f kv, load_field file f = Some kv -> fst kv = sf_key f.
Proof.
  intros file f kv H. unfold Settings.load_field in H. destruct (from_env _ _ _ _ _) as [e|]; [|discriminate].
  destruct (over e _) as [v|]; [|destruct (sf_default f) as [v|]; [|discriminate]]; (destruct (valid _ v); [|discriminate]); injection H as <-; reflexivity.
Qed.
Lemma settings_fields : forall fs allow file c, settings fs allow file = Some c ->
  exists d, c = d ++ filter (fun kv => negb (mem (fst kv) (map sf_key fs))) file /\ Forall2 (fun f kv => load_field file f = Some kv) fs d
  /\ (allow = false -> filter (fun kv => negb (mem (fst kv) (map sf_key fs))) file = []).
Proof.
  intros fs allow file c H. unfold Settings.settings in H. cbn zeta in H. remember (filter _ file) as ex. assert (E : (allow = false -> ex = []) /\ option_map (fun d => d ++ ex) (all_some (load_field file) fs) = Some c).
  { destruct ex; destruct allow; try discriminate; split; auto; discriminate. } destruct E as [E1 E2]. destruct (all_some _ fs) as [d|] eqn:A; [|discriminate]. injection E2 as <-.
  exists d. split; [reflexivity|]. split; [|exact E1]. now apply all_some_Forall2.
Qed.
Lemma fields_keys : forall file fs d, Forall2 (fun f kv => load_field file f = Some kv) fs d -> map fst d = map sf_key fs.
Proof. intros file fs d F. induction F as [|f kv fs d H F IH]; cbn; [reflexivity|]. f_equal; [|exact IH]. eapply load_field_key, H. Qed.
Lemma settings_get : forall fs allow file c f, settings fs allow file = Some c -> NoDup (map sf_key fs) -> In f fs ->
  exists v, dget (sf_key f) c = Some v /\ load_field file f = Some (sf_key f, v).
Proof.
  intros fs allow file c f H N I. apply settings_fields in H as (d & -> & F & _). clear allow. revert N I. generalize (filter (fun kv => negb (mem (fst kv) (map sf_key fs))) file) as ex. intros ex N I.
  induction F as [|g kv fs d Hg F IH]; [destruct I|]. destruct kv as [k v]. pose proof (load_field_key _ _ _ Hg) as E. cbn in E. cbn. inversion N as [|? ? Ng N']; subst. destruct I as [->|I].
  - rewrite String.eqb_refl. eauto.
  - destruct (String.eqb_spec (sf_key f) (sf_key g)) as [Ek|_]; [|auto]. exfalso. apply Ng. rewrite <- Ek. now apply in_map.
Qed.
Lemma settings_known : forall fs file c, settings fs false file = Some c -> incl (dkeys file) (map sf_key fs).
Proof.
  intros fs file c H k Hk. apply settings_fields in H as (d & _ & _ & E). specialize (E eq_refl). unfold dkeys in Hk. apply in_map_iff in Hk as (kv & <- & Hk).
  destruct (mem (fst kv) (map sf_key fs)) eqn:M; [now apply mem_In|]. assert (X : In kv []) by (rewrite <- E; apply filter_In; now rewrite M). destruct X.
Qed.
(** without environment, what was loaded is loaded again *)
Lemma reload : forall fs file c valid0, settings fs false file = Some c -> NoDup (map sf_key fs) ->
  (forall f raw v, In f fs -> valid (sf_kind f) raw = Some v -> valid0 (sf_kind f) v = Some v) ->
  Settings.settings decode [] K text_of valid0 fs false c = Some c.
Proof.
  intros fs file c valid0 H N Hv. assert (GI : forall f, In f fs -> exists v, dget (sf_key f) c = Some v /\ load_field file f = Some (sf_key f, v)) by (intros f I; eapply settings_get; eassumption).
  apply settings_fields in H as (d & -> & F & E). specialize (E eq_refl). rewrite E, app_nil_r in *. pose proof (fields_keys _ _ _ F) as Kd.
  assert (G : all_some (Settings.load_field decode [] K text_of valid0 d) fs = Some d).
  { assert (Gd : forall f kv, In f fs -> load_field file f = Some kv -> Settings.load_field decode [] K text_of valid0 d f = Some kv).
    { intros f kv I L. destruct (GI f I) as (v & D & L'). rewrite L' in L. injection L as <-. unfold Settings.load_field, from_env. cbn [dget over]. rewrite D.
      unfold Settings.load_field in L'. destruct (from_env _ _ _ _ f) as [e|]; [|discriminate].
      destruct (over e (dget (sf_key f) file)) as [x|]; [|destruct (sf_default f) as [x|]; [|discriminate]]; (destruct (valid (sf_kind f) x) as [y|] eqn:V; [|discriminate]); injection L' as <-; rewrite (Hv f x y I V); reflexivity. }
    clear GI E Kd N Hv. apply Forall2_all_some. revert Gd. generalize d at 1 2 as d0. intros d0 Gd. induction F as [|f kv fs d L F IH]; constructor; [apply Gd; [now left|exact L]|]. apply IH. intros; apply Gd; [now right|assumption]. }
  unfold Settings.settings. cbn zeta. assert (Ed : filter (fun kv => negb (mem (fst kv) (map sf_key fs))) d = []).
  { rewrite <- Kd. clear. assert (G : forall l, incl l d -> filter (fun kv => negb (mem (fst kv) (map fst d))) l = []).
    { induction l as [|x l IH]; intros H; cbn; [reflexivity|]. assert (M : mem (fst x) (map fst d) = true) by (apply mem_In, in_map, H; now left). rewrite M. apply IH. intros z Hz. apply H. now right. }
    apply G, incl_refl. }
  rewrite Ed, G. cbn. now rewrite app_nil_r.
Qed.
(** the environment is read at the variables of the fields only *)
Lemma settings_ext : forall env' valid' fs allow file, (forall f, In f fs -> dget (str_lower (sf_env f)) env = dget (str_lower (sf_env f)) env') ->
  (forall f v, In f fs -> valid (sf_kind f) v = valid' (sf_kind f) v) -> settings fs allow file = Settings.settings decode env' K text_of valid' fs allow file.
Proof.
  intros env' valid' fs allow file HE HV. unfold Settings.settings. cbn zeta. assert (G : all_some (load_field file) fs = all_some (Settings.load_field decode env' K text_of valid' file) fs).
  { clear allow. assert (Gf : forall f, In f fs -> load_field file f = Settings.load_field decode env' K text_of valid' file f).
    { intros f I. unfold Settings.load_field, from_env. rewrite (HE f I). destruct (dget _ env') as [t|]; [destruct (text_of (sf_kind f)); [|destruct (decode t)|]|]; cbn [option_map];
        try reflexivity; (destruct (over _ _); [now rewrite HV|]); (destruct (sf_default f); [now rewrite HV|reflexivity]). }
    clear HE HV. induction fs as [|f fs IH]; cbn; [reflexivity|]. rewrite Gf by now left. rewrite IH; [reflexivity|]. intros; apply Gf; now right. }
  now rewrite G.
Qed.
End Class.
End Proofs.
