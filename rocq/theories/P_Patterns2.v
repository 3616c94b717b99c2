(** Loaded projects are as C79 assumes. *)
From Verif Require Import Base PyAst Gql Config Stylers Loaders Settings Components Spec_Settings Spec_Patterns P_Base P_Settings P_Settings2 P_Components.

Lemma uniq_array : forall l, uniq (JArray l) <-> Forall uniq l.
Proof.
  induction l as [|x l IH]; [split; [constructor|intros _; exact I]|]. cbn. cbn in IH. rewrite IH. split; [intros [A B]; now constructor|]. intros H. inversion H; subst. auto.
Qed.
Lemma dset_uniq : forall k v (d : dict json), uniq v -> Forall (fun kv => uniq (snd kv)) d -> Forall (fun kv => uniq (snd kv)) (dset k v d).
Proof. intros k v d Hv H. induction H as [|[a b] d Hx H IH]; cbn; [repeat constructor; exact Hv|]. destruct (String.eqb k a); constructor; auto. Qed.
Lemma deep_uniq : forall h l, uniq l -> uniq h -> uniq (deep_update l h).
Proof.
  induction h as [| | | |h IH|h IH] using json_ind2; intros low L U; try (destruct low; exact U). destruct low as [| | | | |l]; try exact U. rewrite deep_objects.
  apply uniq_object in U as [_ U]. apply uniq_object in L. apply uniq_object. revert l L. induction h as [|[k v] h IHh]; intros l [L1 L2]; cbn [updates]; [now split|].
  inversion IH as [|? ? Iv IH']; subst. inversion U as [|? ? Uv U']; subst. cbn [snd] in Iv, Uv. apply IHh; try assumption. split; [now apply dset_NoDup|]. apply dset_uniq; [|exact L2].
  destruct (dget k l) as [x|] eqn:D; [|exact Uv]. apply Iv; [|exact Uv]. rewrite Forall_forall in L2. apply dget_Some_In in D. exact (L2 _ D).
Qed.

Section Loaded.
Variable builtins : list string.
Variable importable : string -> bool.
Variable decode : string -> option json.
Variable environ : list (string * string).
Hypothesis HD : forall t v, decode t = Some v -> uniq v.
Notation env := (env_vars environ).
Lemma env_uniq : forall K (text_of : K -> text) f v, from_env decode env K text_of f = Some (Some v) -> uniq v.
Proof.
  intros K text_of f v H. unfold from_env in H. destruct (dget _ env) as [t|]; [|discriminate]. destruct (text_of (sf_kind f)).
  - injection H as <-. exact I.
  - destruct (decode t) as [w|] eqn:E; [|discriminate]. injection H as <-. eapply HD; exact E.
  - injection H as <-. destruct (decode t) as [w|] eqn:E; [eapply HD; exact E|exact I].
Qed.
Lemma field_uniq : forall K (text_of : K -> text) valid file f k v, uniq (JObject file) -> (forall d, sf_default f = Some d -> uniq d) -> load_field decode env K text_of valid file f = Some (k, v) ->
  exists raw, uniq raw /\ valid (sf_kind f) raw = Some v.
Proof.
  intros K text_of valid file f k v U D H. unfold load_field in H. destruct (from_env decode env K text_of f) as [e|] eqn:E; [|discriminate].
  assert (X : forall raw, over e (dget (sf_key f) file) = Some raw -> uniq raw).
  { intros raw. destruct e as [e|]; cbn [over]; destruct (dget (sf_key f) file) as [y|] eqn:G; intros [= <-].
    - apply deep_uniq; [eapply env_uniq; exact E|eapply uniq_get; eassumption].
    - eapply env_uniq; exact E.
    - eapply uniq_get; eassumption. }
  destruct (over e _) as [raw|]; [|destruct (sf_default f) as [raw|]; [|discriminate]].
  - destruct (valid (sf_kind f) raw) as [w|] eqn:V; [|discriminate]. injection H as _ <-. exists raw. auto.
  - destruct (valid (sf_kind f) raw) as [w|] eqn:V; [|discriminate]. injection H as _ <-. exists raw. auto.
Qed.
Lemma proxies_same : forall l k, all_some (validate builtins importable LProxy) l = Some k -> k = l.
Proof.
  induction l as [|x l IH]; intros k H; cbn in H; [congruence|]. destruct x as [| | | | |d]; try discriminate. destruct (dget "type" d) as [[| | |t| |]|]; try discriminate. destruct (importable t); [|discriminate].
  destruct (all_some _ l) as [ks|] eqn:E; [|discriminate]. injection H as <-. f_equal. now apply IH.
Qed.
Lemma generator_plugins : forall t c, uniq (JObject t) -> load_generator builtins importable decode env t = Some c -> exists l, dget "plugins" c = Some (JArray l) /\ Forall uniq l.
Proof.
  intros t c U H. unfold load_generator in H. destruct (settings _ _ _ _ _ _ _ t) as [c'|] eqn:S; [|discriminate]. destruct (Bool.eqb _ _); [|discriminate]. injection H as ->.
  assert (If : In (gfield ("plugins", GLeaf (LList LProxy), JArray [])) generator_fields) by (unfold generator_fields; apply in_map; cbn; repeat (first [left; reflexivity|right])).
  assert (N : NoDup (map sf_key generator_fields)) by (apply NoDup_b; reflexivity).
  destruct (settings_get decode _ _ _ _ _ _ _ _ _ S N If) as (v & Dv & L). apply field_uniq in L as (raw & Ur & V); [|exact U|intros d [= <-]; exact I].
  cbn [gfield sf_kind validate_gkind validate] in V. destruct raw as [| | | |l|]; try discriminate V. destruct (all_some _ l) as [k|] eqn:E; [|discriminate V]. apply proxies_same in E. subst k. injection V as <-.
  exists l. split; [exact Dv|]. now apply uniq_array.
Qed.
Lemma project_loaded : forall file p, uniq (JObject file) -> load_project builtins importable decode env file = Some p -> loaded_project p.
Proof.
  intros file p U H. unfold load_project in H. assert (N : NoDup (map sf_key project_fields)) by (apply NoDup_b; reflexivity). split.
  - intros v Hv. destruct (settings_get decode _ _ _ _ _ _ _ _ _ H N (or_intror (or_introl eq_refl))) as (v' & Dv & L). cbn [sf_key] in Dv. assert (v' = v) by congruence. subst v'.
    apply field_uniq in L as (raw & _ & V); [|exact U|intros d [= <-]; exact I]. cbn [sf_kind validate_pkind validate] in V. destruct raw; try discriminate V; injection V as <-; eauto.
  - intros entry He. unfold plugin_entries, turms_of, object_at in He.
    destruct (settings_get decode _ _ _ _ _ _ _ _ _ H N (or_intror (or_intror (or_introl eq_refl)))) as (v & Dv & L). cbn [sf_key] in Dv. rewrite Dv in He.
    apply field_uniq in L as (raw & Ur & V); [|exact U|discriminate]. cbn [sf_kind validate_pkind] in V. destruct raw as [| | | | |d]; try discriminate V. destruct (dget "turms" d) as [[| | | | |t]|] eqn:T; try discriminate V.
    destruct (load_generator _ _ _ _ t) as [c|] eqn:G; [|discriminate V]. injection V as <-. cbn [dget String.eqb Ascii.eqb Bool.eqb] in He.
    destruct (generator_plugins t c (uniq_get _ _ _ Ur T) G) as (l & Dp & F). rewrite Dp in He. apply in_flat_map in He as (x & Hx & He). rewrite Forall_forall in F. destruct x; try destruct He. subst entry. exact (F _ Hx). contradiction.
Qed.
Theorem projects_loaded : forall file projects n p, uniq (JObject file) -> load_projects builtins importable decode env file = Some projects -> In (n, JObject p) projects -> loaded_project p.
Proof.
  intros file projects n p U H I. unfold load_projects in H. destruct (dmem "projects" file).
  - destruct (load_multiple _ _ _ _ file) as [c|] eqn:M; [|discriminate]. unfold load_multiple in M. assert (N : NoDup (map sf_key [SField "projects" "projects" tt None])) by (apply NoDup_b; reflexivity).
    destruct (settings_get decode _ _ _ _ _ _ _ _ _ M N (or_introl eq_refl)) as (v & Dv & L). cbn [sf_key] in Dv. rewrite Dv in H. destruct v as [| | | | |q]; try discriminate. injection H as ->.
    apply field_uniq in L as (raw & Ur & V); [|exact U|discriminate]. cbn [sf_kind] in V. destruct raw as [| | | | |d]; try discriminate V. unfold validate_projects in V. destruct (all_some _ d) as [k|] eqn:E; [|discriminate V]. injection V as ->.
    apply uniq_object in Ur as [_ Ur]. clear - Ur HD E I. revert projects E I. induction d as [|[a x] d IH]; intros k E I; cbn in E; [injection E as <-; destruct I|]. inversion Ur as [|? ? Ux Ur']; subst. cbn [snd] in Ux.
    destruct x as [| | | | |x]; try discriminate E. cbn [fst snd] in E. destruct (load_project _ _ _ _ x) as [y|] eqn:P; [|discriminate E]. cbn [option_map] in E. destruct (all_some _ d) as [ks|] eqn:F; [|discriminate E]. injection E as <-.
    destruct I as [[= _ <-]|I]; [eapply project_loaded; eassumption|]. eapply IH; [exact Ur'|reflexivity|exact I].
  - destruct (load_project _ _ _ _ file) as [y|] eqn:P; [|discriminate]. injection H as <-. destruct I as [[= _ <-]|[]]. eapply project_loaded; eassumption.
Qed.
End Loaded.
