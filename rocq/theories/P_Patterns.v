(** Proofs about the documents plugins read. *)
From Verif Require Import Base PyAst Gql Config Stylers Registry Utils Documents Inline Recurse Print Enums Inputs Objects Fragments Operations Funcs InputFuncs Strawberry Run Loaders Settings Components Project
  Spec_Docs Spec_Naming Spec_Names Spec_Traits Spec_Settings Spec_Components Spec_Funcs Spec_Bases Spec_Patterns
  P_Base P_Monad P_Settings P_Settings2 P_Components P_Bases P_Bases2.

Section Proofs.
Variable number : string -> const.
Variable iter : list string -> list string.
Variable s : schema.
Variable directives : list directivedef.
Variable applied : string -> list directive.
Variable ps : string -> bool -> string.
Variable add : string -> res string.
Variable doc_of : operation -> option string.
Variable builtins : list string.
Variable importable : string -> bool.
Variable number_str : string -> string.
Variable decode : string -> option json.
Variable environ : list (string * string).
Notation env := (env_vars environ).
Notation load := (load_component builtins importable number_str decode env).
Notation load_components := (load_components builtins importable number_str decode env).

(** ** the option of a plugin *)
Lemma option_loaded : forall t prefix fs entry c o ty d, dget t components = Some (Settings_ prefix fs) -> NoDup (map key fs) -> In (o, CLeaf (leaf_of ty), Some d) fs ->
  validate builtins importable (leaf_of ty) d = Some d -> uniq (JObject entry) -> load entry = Some (t, c) -> has_option decode environ builtins importable entry prefix c (o, ty, d).
Proof.
  intros t prefix fs entry c o ty d D N I V U H. pose proof (loaded_settings _ _ _ _ _ _ _ _ _ _ H D) as S. rewrite <- (keys_of prefix) in N.
  destruct (settings_get decode _ _ _ _ _ _ _ _ _ S N (in_map (cfield prefix) _ _ I)) as (v & Dv & L). cbn [cfield sf_key] in Dv, L.
  eapply (field_option builtins importable decode environ ckind ckind_text (validate_ckind builtins importable number_str) entry prefix (CLeaf (leaf_of ty)) o ty d c v); try eassumption; reflexivity.
Qed.
Ltac in_fields := cbn [In fst snd]; repeat (first [left; reflexivity | right]).
Lemma glob_loaded : forall t prefix o entry c, glob_option t = Some (prefix, o) -> uniq (JObject entry) -> load entry = Some (t, c) ->
  has_option decode environ builtins importable entry prefix c (o, OMaybe OStr, JNull).
Proof.
  intros t prefix o entry c G U H. unfold glob_option in G.
  repeat match type of G with context [String.eqb t ?x] => destruct (String.eqb_spec t x) as [->|_]; [injection G as <- <-|] end; [| | |discriminate];
    (eapply option_loaded; [..|exact U|exact H]; [reflexivity|apply NoDup_b; reflexivity| |reflexivity]); in_fields.
Qed.
Lemma own_loaded : forall prefix o entry c, has_option decode environ builtins importable entry prefix c (o, OMaybe OStr, JNull) ->
  forall r, first_pattern (as_opt as_str (at_key c o) :: r) = first_pattern (own_pattern environ entry prefix o :: r).
Proof.
  intros prefix o entry c (v & G & H) r. unfold at_key. rewrite G. unfold own_pattern, text_at. destruct H as [(raw & Hr & Hm)|[[N1 N2] ->]]; [|rewrite N1, N2; reflexivity].
  assert (E : as_opt as_str v = match raw with JString t => Some t | _ => None end).
  { cbn in Hm. destruct Hm as [[-> ->]|[-> (x & ->)]]; reflexivity. }
  rewrite E. destruct Hr as [raw D _|raw D (x & X & R)|x y raw D (x' & X & R) Ov].
  - rewrite D. reflexivity.
  - rewrite D, X. cbn in R. subst raw. reflexivity.
  - rewrite D. cbn in R. subst x. inversion Ov; subst. reflexivity.
Qed.
Lemma pattern_first : forall a b, pattern a b = first_pattern [a; b].
Proof. intros [[|x a]|] [[|y b]|]; reflexivity. Qed.

(** ** the documents of a project *)
Definition config_of (p : dict json) : gconfig :=
  to_gconfig number (dset "documents" (match at_key (turms_of p) "documents" with JString (String _ _) => at_key (turms_of p) "documents" | _ => at_key p "documents" end) (turms_of p)).
Lemma config_documents : forall p, loaded_project p -> c_documents (config_of p) = project_documents p.
Proof.
  intros p [L _]. unfold config_of, to_gconfig, project_documents, text_at. cbn [c_documents]. unfold at_key at 1. rewrite dget_dset. cbn [String.eqb Ascii.eqb Bool.eqb]. unfold at_key.
  assert (E : as_opt as_str match dget "documents" p with Some v => v | None => JNull end = match dget "documents" p with Some (JString t) => Some t | _ => None end).
  { destruct (dget "documents" p) as [v|] eqn:D; [|reflexivity]. destruct (L v eq_refl) as [->|(t & ->)]; reflexivity. }
  destruct (dget "documents" (turms_of p)) as [[| | |[|a b]| |]|]; cbn [first_pattern]; try exact E. reflexivity.
Qed.
Lemma loaded_entries : forall p pl, load_components (turms_of p) "plugins" = Some pl -> Forall2 (fun e x => load e = Some x) (plugin_entries p) pl.
Proof.
  intros p pl H. unfold Components.load_components in H. unfold plugin_entries. destruct (dget "plugins" (turms_of p)) as [[| | | |l|]|]; try discriminate H.
  revert pl H. induction l as [|v l IH]; intros pl H; cbn in H; [injection H as <-; constructor|]. destruct v as [| | | | |d]; try discriminate H. destruct (load d) as [x|] eqn:E; [|discriminate H].
  destruct (all_some _ l) as [xs|] eqn:F; [|discriminate H]. injection H as <-. cbn. constructor; [exact E|]. apply IH. reflexivity.
Qed.
Lemma project_inv : forall parse p out, generate_project number iter s directives applied parse ps add doc_of builtins importable number_str decode env p = Some out ->
  exists pl sl st pls, load_components (turms_of p) "plugins" = Some pl /\ load_components (turms_of p) "stylers" = Some sl /\ all_some to_styler sl = Some st
  /\ all_some (to_plugin number s directives applied parse ps add doc_of (config_of p) st (as_opt as_str (at_key (turms_of p) "domain"))) pl = Some pls
  /\ out_tree out = generate_ast (config_of p) iter pls (c_skip_forwards (config_of p)).
Proof.
  intros parse p out H. unfold generate_project in H. cbn zeta in H. change (section_at (section_at p "extensions") "turms") with (turms_of p) in H.
  change (to_gconfig number (dset "documents" _ (turms_of p))) with (config_of p) in H.
  destruct (load_components (turms_of p) "parsers"); [|discriminate]. destruct (load_components (turms_of p) "plugins") as [pl|]; [|discriminate]. destruct (load_components (turms_of p) "stylers") as [sl|]; [|discriminate].
  destruct (load_components (turms_of p) "processors"); [|discriminate]. destruct (all_some to_styler sl) as [st|] eqn:E1; [|discriminate]. destruct (all_some _ pl) as [pls|] eqn:E2; [|discriminate]. injection H as <-.
  exists pl, sl, st, pls. repeat split; assumption.
Qed.
Lemma all_some_in : forall A B (f : A -> option B) l k x, all_some f l = Some k -> In x l -> exists y, f x = Some y /\ In y k.
Proof.
  induction l as [|a l IH]; intros k x H I; [destruct I|]. cbn in H. destruct (f a) as [b|] eqn:E; [|discriminate]. destruct (all_some f l) as [bs|] eqn:F; [|discriminate]. injection H as <-.
  destruct I as [<-|I]; [exists b; split; [exact E|now left]|]. destruct (IH bs x eq_refl I) as (y & H1 & H2). exists y. split; [exact H1|now right].
Qed.
Lemma plugin_ran : forall pls r tree tr x, run_plugins pls r tree = Ok tr -> In x pls -> exists l r1 r2, pl_generate x r1 = (Ok l, r2) /\ incl l (fst tr).
Proof.
  induction pls as [|p pls IH]; intros r tree tr x H I; [destruct I|]. cbn in H. destruct (pl_generate p r) as [[l|e] r'] eqn:E; [|discriminate]. destruct I as [<-|I].
  - exists l, r, r'. split; [exact E|]. assert (X : forall pls r tree tr, run_plugins pls r tree = Ok tr -> incl tree (fst tr)).
    { clear. induction pls as [|p pls IH]; intros r tree tr H; cbn in H; [injection H as <-; apply incl_refl|]. destruct (pl_generate p r) as [[l|e] r']; [|discriminate]. eapply incl_tran; [|eapply IH; exact H]. apply incl_appl, incl_refl. }
    eapply incl_tran; [|eapply X; exact H]. apply incl_appr, incl_refl.
  - eapply IH; eassumption.
Qed.
Lemma entry_ran : forall parse p out t entry ty, generate_project number iter s directives applied parse ps add doc_of builtins importable number_str decode env p = Some out -> out_tree out = Ok t ->
  In entry (plugin_entries p) -> dget "type" entry = Some (JString ty) ->
  exists o sl st x l r1 r2, load entry = Some (ty, o) /\ load_components (turms_of p) "stylers" = Some sl /\ all_some to_styler sl = Some st
  /\ to_plugin number s directives applied parse ps add doc_of (config_of p) st (as_opt as_str (at_key (turms_of p) "domain")) (ty, o) = Some x /\ pl_generate x r1 = (Ok l, r2) /\ incl l t.
Proof.
  intros parse p out t entry ty H T I Ty. destruct (project_inv _ _ _ H) as (pl & sl & st & pls & H1 & H2 & H3 & H4 & H5). apply loaded_entries in H1.
  assert (X : exists x, In x pl /\ load entry = Some x).
  { clear - H1 I. induction H1 as [|e x es xs E F IH]; [destruct I|]. destruct I as [<-|I]; [exists x; split; [now left|exact E]|]. destruct (IH I) as (y & A & B). exists y. split; [now right|exact B]. }
  destruct X as ([ty' o] & Ix & El). pose proof (component_type _ _ _ _ _ _ _ _ El) as E'. rewrite Ty in E'. injection E' as <-.
  destruct (all_some_in _ _ _ _ _ _ H4 Ix) as (x & Ex & Ipx). rewrite H5 in T. unfold generate_ast in T. destruct (run_plugins pls _ []) as [[tree r]|] eqn:R; [|discriminate]. cbn [rbind] in T.
  destruct (generate_builtins iter r) as [bs|]; [|discriminate]. cbn [rbind] in T. injection T as <-. destruct (plugin_ran _ _ _ _ _ R Ipx) as (l & r1 & r2 & G & L).
  exists o, sl, st, x, l, r1, r2. repeat split; try assumption. intros y Hy. apply in_or_app. right. apply in_or_app. right. apply in_or_app. left. exact (L y Hy).
Qed.
Lemma config_bases : forall p general, dget "object_bases" (turms_of p) = Some (JArray (map JString general)) -> c_object_bases (config_of p) = general.
Proof.
  intros p general H. unfold config_of, to_gconfig. cbn [c_object_bases]. unfold at_key at 1. rewrite dget_dset. cbn [String.eqb Ascii.eqb Bool.eqb]. rewrite H. cbn [as_list]. rewrite map_map. apply map_id.
Qed.
Notation generate parse p := (generate_project number iter s directives applied parse ps add doc_of builtins importable number_str decode env p).
Lemma patterned : forall p entry ty prefix o options, loaded_project p -> In entry (plugin_entries p) -> dget "type" entry = Some (JString ty) -> glob_option ty = Some (prefix, o) -> load entry = Some (ty, options) ->
  pattern (as_opt as_str (at_key options o)) (c_documents (config_of p)) = plugin_pattern environ p entry.
Proof.
  intros p entry ty prefix o options L I Ty G H. rewrite pattern_first. unfold plugin_pattern, text_at at 1. rewrite Ty, G. rewrite (config_documents _ L).
  apply own_loaded. eapply glob_loaded; [exact G|exact (proj2 L _ I)|exact H].
Qed.
Theorem operations_read : forall parse p out t entry, loaded_project p -> generate parse p = Some out -> out_tree out = Ok t -> In entry (plugin_entries p) ->
  dget "type" entry = Some (JString "turms.plugins.operations.OperationsPlugin") ->
  exists g d, plugin_pattern environ p entry = Some g /\ parse g = Ok d
  /\ forall sl st general own o name, load_components (turms_of p) "stylers" = Some sl -> all_some to_styler sl = Some st -> dget "object_bases" (turms_of p) = Some (JArray (map JString general)) ->
     In (DOp o) d -> op_name o = Some name -> listed environ entry "TURMS_PLUGINS_OPERATIONS_" (bases_option (op_kind o)) [] own ->
     exists body, In (SClass (Spec_Funcs.operation_class st (op_kind o) name) (as_bases (or_general general own)) body []) t.
Proof.
  intros parse p out t entry L H T I Ty. destruct (entry_ran _ _ _ _ _ _ H T I Ty) as (o & sl & st & x & l & r1 & r2 & El & Es & Est & Ex & G & Inc).
  unfold to_plugin in Ex. cbn [String.eqb Ascii.eqb Bool.eqb] in Ex. rewrite (patterned _ _ _ _ _ _ L I Ty eq_refl El) in Ex. injection Ex as <-. cbn [pl_generate] in G.
  destruct (plugin_pattern environ p entry) as [g|]; [|discriminate G]. apply bind_ok in G as (d & r3 & Hd & G). apply lift_ok in Hd as [Hd _]. exists g, d. split; [reflexivity|]. split; [exact Hd|].
  intros sl' st' general own op name Es' Est' Hb Ho EN Hl. assert (sl' = sl) by congruence. subst sl'. assert (st' = st) by congruence. subst st'.
  rewrite <- (config_bases _ _ Hb). destruct (entry_operations builtins importable number_str decode environ _ _ _ _ _ _ _ _ _ _ _ _ _ op name own (proj2 L _ I) El Hl G Ho EN) as [(body & B) _].
  exists body. apply Inc. exact B.
Qed.
Theorem fragments_read : forall parse p out t entry g, loaded_project p -> generate parse p = Some out -> out_tree out = Ok t -> In entry (plugin_entries p) ->
  dget "type" entry = Some (JString "turms.plugins.fragments.FragmentsPlugin") -> plugin_pattern environ p entry = Some g ->
  exists d, parse g = Ok d
  /\ forall sl st general own f a b c e, load_components (turms_of p) "stylers" = Some sl -> all_some to_styler sl = Some st -> dget "object_bases" (turms_of p) = Some (JArray (map JString general)) ->
     unique_fragment_names d -> In (DFrag f) d -> get_type s (fr_on f) = Some (TObject a b c e) -> listed environ entry "TURMS_PLUGINS_FRAGMENTS_" "fragment_bases" [] own ->
     based_on t (style_with sty_fragment st (fr_name f)) own general.
Proof.
  intros parse p out t entry g L H T I Ty HP. destruct (entry_ran _ _ _ _ _ _ H T I Ty) as (o & sl & st & x & l & r1 & r2 & El & Es & Est & Ex & G & Inc).
  unfold to_plugin in Ex. cbn [String.eqb Ascii.eqb Bool.eqb] in Ex. rewrite (patterned _ _ _ _ _ _ L I Ty eq_refl El), HP in Ex. injection Ex as <-. cbn [pl_generate] in G.
  apply bind_ok in G as (d & r3 & Hd & G). apply lift_ok in Hd as [Hd _]. exists d. split; [exact Hd|].
  intros sl' st' general own f a b c e Es' Est' Hb UF Hf Ht Hl. assert (sl' = sl) by congruence. subst sl'. assert (st' = st) by congruence. subst st'.
  rewrite <- (config_bases _ _ Hb). pose proof (entry_fragments builtins importable number_str decode environ _ _ _ _ _ _ _ _ _ _ _ own (proj2 L _ I) El Hl UF G f Hf) as B. rewrite Ht in B.
  destruct B as (pre & mid & body & decs & B). exists pre, mid, body, decs. apply Inc. exact B.
Qed.
Theorem functions_read : forall parse p out t entry, loaded_project p -> generate parse p = Some out -> out_tree out = Ok t -> In entry (plugin_entries p) ->
  dget "type" entry = Some (JString "turms.plugins.funcs.FuncsPlugin") -> exists g d, plugin_pattern environ p entry = Some g /\ parse g = Ok d.
Proof.
  intros parse p out t entry L H T I Ty. destruct (entry_ran _ _ _ _ _ _ H T I Ty) as (o & sl & st & x & l & r1 & r2 & El & Es & Est & Ex & G & Inc).
  unfold to_plugin in Ex. cbn [String.eqb Ascii.eqb Bool.eqb] in Ex. rewrite (patterned _ _ _ _ _ _ L I Ty eq_refl El) in Ex. injection Ex as <-. cbn [pl_generate] in G.
  apply bind_ok in G as (d & r3 & Hd & G). apply lift_ok in Hd as [Hd _]. destruct (plugin_pattern environ p entry) as [g|]; [|discriminate Hd]. exists g, d. split; [reflexivity|exact Hd].
Qed.
Lemma all_some_ext : forall A B (f g : A -> option B) l, (forall x, In x l -> f x = g x) -> all_some f l = all_some g l.
Proof. induction l as [|x l IH]; intros H; [reflexivity|]. cbn. rewrite (H x (or_introl eq_refl)). rewrite IH by (intros y Hy; apply H; now right). reflexivity. Qed.
Theorem only_patterns : forall parse1 parse2 p, loaded_project p -> (forall entry g, In entry (plugin_entries p) -> plugin_pattern environ p entry = Some g -> parse1 g = parse2 g) ->
  generate parse1 p = generate parse2 p.
Proof.
  intros parse1 parse2 p L H. unfold generate_project. cbn zeta. change (section_at (section_at p "extensions") "turms") with (turms_of p).
  change (to_gconfig number (dset "documents" _ (turms_of p))) with (config_of p).
  destruct (load_components (turms_of p) "parsers"); [|reflexivity]. destruct (load_components (turms_of p) "plugins") as [pl|] eqn:E; [|reflexivity]. destruct (load_components (turms_of p) "stylers") as [sl|]; [|reflexivity].
  destruct (load_components (turms_of p) "processors"); [|reflexivity]. destruct (all_some to_styler sl) as [st|]; [|reflexivity]. apply loaded_entries in E.
  rewrite (all_some_ext _ _ (to_plugin number s directives applied parse1 ps add doc_of (config_of p) st (as_opt as_str (at_key (turms_of p) "domain")))
    (to_plugin number s directives applied parse2 ps add doc_of (config_of p) st (as_opt as_str (at_key (turms_of p) "domain"))) pl); [reflexivity|].
  intros [ty o] Ix. assert (X : exists entry, In entry (plugin_entries p) /\ load entry = Some (ty, o)).
  { clear - E Ix. induction E as [|e x es xs E F IH]; [destruct Ix|]. destruct Ix as [->|I]; [exists e; split; [now left|exact E]|]. destruct (IH I) as (y & A & B). exists y. split; [now right|exact B]. }
  destruct X as (entry & I & El). pose proof (component_type _ _ _ _ _ _ _ _ El) as Ty. specialize (H entry).
  assert (D : glob_option ty = None -> documents_at parse1 (c_documents (config_of p)) = documents_at parse2 (c_documents (config_of p))).
  { intros N. rewrite (config_documents _ L). unfold plugin_pattern, text_at at 1 in H. rewrite Ty, N in H. destruct (project_documents p) as [g|]; [cbn; now apply H|reflexivity]. }
  assert (P : forall prefix k, glob_option ty = Some (prefix, k) -> forall g, pattern (as_opt as_str (at_key o k)) (c_documents (config_of p)) = Some g -> parse1 g = parse2 g).
  { intros prefix k G g. rewrite (patterned _ _ _ _ _ _ L I Ty G El). intros HP. now apply H. }
  unfold to_plugin, glob_option in *.
  repeat match goal with
  | |- context [String.eqb ty ?x] => destruct (String.eqb_spec ty x) as [->|_]; [try reflexivity|]
  end; try reflexivity; try (rewrite (D eq_refl); reflexivity); specialize (P _ _ eq_refl); destruct (pattern _ _) as [g|]; try reflexivity; cbn [documents_at]; rewrite (P g eq_refl); reflexivity.
Qed.
End Proofs.
