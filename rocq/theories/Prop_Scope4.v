(** C64: the names of a server scaffold. *)
From Verif Require Import Base PyAst Gql Config Stylers Registry Utils Documents Recurse Strawberry Run
  Spec_Inputs Spec_Imports Spec_Scope Spec_Syntax3 Spec_Scope3
  P_Base P_Scope13 Ex_Select Prop_Inline Prop_Total Prop_TotalDoc Prop_Scope Prop_Syntax.

(** C64: every name looked up when a server scaffold is run is bound by then: base classes, decorators, annotations,
    defaults and the values of directives.  The conditions rule out the refutations below. *)
Theorem C64_names_partial : forall bi c st s directives applied pc,
  incl simple_types bi -> In "None" bi ->
  (forall n x, dget n (r_scalars (init_reg c)) = Some x -> has_dot x = false -> In x bi) ->
  directives_declared s directives applied pc -> interfaces_proper s ->
  (forall b, In b (sb_inputtype_bases pc) -> In (last_comp b) bi) ->
  introspection_apart s pc ->
  forall iter n skip_forwards t, set_order iter ->
  generate_ast c iter [Plugin n (strawberry_plugin c st s directives applied pc)] skip_forwards = Ok t ->
  scoped_paths (fun x => In x bi) t.
Proof. exact scaffold_names. Qed.
Print Assumptions C64_names_partial.
(** and the classes it refers to by name exist, if types are left out together with what refers to them *)
Theorem C64_references_partial : forall bi c st s directives applied pc,
  incl simple_types bi -> In "None" bi ->
  (forall n x, dget n (r_scalars (init_reg c)) = Some x -> has_dot x = false -> In x bi) ->
  directives_declared s directives applied pc -> interfaces_proper s ->
  (forall b, In b (sb_inputtype_bases pc) -> In (last_comp b) bi) ->
  introspection_apart s pc -> closed s pc ->
  forall iter n skip_forwards t, set_order iter ->
  generate_ast c iter [Plugin n (strawberry_plugin c st s directives applied pc)] skip_forwards = Ok t ->
  quotes_bound (fun x => In x bi) t.
Proof. exact scaffold_references. Qed.
Print Assumptions C64_references_partial.

(** ** Example *)
Definition sc_builtins : list string := "None" :: py_builtins.
Lemma sc_scalars : forall n x, dget n (r_scalars (init_reg default_config)) = Some x -> has_dot x = false -> In x sc_builtins.
Proof.
  intros n x H D. apply dget_Some_In in H. vm_compute in H. repeat (destruct H as [H|H]; [injection H as <- <-; first [discriminate D|vm_compute; tauto]|]). contradiction.
Qed.
Lemma sc_declared : directives_declared vs vs_directives never default_strawberry_config.
Proof.
  assert (C : forall ds, (forall d, In d ds -> d = vs_cost \/ dir_name d = "oneOf") -> declared vs_directives default_strawberry_config ds).
  { intros ds H d Hd. destruct (H d Hd) as [->|E]; [right|left; rewrite E; cbn; tauto]. split; [reflexivity|]. split; [reflexivity|].
    split; [eexists; split; [left; reflexivity|reflexivity]|]. intros a Ha. by_elem Ha; subst a; reflexivity. }
  intros n t H. split; [apply C; intros d Hd; by_type H; by_elem Hd; subst d; first [now left|now right]|].
  intros k f K. apply C. intros d Hd. by_type H; by_elem K; injection K as <- <-; by_elem Hd; subst d; now left.
Qed.
Lemma sc_proper : interfaces_proper vs.
Proof. intros n t H K. by_type H; by_elem K; discriminate K. Qed.
Lemma sc_closed : closed vs default_strawberry_config.
Proof. intros n t m tm _ _ _ G. apply dget_Some_In in G. by_type G; cbn; auto. Qed.
Definition class_references (t : list stmt) : list string :=
  flat_map (fun x => match x with SClass _ _ b _ => flat_map member_quotes b | _ => [] end) t.
Definition module_imports (t : list stmt) : list string := flat_map (fun x => match x with SImportFrom _ _ => bound_by x | SImport _ => bound_by x | _ => [] end) t.
Example C64_ex : incl simple_types sc_builtins /\ directives_declared vs vs_directives never default_strawberry_config /\ interfaces_proper vs
  /\ introspection_apart vs default_strawberry_config /\ closed vs default_strawberry_config
  /\ exists t, server_run vs vs_directives never = Ok t
     /\ scoped_paths (fun n => In n sc_builtins) t /\ quotes_bound (fun n => In n sc_builtins) t
     /\ flat_map (fun x => match x with SClass n _ _ _ => [n] | _ => [] end) t = ["cost"; "Color"; "Filter"; "Node"; "Query"; "Subscription"]
     /\ class_references t = ["Query"].
Proof.
  assert (A1 : incl simple_types sc_builtins) by (apply incl_tl, incl_appl, incl_refl).
  assert (A2 : introspection_apart vs default_strawberry_config).
  { left. eexists _, _, _. split; [right; right; left; reflexivity|]. split; reflexivity. }
  split; [exact A1|]. split; [exact sc_declared|]. split; [exact sc_proper|]. split; [exact A2|]. split; [exact sc_closed|].
  destruct (server_run vs vs_directives never) as [t|e] eqn:E; [|vm_compute in E; discriminate E]. exists t. split; [reflexivity|].
  assert (N : In "None" sc_builtins) by now left.
  assert (B : forall b, In b (sb_inputtype_bases default_strawberry_config) -> In (last_comp b) sc_builtins) by (intros b []).
  split; [exact (C64_names_partial _ _ _ _ _ _ _ A1 N sc_scalars sc_declared sc_proper B A2 _ _ _ _ rev_order E)|].
  split; [exact (C64_references_partial _ _ _ _ _ _ _ A1 N sc_scalars sc_declared sc_proper B A2 sc_closed _ _ _ _ rev_order E)|].
  vm_compute in E. injection E as <-. split; reflexivity.
Qed.

(** ** Refutations *)
Notation server_with pc s ds ap := (generate_ast default_config (@rev string) [Plugin "StrawberryPlugin" (strawberry_plugin default_config sst s ds ap pc)] true) (only parsing).
Definition misses (r : res (list stmt)) (n : string) : Prop :=
  exists t, r = Ok t /\ In n (flat_map runs t) /\ ~ scoped_paths (fun x => In x sc_builtins) t.
Ltac misses_tac := match goal with |- misses _ ?n => eexists; split; [vm_compute; reflexivity|]; split; [vm_compute; tauto|];
  apply (missing_name _ n); [vm_compute; tauto|vm_compute; intuition discriminate..] end.
Definition one_type (t : typedef) : schema := Schema [("Int", TScalar None); ("Query", t)] (Some "Query") None None.
(** base classes configured for input types are not imported *)
Theorem C64_bases_refuted : let pc := SbCfg true true true true true [] ["Int"] ["app.Base"] false true in
  let s := Schema [("Int", TScalar None); ("Filter", TInput None [("id", InputField (GNamed "Int") None None None)] [])] None None None in
  directives_declared s [] never pc /\ misses (server_with pc s [] never) "Base".
Proof. split; [intros n t H; by_type H; (split; [intros d []|intros k f []])|misses_tac]. Qed.
Print Assumptions C64_bases_refuted.
(** directives are switched off, and a type has one *)
Theorem C64_directive_off_refuted : let pc := SbCfg false true true true true [] ["Int"] [] false true in
  let s := one_type (TObject None [] [("id", FieldDef (GNamed "Int") [] None None [])] [Directive "cost" []]) in
  misses (server_with pc s [DirectiveDef "cost" ["OBJECT"] []] never) "cost".
Proof. cbv zeta. misses_tac. Qed.
Print Assumptions C64_directive_off_refuted.
(** the enums are switched off, and a type refers to an enum of introspection: [Enum] is not imported *)
Theorem C64_introspection_refuted : let pc := SbCfg true true false true true [] ["Int"] [] false true in
  let s := Schema [("__TypeKind", TEnum None [("OBJECT", EnumVal "OBJECT" None None)]); ("Query", TObject None [] [("kind", FieldDef (GNamed "__TypeKind") [] None None [])] [])] (Some "Query") None None in
  directives_declared s [] never pc /\ misses (server_with pc s [] never) "Enum".
Proof.
  split; [intros n t H; by_type H; (split; [intros d []|intros k f K; by_elem K; injection K as <- <-; intros d []])|misses_tac].
Qed.
Print Assumptions C64_introspection_refuted.
(** a class refers to a class that is not in the module *)
Definition dangles (r : res (list stmt)) (n : string) : Prop := exists t, r = Ok t /\ In n (class_references t) /\ ~ quotes_bound (fun x => In x sc_builtins) t.
Lemma dangling : forall t n, In n (class_references t) -> ~ In n sc_builtins -> ~ In n (binds t) -> ~ quotes_bound (fun x => In x sc_builtins) t.
Proof.
  intros t n H N1 N2 Q. apply in_flat_map in H as (x & Hx & H). destruct x; try contradiction. apply in_flat_map in H as (y & Hy & H).
  destruct (Q _ _ _ _ _ _ Hx Hy H); contradiction.
Qed.
Ltac dangles_tac := match goal with |- dangles _ ?n => eexists; split; [vm_compute; reflexivity|]; split; [vm_compute; tauto|];
  apply (dangling _ n); [vm_compute; tauto|vm_compute; intuition discriminate..] end.
(** input types are switched off, and a resolver takes one *)
Theorem C64_inputs_off_refuted : let pc := SbCfg true true true true false [] ["Int"] [] false true in
  let s := Schema [("Int", TScalar None); ("Filter", TInput None [("id", InputField (GNamed "Int") None None None)] []);
    ("Query", TObject None [] [("find", FieldDef (GNamed "Int") [("by", ArgDef (GNamed "Filter") None None)] None None [])] [])] (Some "Query") None None in
  dangles (server_with pc s [] never) "Filter".
Proof. cbv zeta. dangles_tac. Qed.
Print Assumptions C64_inputs_off_refuted.
(** types that begin with an underscore are left out, and a field has one *)
Theorem C64_hidden_refuted : let pc := SbCfg true true true true true [] ["Int"] [] true true in
  let s := Schema [("Int", TScalar None); ("_Service", TObject None [] [("id", FieldDef (GNamed "Int") [] None None [])] []);
    ("Query", TObject None [] [("service", FieldDef (GNamed "_Service") [] None None [])] [])] (Some "Query") None None in
  dangles (server_with pc s [] never) "_Service".
Proof. cbv zeta. dangles_tac. Qed.
Print Assumptions C64_hidden_refuted.
