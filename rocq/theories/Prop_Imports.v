(** C22, C23: imports, and independence of set iteration orders. *)
From Verif Require Import Base PyAst Gql Config Stylers Registry Utils Referencer Enums Inputs Funcs Run
  Spec_Imports P_Imports Ex_Inputs Ex_Funcs.

(** C22.  For every iteration order of Python's sets: when [names] are requested one after the
    other, the import statements fetch each requested dotted name exactly once and nothing but
    the names requested so far, and never one of the builtin types turms knows. *)
Theorem C22_imports_partial : forall iter names r, set_order iter ->
  let out := generate_imports iter (snd (miter register_import names r)) in
  NoDup (imported out) /\ Forall is_import out
  /\ (forall d, In d (imported out) <-> In d (r_imports r) \/ (In d names /\ ~ In d simple_types)).
Proof. intros iter names r H. exact (imports_exact iter H names r). Qed.
Print Assumptions C22_imports_partial.
Example C22_imports_ex : set_order (@rev string)
  /\ generate_imports (@rev string)
       (snd (miter register_import ["typing.List"; "enum.Enum"; "str"; "typing.List"; "typing.Optional"; "json"] (init_reg default_config)))
     = [SImport ["json"]; SImportFrom "typing" ["List"; "Optional"]; SImportFrom "enum" ["Enum"]].
Proof. split; [intros l; symmetry; apply Permutation_rev|reflexivity]. Qed.

(** C22.  When no two requested names end in the same component, the last component of every
    requested name is bound to the object requested. *)
Theorem C22_bindings_partial : forall iter r, set_order iter ->
  (forall d d', In d (r_imports r) -> In d' (r_imports r) -> last_comp d = last_comp d' -> d = d') ->
  forall d, In d (r_imports r) -> bound_to (generate_imports iter r) (last_comp d) = Some d.
Proof. intros iter r H. exact (imports_bound iter H r). Qed.
Print Assumptions C22_bindings_partial.
Example C22_bindings_ex :
  bound_to (generate_imports (@rev string) (snd (ex_run))) "Optional" = Some "typing.Optional".
Proof. reflexivity. Qed.

(** C22 fails: two scalars mapped to classes of the same name in different modules are
    referenced by the same name, so whatever the order one of them is bound to the wrong class. *)
Definition cfg_scalars (d : dict string) : gconfig :=
  GConfig "v2" None ["pydantic.BaseModel"] None true false d [] [] None None true None None
          default_freeze true default_options false [] [] true [] true true
          "api" "schema.py" false "schema.graphql" false "project.json".
Theorem C22_same_name_refuted : exists cfg a b,
  let r0 := init_reg cfg in
  let r1 := snd (reference_scalar a r0) in
  let r2 := snd (reference_scalar b r1) in
  fst (reference_scalar a r0) = Ok (EName "Date") /\ fst (reference_scalar b r1) = Ok (EName "Date")
  /\ dget a (r_scalars r2) = Some "pendulum.Date" /\ dget b (r_scalars r2) = Some "app.Date"
  /\ forall iter, set_order iter ->
       bound_to (generate_imports iter r2) "Date" <> Some "pendulum.Date"
       \/ bound_to (generate_imports iter r2) "Date" <> Some "app.Date".
Proof.
  exists (cfg_scalars [("Date", "pendulum.Date"); ("LocalDate", "app.Date")]), "Date", "LocalDate".
  repeat split; try reflexivity. intros iter _.
  destruct (bound_to _ "Date") as [d|]; [|left; discriminate].
  destruct (string_dec d "app.Date") as [->|H]; [left; discriminate|right; congruence].
Qed.

(** C22 fails: a builtin type turms does not list, here as the type of a function argument, is
    imported as a module. *)
Theorem C22_builtin_refuted : exists d r', 
  snd (generate_parameters default_config [default_styler] fx_schema (fx_cfg []) d fx_op fx_reg) = r'
  /\ is_ok (fst (generate_parameters default_config [default_styler] fx_schema (fx_cfg []) d fx_op fx_reg)) = true
  /\ forall iter, set_order iter -> In "bytes" (imported (generate_imports iter r')).
Proof.
  exists (FDef OpQuery false [FArg "payload" "bytes" ""] [] "funcs.execute"). eexists. split; [reflexivity|].
  split; [reflexivity|]. intros iter H. apply (imports_exact iter H []). left. vm_compute. tauto.
Qed.

(** C22 fails: the class generated for an enum takes the name of an imported scalar class; the
    annotation requested for the scalar then means the enum. *)
Definition shadow_cfg : gconfig := cfg_scalars [("Paint", "colour.Color")].
Definition shadow_schema : schema :=
  Schema (scalars ++ [("Paint", TScalar None); color; ("Wall", TInput None [("paint", fld (req (ty "Paint")))] [])]) None None None.
Definition shadow_plugins : list plugin :=
  [Plugin "EnumsPlugin" (enums_plugin shadow_cfg ex_stylers ex_enums shadow_schema (Ok []));
   Plugin "InputsPlugin" (inputs_plugin shadow_cfg ex_stylers ex_plugin shadow_schema (Ok []))].
Theorem C22_shadowed_refuted : exists imps rest enum_body input_body,
  generate_ast shadow_cfg (fun l => l) shadow_plugins false
  = Ok (imps ++ SImportFrom "colour" ["Color"] :: SClass "Color" [EName "str"; EName "Enum"] enum_body []
        :: SClass "Wall" [EName "BaseModel"] (docstring "No documentation" :: SAnn "paint" (EName "Color") None :: input_body) [] :: rest).
Proof.
  exists [SImportFrom "enum" ["Enum"]; SImportFrom "pydantic" ["BaseModel"]].
  do 3 eexists. vm_compute. reflexivity.
Qed.

(** C23.  Two runs of the plugins that differ in the iteration order of Python's sets give the
    same module up to the order of the imports and of the helper definitions; the same names are
    bound to the same objects. *)
Theorem C23_order_partial : forall c iter iter' plugins skip t,
  set_order iter -> set_order iter' ->
  generate_ast c iter plugins skip = Ok t ->
  exists t', generate_ast c iter' plugins skip = Ok t' /\ same_up_to_order t t'.
Proof. exact pipeline_order. Qed.
Print Assumptions C23_order_partial.
(** C23.  The forward-reference updates do not depend on the order of the set they come from. *)
Theorem C23_forward_references : forall c r r', Permutation (r_fwd r) (r_fwd r') ->
  generate_forward_refs c r = generate_forward_refs c r'.
Proof. exact forward_refs_order. Qed.
Print Assumptions C23_forward_references.
Example C23_forward_ex : r_fwd (snd ex_run) = ["Filter"]
  /\ generate_forward_refs default_config (with_fwd ["B"; "A"] (snd ex_run))
     = [forward_call default_config "A"; forward_call default_config "B"].
Proof. split; reflexivity. Qed.

(** C23 fails for the text: on one schema and configuration two iteration orders give
    different modules. *)
Definition ex_plugins : list plugin :=
  [Plugin "EnumsPlugin" (enums_plugin default_config ex_stylers ex_enums ex_schema (Ok []));
   Plugin "InputsPlugin" (inputs_plugin default_config ex_stylers ex_plugin ex_schema (Ok []))].
Theorem C23_imports_refuted : exists iter iter' plugins t t',
  set_order iter /\ set_order iter'
  /\ generate_ast default_config iter plugins false = Ok t
  /\ generate_ast default_config iter' plugins false = Ok t' /\ t <> t'.
Proof.
  exists (fun l => l), (@rev string), ex_plugins.
  destruct (generate_ast default_config (fun l => l) ex_plugins false) as [t|] eqn:E; [|discriminate E].
  destruct (generate_ast default_config (@rev string) ex_plugins false) as [t'|] eqn:E'; [|discriminate E'].
  exists t, t'. repeat split; auto.
  - intros l. reflexivity.
  - intros l. symmetry. apply Permutation_rev.
  - intros H. subst t'. rewrite <- E in E'. vm_compute in E'. discriminate.
Qed.
