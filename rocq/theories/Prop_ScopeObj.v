(** C70: the names looked up by a module with models of object types and interfaces are bound. *)
From Verif Require Import Base PyAst Gql Config Stylers Registry Utils Documents Referencer Enums Inputs Recurse Objects Run
  Spec_Types Spec_Inputs Spec_Refs Spec_Imports Spec_Scope Spec_ScopeObj P_Base P_InputProps P_Scope4 P_ScopeObj Ex_Select Prop_Total Prop_TotalDoc Prop_Scope.

(** C70.  The module of the enum, the input and the object plugin, for every iteration order of sets: run from top to
    bottom, with the builtins of Python bound to start with, it looks up bound names only (base classes of models and
    interfaces, annotations, configured bases, members of the unions made for interfaces); a class that quotes a name is
    rebuilt further down, when the name is bound; only classes defined further up are rebuilt.  Missing for the full
    property: types that are left out although a field has their values, interfaces renamed by a styler (both refuted
    below), and what C20 misses for input types. *)
Theorem C70_schema_partial : forall bi c st ec ic pc s documents iter t,
  incl simple_types bi ->
  (forall n x, dget n (r_scalars (init_reg c)) = Some x -> has_dot x = false -> In x bi) ->
  c_force_plugin_order c = true -> NoDup (dkeys (s_types s)) -> none_implements_itself s -> set_order iter ->
  inputs_available (ic_skip_underscore ic) (skipping c (ic_skip_unreferenced ic)) s documents ->
  composites_available s (left_out (ob_skip_underscore pc) (ob_skip_double_underscore pc)) ->
  interfaces_unstyled s (left_out (ob_skip_underscore pc) (ob_skip_double_underscore pc)) (style_interface_class st) ->
  forall a b e,
  generate_ast c iter [Plugin a (enums_plugin c st ec s documents); Plugin b (inputs_plugin c st ic s documents); Plugin e (generate_types c st s pc)] false = Ok t ->
  scoped (fun n => In n bi) t /\ quotes_resolved (fun n => In n bi) t /\ rebuilds_defined t.
Proof. exact schema_scope. Qed.
Print Assumptions C70_schema_partial.
(** the same without the input plugin *)
Theorem C70_objects_partial : forall bi c st ec pc s documents iter t,
  incl simple_types bi ->
  (forall n x, dget n (r_scalars (init_reg c)) = Some x -> has_dot x = false -> In x bi) ->
  c_force_plugin_order c = true -> none_implements_itself s -> set_order iter ->
  composites_available s (left_out (ob_skip_underscore pc) (ob_skip_double_underscore pc)) ->
  interfaces_unstyled s (left_out (ob_skip_underscore pc) (ob_skip_double_underscore pc)) (style_interface_class st) ->
  forall a e,
  generate_ast c iter [Plugin a (enums_plugin c st ec s documents); Plugin e (generate_types c st s pc)] false = Ok t ->
  scoped (fun n => In n bi) t /\ quotes_resolved (fun n => In n bi) t /\ rebuilds_defined t.
Proof. exact enums_objects_scope. Qed.
Print Assumptions C70_objects_partial.

Definition objects_module (c : gconfig) (st : list styler) (pc : obcfg) (s : schema) : res (list stmt) :=
  generate_ast c (@rev string) [Plugin "EnumsPlugin" (enums_plugin c st default_enums_config s (Ok [])); Plugin "ObjectsPlugin" (generate_types c st s pc)] false.
Definition schema_module (c : gconfig) (st : list styler) (pc : obcfg) (s : schema) : res (list stmt) :=
  generate_ast c (@rev string) [Plugin "EnumsPlugin" (enums_plugin c st default_enums_config s (Ok []));
    Plugin "InputsPlugin" (inputs_plugin c st (InputsConfig ["pydantic.BaseModel"] true false) s (Ok [])); Plugin "ObjectsPlugin" (generate_types c st s pc)] false.
Definition quotes_in (t : list stmt) (n : string) : list string := flat_map (fun x => match x with SClass m _ body _ => if String.eqb m n then class_quotes body else [] | _ => [] end) t.
Definition lenient : gconfig :=
  GConfig "v2" None ["pydantic.BaseModel"] None true false [] [] [] None None true None None
          default_freeze true default_options false [] [] true [] true true "api" "schema.py" false "schema.graphql" false "project.json".
(** User refers to itself, Post to the interface Node and to a union, Query to classes further down; Node has two
    implementing types *)
Example C70_ex : NoDup (dkeys (s_types vx)) /\ none_implements_itself vx /\ composites_available vx (left_out true true)
  /\ interfaces_unstyled vx (left_out true true) (style_interface_class sst) /\ inputs_available true false vx (Ok [])
  /\ exists t, schema_module lenient sst (ObCfg ["pydantic.BaseModel"] true true) vx = Ok t
     /\ flat_map bound_by (skipn 4 t) = ["Color"; "Filter"; "NodeBase"; "Query"; "User"; "Post"; "Node"]
     /\ quotes_in t "Query" = ["Node"; "User"; "User"; "Post"; "User"; "Post"] /\ quotes_in t "User" = ["User"] /\ quotes_in t "Post" = ["Node"; "Post"].
Proof.
  split; [apply nodupb_NoDup; reflexivity|]. split.
  { intros key t i fs H E. by_type H; try discriminate E; injection E as <- <-; cbn; intuition discriminate. }
  assert (NU : forall n, is_composite vx n -> startswith "_" n = false).
  { intros n (t & p & G & _). apply dget_Some_In in G. by_type G; reflexivity. }
  split; [|split; [|split]].
  - intros n [H _] [[_ X]|[_ X]]; rewrite ?(NU n H) in X; [discriminate|]. destruct H as (t & p & G & _). apply dget_Some_In in G. by_type G; discriminate X.
  - apply unstyled_names; [intros x [<-|[]] n; reflexivity|]. intros n (d & i & f & G). apply dget_Some_In in G. by_elem G; try discriminate G; injection G as <- _ _ _; reflexivity.
  - split; [|discriminate]. intros _ n (d & f & di & G). apply dget_Some_In in G. by_elem G; try discriminate G. injection G as <- _ _ _; reflexivity.
  - eexists. split; [vm_compute; reflexivity|]. vm_compute. repeat split.
Qed.
(** a type with a leading underscore is left out, a field of that type stays *)
Definition hidden_schema : schema :=
  Schema [("String", TScalar None); ("User", TObject None [] [("meta", out (GNamed "_Meta"))] []); ("_Meta", TObject None [] [("at", out (GNamed "String"))] [])] None None None.
Theorem C70_underscore_refuted : exists s t, none_implements_itself s /\ interfaces_unstyled s (left_out true true) (style_interface_class sst)
  /\ objects_module lenient sst (ObCfg ["pydantic.BaseModel"] true true) s = Ok t
  /\ quotes_in t "User" = ["_Meta"] /\ ~ In "_Meta" (binds t) /\ ~ quotes_resolved (fun n => In n py_builtins) t.
Proof.
  exists hidden_schema. eexists. split; [|split; [|split; [vm_compute; reflexivity|]]].
  - intros key t i fs H E. by_type H; try discriminate E; injection E as <- <-; cbn; intuition discriminate.
  - intros n _ (d & i & f & G). apply dget_Some_In in G. by_elem G; discriminate G.
  - match goal with |- quotes_in ?t _ = _ /\ _ => set (m := t) end. split; [reflexivity|].
    assert (B : ~ In "_Meta" (binds m)) by (vm_compute; intuition discriminate). split; [exact B|]. intros H.
    assert (A : exists b body d, In (SClass "User" b body d) m /\ In "_Meta" (class_quotes body)).
    { eexists _, _, _. split; [unfold m; cbn; do 3 right; left; reflexivity|]. now left. }
    destruct A as (b & body & d & A1 & A2). destruct (resolved_bound _ _ H _ _ _ _ _ A1 A2) as [X|X]; [vm_compute in X; intuition discriminate|exact (B X)].
Qed.
Print Assumptions C70_underscore_refuted.
(** a styler that renames objects: the union of an interface is called as in the schema, fields refer to the styled name *)
Definition object_styler : styler := Styler id id id id id id id id cap_first.
Definition lower_schema : schema :=
  Schema [("String", TScalar None); ("node", TInterface None [] [("name", out (GNamed "String"))]);
          ("user", TObject None ["node"] [("name", out (GNamed "String")); ("owner", out (GNamed "node"))] [])] None None None.
Theorem C70_styled_refuted : exists s t, none_implements_itself s /\ composites_available s (left_out true true)
  /\ objects_module lenient [object_styler] (ObCfg ["pydantic.BaseModel"] true true) s = Ok t
  /\ flat_map bound_by (skipn 3 t) = ["NodeBase"; "User"; "node"] /\ quotes_in t "User" = ["Node"]
  /\ ~ quotes_resolved (fun n => In n py_builtins) t.
Proof.
  exists lower_schema. eexists. split; [|split; [|split; [vm_compute; reflexivity|]]].
  - intros key t i fs H E. by_type H; try discriminate E; injection E as <- <-; cbn; intuition discriminate.
  - intros n [(t & p & G & _) _] X. apply dget_Some_In in G. by_type G; destruct X as [[_ X]|[_ X]]; discriminate X.
  - match goal with |- flat_map _ (skipn 3 ?t) = _ /\ _ => set (m := t) end. split; [reflexivity|]. split; [reflexivity|].
    assert (B : ~ In "Node" (binds m)) by (vm_compute; intuition discriminate). intros H.
    assert (A : exists b body d, In (SClass "User" b body d) m /\ In "Node" (class_quotes body)).
    { eexists _, _, _. split; [unfold m; cbn; do 4 right; left; reflexivity|]. now left. }
    destruct A as (b & body & d & A1 & A2). destruct (resolved_bound _ _ H _ _ _ _ _ A1 A2) as [X|X]; [vm_compute in X; intuition discriminate|exact (B X)].
Qed.
Print Assumptions C70_styled_refuted.
