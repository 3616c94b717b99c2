(** C80: there is a factory for every input type that has a class. *)
From Verif Require Import Base PyAst Gql Config Stylers Registry Utils Documents Referencer Enums Inputs Funcs InputFuncs Run Settings Components
  Spec_Naming Spec_Names Spec_Paths Spec_Inputs Spec_Refs Spec_Classes Spec_Factories P_Base P_Gql P_Monad P_Inputs P_InputProps P_Factories P_Factories2 Ex_Inputs.

(** The functions are exactly one factory for each input type that the options do not skip and
    that has a name in the module, in the order of the schema, whichever plugins run before and
    in between. *)
Theorem C80_factories : forall c st s ps1 ps2 t0 r r1 r2 r3 ic fc docs docs' li lf tree t,
  input_classes_apart st s -> Forall (beside_plugin c st s) ps1 -> Forall (beside_plugin c st s) ps2 ->
  run_plugins ps1 (init_reg c) [] = Ok (t0, r) -> inputs_plugin c st ic s docs r = (Ok li, r1) ->
  run_plugins ps2 r1 tree = Ok (t, r2) -> input_funcs_plugin c st fc s docs' r2 = (Ok lf, r3) ->
  exists refd, referenced_inputs (skipping c (i_skip_unreferenced fc)) s docs' refd
  /\ factories st s (i_prepend fc) (fun k => ~ input_skipped (i_skip_underscore fc) refd k /\ In (input_class st k) (named li)) lf.
Proof. exact two_factories. Qed.
Print Assumptions C80_factories.
(** Every input type that neither plugin skips has a class and a factory for it.
    Full statement: for oneOf inputs and unions of inputs, too ([C80_union_refuted]). *)
Theorem C80_every_partial : forall c st s ps1 ps2 t0 r r1 r2 r3 ic fc docs docs' li lf tree t,
  input_classes_apart st s -> Forall (beside_plugin c st s) ps1 -> Forall (beside_plugin c st s) ps2 ->
  run_plugins ps1 (init_reg c) [] = Ok (t0, r) -> inputs_plugin c st ic s docs r = (Ok li, r1) ->
  run_plugins ps2 r1 tree = Ok (t, r2) -> input_funcs_plugin c st fc s docs' r2 = (Ok lf, r3) ->
  no_helper_enum s -> NoDup (dkeys (s_types s)) ->
  exists refd refd', referenced_inputs (skipping c (ic_skip_unreferenced ic)) s docs refd
  /\ referenced_inputs (skipping c (i_skip_unreferenced fc)) s docs' refd'
  /\ forall key x, In (key, x) (schema_inputs s) -> ~ union_member refd x -> ~ is_oneof x -> ~ union_target refd s key ->
       ~ input_skipped (ic_skip_underscore ic) refd key -> ~ input_skipped (i_skip_underscore fc) refd' key ->
       (exists bases body decs, In (SClass (input_class st key) bases body decs) li)
       /\ exists f, In f lf /\ factory_of st (i_prepend fc) key f.
Proof. exact plain_factories. Qed.
Print Assumptions C80_every_partial.
(** No factory hides another one or a class, if the names differ once the underscore is appended.
    Full statement: always ([C80_shadow_refuted]). *)
Theorem C80_names_partial : forall c st s ps1 ps2 t0 r r1 r2 r3 ic fc docs docs' li lf tree t,
  input_classes_apart st s -> factories_apart st s (i_prepend fc) -> Forall (beside_plugin c st s) ps1 -> Forall (beside_plugin c st s) ps2 ->
  run_plugins ps1 (init_reg c) [] = Ok (t0, r) -> inputs_plugin c st ic s docs r = (Ok li, r1) ->
  run_plugins ps2 r1 tree = Ok (t, r2) -> input_funcs_plugin c st fc s docs' r2 = (Ok lf, r3) ->
  NoDup (func_names lf) /\ (forall n, In n (func_names lf) -> ~ In n (named li))
  /\ forall f, In f lf -> exists k, factory_of st (i_prepend fc) k f /\ In (input_class st k) (named li).
Proof. exact apart_factories. Qed.
Print Assumptions C80_names_partial.
(** With a snake case styler and capitalised input types the names do differ, and no underscore is appended. *)
Theorem C80_snake : forall st s prepend, snake_factories st s prepend ->
  factories_apart st s prepend /\ forall k, In k (input_keys s) -> factory_name st prepend k = prepend +s+ style_with sty_parameter st k.
Proof. exact snake_apart. Qed.
Print Assumptions C80_snake.

(** ** Examples *)
Definition factory_ic : ifcfg := IfCfg [] [] true true "" true.
(** enums, inputs and factories, with the default options *)
Definition factory_run (st : list styler) (s : schema) : option (list stmt * list stmt) :=
  match run_plugins [Plugin "EnumsPlugin" (enums_plugin default_config st ex_enums s (Ok []))] (init_reg default_config) [] with
  | Ok (_, r) => match inputs_plugin default_config st default_inputs_config s (Ok []) r with
    | (Ok li, r1) => match input_funcs_plugin default_config st factory_ic s (Ok []) r1 with
      | (Ok lf, _) => Some (li, lf) | _ => None end
    | _ => None end
  | _ => None end.
Definition factory_schema : schema :=
  Schema (scalars ++ [color; filter_input; by_id; ("_Hidden", TInput None [("id", fld (req (ty "ID")))] []); type_kind]) None None None.
Example C80_ex : input_classes_apart ex_stylers factory_schema /\ factories_apart ex_stylers factory_schema ""
  /\ no_helper_enum factory_schema /\ NoDup (dkeys (s_types factory_schema))
  /\ exists li lf, factory_run ex_stylers factory_schema = Some (li, lf) /\ named li = ["Filter"; "ById"] /\ func_names lf = ["filter"; "by_id"].
Proof.
  split; [apply nodupb_NoDup; vm_compute; reflexivity|]. split.
  - split; [apply nodupb_NoDup; vm_compute; reflexivity|]. intros k k' Hk Hk'. vm_compute in Hk, Hk'.
    repeat (destruct Hk as [<-|Hk]; [repeat (destruct Hk' as [<-|Hk']; [vm_compute; discriminate|]); destruct Hk'|]). destruct Hk.
  - split; [|split; [apply nodupb_NoDup; vm_compute; reflexivity|]].
    + intros n d vs H. apply dget_Some_In in H.
      repeat (destruct H as [H|H]; [try discriminate H; injection H as <- <- <-; cbn; intuition discriminate|]). contradiction.
    + eexists _, _. vm_compute. repeat split; reflexivity.
Qed.
Example C80_snake_ex : snake_factories [capitalize_styler; appender_styler default_appender; snake_styler] ex_schema "make_"
  /\ factory_name [capitalize_styler; appender_styler default_appender; snake_styler] "make_" "ByName" = "make_by_name".
Proof.
  split; [|reflexivity]. split.
  - repeat constructor.
  - left. right. right. now left.
  - reflexivity.
  - intros k Hk. vm_compute in Hk. repeat (destruct Hk as [<-|Hk]; [reflexivity|]). destruct Hk.
  - apply nodupb_NoDup. vm_compute. reflexivity.
Qed.
(** The underscore does not help if a type of that name exists: the factory of [Filter] replaces
    the class [Filter_], and the factory of [Filter_] calls the one of [Filter]. *)
Definition shadow_schema : schema :=
  Schema (scalars ++ [by_id; ("ById_", TInput None [("id", fld (req (ty "ID")))] [])]) None None None.
Theorem C80_shadow_refuted : exists s li lf, input_classes_apart [] s /\ factory_run [] s = Some (li, lf)
  /\ In "ById_" (func_names lf) /\ (exists bases body, In (SClass "ById_" bases body []) li)
  /\ exists f, In f lf /\ factory_of [] "" "ById_" f.
Proof.
  exists shadow_schema. eexists _, _. split; [apply nodupb_NoDup; vm_compute; reflexivity|]. split; [vm_compute; reflexivity|].
  split; [vm_compute; now left|]. split; [do 2 eexists; right; left; reflexivity|].
  eexists. split; [right; left; reflexivity|]. eexists _, [_; _; _]. reflexivity.
Qed.
Print Assumptions C80_shadow_refuted.
(** The name of a oneOf input or a union of inputs is bound to a type alias, which is no class;
    its factory calls the alias. *)
Theorem C80_union_refuted : exists s li lf, input_classes_apart ex_stylers s /\ factory_run ex_stylers s = Some (li, lf)
  /\ forall k, In k ["Selector"; "Mixed"; "Shape"] ->
       (exists args, In (SAssign (EName k) (ESub (EName "Annotated") args)) li \/ In (SAssign (EName k) (ESub (EName "Union") args)) li)
       /\ (forall bases body decs, ~ In (SClass k bases body decs) li)
       /\ exists f, In f lf /\ factory_of ex_stylers "" k f.
Proof.
  exists ex_schema. destruct (factory_run ex_stylers ex_schema) as [[li lf]|] eqn:E; [|vm_compute in E; discriminate].
  exists li, lf. split; [apply nodupb_NoDup; vm_compute; reflexivity|]. split; [reflexivity|].
  vm_compute in E. injection E as <- <-. intros k Hk. repeat (destruct Hk as [<-|Hk]); [| | |destruct Hk].
  all: split; [|split].
  1, 4, 7: eexists; first [left; repeat (first [left; reflexivity|right]); fail|right; repeat (first [left; reflexivity|right]); fail].
  1, 3, 5: intros bases body decs H; repeat (destruct H as [H|H]; [discriminate H|]); destruct H.
  - eexists. split; [do 3 right; left; reflexivity|]. apply factory_intro; [reflexivity|discriminate].
  - eexists. split; [do 4 right; left; reflexivity|]. apply factory_intro; [reflexivity|discriminate].
  - eexists. split; [do 5 right; left; reflexivity|]. apply factory_intro; [reflexivity|discriminate].
Qed.
Print Assumptions C80_union_refuted.
