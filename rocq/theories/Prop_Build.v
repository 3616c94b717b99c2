(** C81: factories pass their classes what the classes take. *)
From Verif Require Import Base PyAst Gql Config Stylers Registry Utils Documents Referencer Enums Inputs Funcs InputFuncs Run PySem
  Spec_Types Spec_Inputs Spec_Refs Spec_Funcs Spec_Classes Spec_Factories Spec_Build P_Base P_Gql P_Monad P_Inputs P_InputProps P_Build Ex_Inputs Ex_Funcs Prop_Factories.

(** For every input type that becomes a class and is skipped by neither plugin, a call of its
    factory is a call of its class with the arguments that were given, under the names the class
    expects, and with none missing that the class requires.
    Full statement: without [no_clash] (false, [C30_refuted]), and for oneOf inputs and unions (false, [C80_union_refuted]). *)
Theorem C81_builds_partial : forall c st s ps1 ps2 t0 r r1 r2 r3 ic fc docs docs' li lf tree t,
  input_classes_apart st s -> Forall (beside_plugin c st s) ps1 -> Forall (beside_plugin c st s) ps2 ->
  run_plugins ps1 (init_reg c) [] = Ok (t0, r) -> inputs_plugin c st ic s docs r = (Ok li, r1) ->
  run_plugins ps2 r1 tree = Ok (t, r2) -> input_funcs_plugin c st fc s docs' r2 = (Ok lf, r3) ->
  no_helper_enum s -> NoDup (dkeys (s_types s)) ->
  exists refd refd', referenced_inputs (skipping c (ic_skip_unreferenced ic)) s docs refd
  /\ referenced_inputs (skipping c (i_skip_unreferenced fc)) s docs' refd'
  /\ forall key x, In (key, x) (schema_inputs s) -> ~ union_member refd x -> ~ is_oneof x -> ~ union_target refd s key ->
       ~ input_skipped (ic_skip_underscore ic) refd key -> ~ input_skipped (i_skip_underscore fc) refd' key -> NoDup (map fst (id_fields x)) ->
       exists bases body decs args fbody rt fdecs, In (SClass (input_class st key) bases body decs) li
       /\ In (SFunc false (factory_name st (i_prepend fc) key) args fbody rt fdecs) lf
       /\ forall glob subclass call us k pos kws env,
            no_clash (map pa_name (a_args args)) ["data"] [sentinel_name (c_unset_instance c); input_class st key] ->
            glob (sentinel_name (c_unset_instance c)) = Some (PVSing us) -> glob (input_class st key) = Some (PVClass k) ->
            Spec_Funcs.binds glob subclass call args pos kws env ->
            exists sent, run_body glob subclass call fbody env = call (PVClass k) [] sent
            /\ NoDup (map fst sent) /\ takes_keywords (class_fields body) sent
            /\ forall n y w, In (n, y) (id_fields x) ->
                 (In (n, w) sent <-> Spec_Funcs.provided (PVSing us) (passed args pos kws) (nonnullb (if_type y)) (style_with sty_node st n) w).
Proof. exact built. Qed.
Print Assumptions C81_builds_partial.

(** ** Example: [filter("Ann")] is [Filter(fullName="Ann")]; the class has the fields [full_name], with an alias, and [age] *)
Definition build_schema : schema :=
  Schema (scalars ++ [("Filter", TInput None [("fullName", fld (req (ty "String"))); ("age", fld (ty "Int"))] [])]) None None None.
Definition build_func : stmt := match factory_run ex_stylers build_schema with Some (_, [f]) => f | _ => SReturn None end.
Definition build_fields : list (string * expr * option expr) :=
  match factory_run ex_stylers build_schema with Some ([SClass _ _ b _], _) => class_fields b | _ => [] end.
Example C81_ex : let args := f_args (Ok build_func) in let env := [("full_name", pstr "Ann"); ("age", PVSing "UNSET")] in
  input_classes_apart ex_stylers build_schema /\ no_helper_enum build_schema /\ NoDup (dkeys (s_types build_schema))
  /\ map pa_name (a_args args) = ["full_name"; "age"]
  /\ no_clash (map pa_name (a_args args)) ["data"] ["UNSET"; "Filter"]
  /\ Spec_Funcs.binds fx_glob nosub echo args [pstr "Ann"] [] env
  /\ run_body fx_glob nosub echo (f_body (Ok build_func)) env = echo (PVClass "Filter") [] [("fullName", pstr "Ann")]
  /\ map (fun g => (fst (fst g), wire_name (fst (fst g)) (snd g), may_omit (snd g))) build_fields = [("full_name", "fullName", false); ("age", "age", true)].
Proof.
  cbn zeta. split; [apply nodupb_NoDup; vm_compute; reflexivity|]. split.
  { intros n d vs H. apply dget_Some_In in H. repeat (destruct H as [H|H]; [try discriminate H|]). contradiction. }
  split; [apply nodupb_NoDup; vm_compute; reflexivity|]. split; [vm_compute; reflexivity|]. split; [|split; [|split; vm_compute; reflexivity]].
  - split.
    + vm_compute. repeat constructor; cbn; intuition discriminate.
    + intros x Hx Hl. vm_compute in Hx, Hl. decompose [or] Hx; decompose [or] Hl; subst; try contradiction; discriminate.
    + intros x Hx. vm_compute in Hx.
      decompose [or] Hx; subst; try contradiction; repeat split; try discriminate; intros H; vm_compute in H; decompose [or] H; try contradiction; discriminate.
    + vm_compute. intuition discriminate.
  - split; [vm_compute; auto| | |]; vm_compute passed; cbn.
    + repeat constructor; cbn; intuition discriminate.
    + intros x [<-|[]]; vm_compute; auto.
    + vm_compute signature. repeat constructor; vm_compute; eauto.
Qed.
