(** C81 for members of unions of inputs. *)
From Verif Require Import Base PyAst Gql Config Stylers Registry Utils Documents Referencer Enums Inputs Funcs InputFuncs Run PySem
  Spec_Types Spec_Inputs Spec_Refs Spec_Funcs Spec_Classes Spec_Factories Spec_Build P_Base P_Gql P_Monad P_Inputs P_InputProps P_Build2 Ex_Inputs Ex_Funcs Prop_Factories.

(** A call of the factory of a member of a union is a call of its class, as in [C81_builds_partial],
    where the value of the discriminator is an argument like others.
    Full statement: also if a discriminator has the styled name of a field in place of its name in the
    schema (false, [C81_discriminator_refuted]). *)
Theorem C81_members_partial : forall c st s ps1 ps2 t0 r r1 r2 r3 ic fc docs docs' li lf tree t,
  input_classes_apart st s -> Forall (beside_plugin c st s) ps1 -> Forall (beside_plugin c st s) ps2 ->
  run_plugins ps1 (init_reg c) [] = Ok (t0, r) -> inputs_plugin c st ic s docs r = (Ok li, r1) ->
  run_plugins ps2 r1 tree = Ok (t, r2) -> input_funcs_plugin c st fc s docs' r2 = (Ok lf, r3) ->
  no_helper_enum s -> NoDup (dkeys (s_types s)) ->
  exists refd refd', referenced_inputs (skipping c (ic_skip_unreferenced ic)) s docs refd
  /\ referenced_inputs (skipping c (i_skip_unreferenced fc)) s docs' refd'
  /\ forall key x, In (key, x) (schema_inputs s) -> union_member refd x ->
       (forall n y u k, In (n, y) (id_fields x) -> declares refd x u (style_with sty_node st n) k -> style_with sty_node st n = n) ->
       ~ input_skipped (i_skip_underscore fc) refd' key -> NoDup (map fst (id_fields x)) ->
       exists bases body decs args fbody rt fdecs, In (SClass (input_class st key) bases body decs) li
       /\ In (SFunc false (factory_name st (i_prepend fc) key) args fbody rt fdecs) lf
       /\ forall glob subclass call us k pos kws env,
            no_clash (map pa_name (a_args args)) ["data"] [sentinel_name (c_unset_instance c); input_class st key] ->
            glob (sentinel_name (c_unset_instance c)) = Some (PVSing us) -> glob (input_class st key) = Some (PVClass k) ->
            Spec_Funcs.binds glob subclass call args pos kws env ->
            exists sent, run_body glob subclass call fbody env = call (PVClass k) [] sent
            /\ NoDup (map fst sent) /\ takes_keywords (class_fields body) sent
            /\ forall n y w, In (n, y) (id_fields x) ->
                 (In (n, w) sent <-> Spec_Funcs.provided (PVSing us) (passed args pos kws) (nonnullb (if_type y)) (style_with sty_node st n) w).
Proof. exact built_member. Qed.
Print Assumptions C81_members_partial.

(** ** Example: [circle("circle", "3")] is [Circle(kind="circle", radius="3")]; the class has a default for kind *)
Definition member_schema : schema := Schema (scalars ++ [shape; circle]) None None None.
Definition member_func (s : schema) : stmt := match factory_run ex_stylers s with Some (_, [_; f]) => f | _ => SReturn None end.
Definition member_fields (s : schema) : list (string * expr * option expr) :=
  match factory_run ex_stylers s with Some (SClass "Circle" _ b _ :: _, _) => class_fields b | _ => [] end.
Definition circle_glob (n : string) : option pv := match n with "UNSET" => Some (PVSing "UNSET") | "Circle" => Some (PVClass "Circle") | _ => None end.
Example C81_members_ex : let args := f_args (Ok (member_func member_schema)) in let env := [("kind", pstr "circle"); ("radius", pstr "3")] in
  input_classes_apart ex_stylers member_schema /\ no_helper_enum member_schema /\ NoDup (dkeys (s_types member_schema))
  /\ (exists key x, In (key, x) (schema_inputs member_schema) /\ union_member None x
        /\ forall n y u k, In (n, y) (id_fields x) -> declares None x u (style_with sty_node ex_stylers n) k -> style_with sty_node ex_stylers n = n)
  /\ map pa_name (a_args args) = ["kind"; "radius"]
  /\ no_clash (map pa_name (a_args args)) ["data"] ["UNSET"; "Circle"]
  /\ Spec_Funcs.binds circle_glob nosub echo args [pstr "circle"; pstr "3"] [] env
  /\ run_body circle_glob nosub echo (f_body (Ok (member_func member_schema))) env = echo (PVClass "Circle") [] [("kind", pstr "circle"); ("radius", pstr "3")]
  /\ map (fun g => (fst (fst g), wire_name (fst (fst g)) (snd g), may_omit (snd g))) (member_fields member_schema) = [("kind", "kind", true); ("radius", "radius", false)].
Proof.
  cbn zeta. split; [apply nodupb_NoDup; vm_compute; reflexivity|]. split.
  { intros n d vs H. apply dget_Some_In in H. repeat (destruct H as [H|H]; [try discriminate H|]). contradiction. }
  split; [apply nodupb_NoDup; vm_compute; reflexivity|]. split.
  { exists "Circle". eexists. split; [right; left; reflexivity|]. split.
    - exists "Shape", "kind", "circle". split; [|intros l [=]]. eexists. split; [left; reflexivity|]. repeat split.
    - intros n y u k [[= <- _]|[[= <- _]|[]]] _; vm_compute; reflexivity. }
  split; [vm_compute; reflexivity|]. split; [|split; [|split; vm_compute; reflexivity]].
  - split.
    + vm_compute. repeat constructor; cbn; intuition discriminate.
    + intros x Hx Hl. vm_compute in Hx, Hl. decompose [or] Hx; decompose [or] Hl; subst; try contradiction; discriminate.
    + intros x Hx. vm_compute in Hx.
      decompose [or] Hx; subst; try contradiction; repeat split; try discriminate; intros H; vm_compute in H; decompose [or] H; try contradiction; discriminate.
    + vm_compute. intuition discriminate.
  - split; [vm_compute; auto| | |]; vm_compute passed; cbn.
    + repeat constructor; cbn; intuition discriminate.
    + intros x [<-|[<-|[]]]; vm_compute; auto.
    + vm_compute signature. repeat constructor; vm_compute; eauto.
Qed.

(** ** Refutation: the directive names the discriminator as the styler does. The class of the member
    then takes [element_kind], and its factory passes [elementKind], which is no field of the class. *)
Definition styled_member : string * typedef :=
  ("Circle", TInput None [("elementKind", fld (req (ty "String"))); ("radius", fld (req (ty "Int")))] [element_of "Shape" "element_kind" "circle"]).
Theorem C81_discriminator_refuted : exists s li lf bases b decs args fbody rt fdecs env sent,
  input_classes_apart ex_stylers s /\ factory_run ex_stylers s = Some (li, lf)
  /\ In (SClass "Circle" bases b decs) li /\ In (SFunc false "circle" args fbody rt fdecs) lf
  /\ Spec_Funcs.binds circle_glob nosub echo args [pstr "circle"; pstr "3"] [] env
  /\ run_body circle_glob nosub echo fbody env = echo (PVClass "Circle") [] sent
  /\ In ("elementKind", pstr "circle") sent /\ ~ takes_keywords (class_fields b) sent.
Proof.
  exists (Schema (scalars ++ [shape; styled_member]) None None None). do 9 eexists.
  exists [("element_kind", pstr "circle"); ("radius", pstr "3")], [("elementKind", pstr "circle"); ("radius", pstr "3")].
  split; [apply nodupb_NoDup; vm_compute; reflexivity|]. split; [vm_compute; reflexivity|]. split; [left; reflexivity|].
  split; [right; left; reflexivity|]. split; [|split; [vm_compute; reflexivity|split; [now left|]]].
  - split; [vm_compute; auto| | |]; vm_compute passed; cbn.
    + repeat constructor; cbn; intuition discriminate.
    + intros x [<-|[<-|[]]]; vm_compute; auto.
    + vm_compute signature. repeat constructor; vm_compute; eauto.
  - intros (T & _). destruct (T "elementKind" (pstr "circle") (or_introl eq_refl)) as (f & Hf & E).
    vm_compute in Hf. repeat (destruct Hf as [<-|Hf]; [vm_compute in E; discriminate E|]). exact Hf.
Qed.
Print Assumptions C81_discriminator_refuted.
