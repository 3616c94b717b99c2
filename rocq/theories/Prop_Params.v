(** C82: the parameters of factories and functions take the values of their fields and variables. *)
From Verif Require Import Base PyAst Gql Config Stylers Registry Utils Documents Referencer Enums Inputs Funcs InputFuncs Run
  Spec_Types Spec_Inputs Spec_Refs Spec_Funcs Spec_Classes Spec_Factories Spec_Annot Spec_Params P_Base P_Gql P_Monad P_Inputs P_InputProps P_Params P_Params2 P_Params3 Ex_Inputs Ex_Funcs Prop_Factories.

(** Every factory has one parameter for each field of its input type, in the order of the fields
    but with those that have a default last; its annotation takes the values of the field, with
    the configured coercions, those of the plugin before those of the project.  The parameters
    with a default, which also take the sentinel, are those of the fields that may be omitted.
    Full statement: without the condition on defaults of the schema (false, [C82_refuted]). *)
Theorem C82_factories_partial : forall c st s ps1 ps2 t0 r r1 r2 r3 ic fc docs docs' li lf tree t,
  Forall (beside_plugin c st s) ps1 -> Forall (beside_plugin c st s) ps2 ->
  run_plugins ps1 (init_reg c) [] = Ok (t0, r) -> inputs_plugin c st ic s docs r = (Ok li, r1) ->
  run_plugins ps2 r1 tree = Ok (t, r2) -> input_funcs_plugin c st fc s docs' r2 = (Ok lf, r3) ->
  no_helper_enum s -> NoDup (dkeys (i_coercible_scalars fc)) -> NoDup (dkeys (i_coercible_inputs fc)) ->
  forall f, In f lf -> exists key x args body, In (key, x) (schema_inputs s)
    /\ f = SFunc false (factory_name st (i_prepend fc) key) args body (Some (EName (input_class st key))) []
    /\ params_of (param_leaf s (r_scalars (init_reg c)) st (coerced (i_coercible_scalars fc) (c_coercible_scalars c)) (coerced (i_coercible_inputs fc) (c_coercible_inputs c)))
         (unset_class (c_unset_type_class c)) st nullable (id_fields x) args
    /\ ((forall k y, In (k, y) (id_fields x) -> if_default y <> None -> nullable y = true) ->
        params_of (param_leaf s (r_scalars (init_reg c)) st (coerced (i_coercible_scalars fc) (c_coercible_scalars c)) (coerced (i_coercible_inputs fc) (c_coercible_inputs c)))
         (unset_class (c_unset_type_class c)) st omittable (id_fields x) args).
Proof. exact run_params. Qed.
Print Assumptions C82_factories_partial.
(** Every variable of an operation that is not expanded has a parameter that takes its values, and
    the sentinel if the variable may be omitted.  [_partial]: entries of the coercions that are
    empty strings count as absent in the code. *)
Theorem C82_variables_partial : forall c st s pc doc_of o d r a n args body rt decs r', names_styled st r ->
  NoDup (dkeys (f_coercible_scalars pc)) -> NoDup (dkeys (f_coercible_inputs pc)) ->
  (forall v, In v (op_vars o) -> named st (gty_name (v_type v)) /\ coerced (f_coercible_scalars pc) (c_coercible_scalars c) (gty_name (v_type v)) <> Some ""
     /\ coerced (f_coercible_inputs pc) (c_coercible_inputs c) (gty_name (v_type v)) <> Some "") ->
  generate_operation_func c st s (merged_config c pc) doc_of o d r = (Ok (SFunc a n args body rt decs), r') ->
  forall v, In v (op_vars o) -> ~ required_var v \/ ~ In (v_name v) (f_expand_input_types pc) ->
  exists p, In p (a_args args)
  /\ variable_param (variable_leaf st r (coerced (f_coercible_scalars pc) (c_coercible_scalars c)) (coerced (f_coercible_inputs pc) (c_coercible_inputs c)))
       (unset_class (c_unset_type_class c)) st v p.
Proof. exact run_variables. Qed.
Print Assumptions C82_variables_partial.

(** Every field of an expanded variable has a parameter that takes its values, and the sentinel if
    the field is nullable.  [_partial]: required variables only, see [C28_refuted]. *)
Theorem C82_expanded_partial : forall c st s pc doc_of o d r a n args body rt decs r', names_styled st r -> no_helper_enum s ->
  NoDup (dkeys (f_coercible_scalars pc)) -> NoDup (dkeys (f_coercible_inputs pc)) ->
  generate_operation_func c st s (merged_config c pc) doc_of o d r = (Ok (SFunc a n args body rt decs), r') ->
  forall v, In v (op_vars o) -> required_var v -> In (v_name v) (f_expand_input_types pc) -> forall k y, In (k, y) (input_fields s (v_type v)) ->
  exists p, In p (a_args args)
  /\ field_param (param_leaf s (r_scalars r) st (coerced (f_coercible_scalars pc) (c_coercible_scalars c)) (coerced (f_coercible_inputs pc) (c_coercible_inputs c)))
       (unset_class (c_unset_type_class c)) st k y p.
Proof. exact run_expanded. Qed.
Print Assumptions C82_expanded_partial.

(** ** Examples *)
(** the plugin overrides the project for [ID]; the input type [ById] may be given as [ByIdLike] *)
Definition params_config : gconfig :=
  GConfig "v2" None ["pydantic.BaseModel"] None true false [] [("ID", "lib.Other"); ("Int", "lib.Number")] [("ById", "lib.ByIdLike")] None None true None None
          default_freeze true default_options false [] [] true [] true true "api" "schema.py" false "schema.graphql" false "project.json".
Definition params_fc : ifcfg := IfCfg [("ID", "lib.Ident")] [] true true "" true.
Definition params_schema : schema :=
  Schema (scalars ++ [by_id; ("Pick", TInput None [("ids", fld (GList (req (ty "ById")))); ("id", fld (req (ty "ID"))); ("count", fld (req (ty "Int")))] [])]) None None None.
Definition params_run : option (list stmt) :=
  match inputs_plugin params_config ex_stylers default_inputs_config params_schema (Ok []) (init_reg params_config) with
  | (Ok _, r1) => match input_funcs_plugin params_config ex_stylers params_fc params_schema (Ok []) r1 with (Ok lf, _) => Some lf | _ => None end
  | _ => None end.
Example C82_ex : exists f1 args body rt decs,
  params_run = Some [f1; SFunc false "pick" args body rt decs] /\ no_helper_enum params_schema
  /\ NoDup (dkeys (i_coercible_scalars params_fc)) /\ NoDup (dkeys (i_coercible_inputs params_fc))
  /\ map (fun a => (pa_name a, pa_ann a)) (a_args args) =
     [("id", Some (EName "Ident")); ("count", Some (EName "Number"));
      ("ids", Some (ESub (EName "Union") (ETuple [ESub (EName "Optional") (ESub (EName "Iterable") (ESub (EName "Union") (ETuple [EName "ById"; EName "ByIdLike"]))); EName "UnsetType"])))]
  /\ a_defaults args = [EName "UNSET"].
Proof.
  do 5 eexists. split; [vm_compute; reflexivity|]. split.
  { intros n d vs H. apply dget_Some_In in H. repeat (destruct H as [H|H]; [try discriminate H|]). contradiction. }
  split; [apply nodupb_NoDup; reflexivity|]. split; [constructor|]. split; vm_compute; reflexivity.
Qed.
(** query GetUser($filter: Filter!, $first: Int), where a filter may be given as [FilterLike] *)
Definition params_pc : fcfg := FCfg "" "a" true [] [] [fx_def OpQuery false "funcs.execute"] true [] [] [("Filter", "lib.FilterLike")].
Example C82_variables_ex : exists a n args body rt decs r',
  generate_operation_func default_config [default_styler] fx_schema (merged_config default_config params_pc) no_doc fx_op (fx_def OpQuery false "funcs.execute") fx_reg
    = (Ok (SFunc a n args body rt decs), r')
  /\ names_styled [default_styler] fx_reg
  /\ (forall v, In v (op_vars fx_op) -> named [default_styler] (gty_name (v_type v))
        /\ coerced (f_coercible_scalars params_pc) (c_coercible_scalars default_config) (gty_name (v_type v)) <> Some ""
        /\ coerced (f_coercible_inputs params_pc) (c_coercible_inputs default_config) (gty_name (v_type v)) <> Some "")
  /\ map (fun a => (pa_name a, pa_ann a)) (a_args args) =
     [("client", Some (EName "Rath")); ("filter", Some (ESub (EName "Union") (ETuple [EName "Filter"; EName "FilterLike"])));
      ("first", Some (ESub (EName "Union") (ETuple [ESub (EName "Optional") (EName "int"); EName "UnsetType"]))); ("timeout", Some (EName "int"))].
Proof.
  do 7 eexists. split; [vm_compute; reflexivity|]. split; [|split; [|vm_compute; reflexivity]].
  - repeat split; intros n c H; cbn in H; try discriminate. destruct (String.eqb n "Filter") eqn:E; [|discriminate]. apply String.eqb_eq in E. subst. injection H as <-. reflexivity.
  - intros v [<-|[<-|[]]]; repeat split; vm_compute; discriminate.
Qed.
(** the same with [filter] expanded and [String] coercible *)
Definition expanded_pc : fcfg := FCfg "" "a" true [] [] [fx_def OpQuery false "funcs.execute"] true ["filter"] [("String", "lib.Text")] [].
Example C82_expanded_ex : exists a n args body rt decs r',
  generate_operation_func default_config [default_styler] fx_schema (merged_config default_config expanded_pc) no_doc fx_op (fx_def OpQuery false "funcs.execute") fx_reg
    = (Ok (SFunc a n args body rt decs), r')
  /\ no_helper_enum fx_schema /\ NoDup (dkeys (f_coercible_scalars expanded_pc))
  /\ map (fun a => (pa_name a, pa_ann a)) (a_args args) =
     [("client", Some (EName "Rath")); ("full_name", Some (EName "Text"));
      ("age", Some (ESub (EName "Union") (ETuple [ESub (EName "Optional") (EName "int"); EName "UnsetType"])));
      ("first", Some (ESub (EName "Union") (ETuple [ESub (EName "Optional") (EName "int"); EName "UnsetType"]))); ("timeout", Some (EName "int"))].
Proof.
  do 7 eexists. split; [vm_compute; reflexivity|]. split.
  { intros n d vs H. apply dget_Some_In in H. repeat (destruct H as [H|H]; [try discriminate H|]). contradiction. }
  split; [apply nodupb_NoDup; reflexivity|vm_compute; reflexivity].
Qed.
(** The schema lets [maxCount: Int! = 10] be omitted, and so does the class; the factory requires it. *)
Theorem C82_refuted : exists s li lf args body rt decs bases cbody cdecs y,
  factory_run ex_stylers s = Some (li, lf) /\ In (SFunc false "filter" args body rt decs) lf
  /\ In ("Filter", TInput None [("name", fld (req (ty "String"))); ("maxCount", y)] []) (s_types s)
  /\ omittable y = true /\ In ("max_count", None) (signature args)
  /\ In (SClass "Filter" bases cbody cdecs) li
  /\ map (fun g => (fst (fst g), may_omit (snd g))) (class_fields cbody) = [("name", false); ("max_count", true)].
Proof.
  exists (Schema (scalars ++ [("Filter", TInput None [("name", fld (req (ty "String"))); ("maxCount", fld_default (req (ty "Int")) (PInt 10))] [])]) None None None).
  do 10 eexists. split; [vm_compute; reflexivity|]. split; [left; reflexivity|]. split; [vm_compute; tauto|]. split; [reflexivity|]. split; [vm_compute; tauto|]. split; [left; reflexivity|]. vm_compute. reflexivity.
Qed.
