(** C74: the Arguments classes can be written as the variable values the operations accept. *)
From Verif Require Import Base PyAst Gql Config Stylers Registry Utils Documents Referencer Enums Inputs Fragments Operations Run
  Spec_Types Spec_Inputs Spec_Refs Spec_Dispatch Spec_Names Spec_Pydantic Spec_Fields Spec_Annot Spec_Classes Spec_Response Spec_Values Spec_Variables P_Base P_InputProps P_Values P_Values2 P_Variables Ex_Inputs Prop_Values.

(** C74.  The module of the enum, input, fragment and operation plugins, and of any other plugins: for every operation there is a class with a
    nested Arguments class, and every mapping of variables to values that the server accepts for the operation can be serialised from an instance of it.
    Only such mappings are serialised from it, if the default values of the variables and of the schema belong to nullable ones and the configuration
    does not ask for undeclared fields.  [py], [sc]: as in C62.  Missing for the full property: the cases of the refutations below
    and of those of C62, unions of input types (C25), variables whose names hide the names of classes in the body of the class. *)
Theorem C74_variable_values_partial : forall c st ec ic fc oc s d pf po add doc_of py sc iter a b e f rest skip t,
  NoDup (dkeys (s_types s)) -> no_helper_enum s -> enum_values_named s -> unique_names d ->
  modelled_inputs s st (ic_skip_underscore ic) (ec_skip_underscore ec) (ec_skip_double_underscore ec) (fun n => exists p, dget n (r_scalars (init_reg c)) = Some p) ->
  generate_ast c iter (Plugin a (enums_plugin c st ec s (Ok d)) :: Plugin b (inputs_plugin c st ic s (Ok d))
    :: Plugin e (fragments_plugin c st s fc pf add d) :: Plugin f (operations_plugin c st s oc po add doc_of d) :: rest) skip = Ok t ->
  (* no two classes have the same name, and none that of an imported class *)
  NoDup (owned t) -> o_create_arguments oc = true ->
  (forall b, configured_base c (ic_bases ic ++ o_arguments_bases oc) b -> ~ In (last_comp b) (owned t) /\ last_comp b <> "Enum") ->
  (* the Python type of a scalar stands for the values of the scalar *)
  (forall n p, dget n (r_scalars (init_reg c)) = Some p -> ~ In (last_comp p) (owned t) /\ (forall v, py (last_comp p) v <-> sc n v) /\ ~ sc n RNull) ->
  forall o name, In o (operations_of d) -> op_name o = Some name ->
  modelled_variables s st (ec_skip_underscore ec) (ec_skip_double_underscore ec) (fun n => exists p, dget n (r_scalars (init_reg c)) = Some p) (op_vars o) ->
  exists bases body abases abody, Spec_Response.class_of t (Spec_Funcs.operation_class st (op_kind o) name) bases body /\ nested body "Arguments" abases abody
    /\ (forall kvs, valid_variables s sc (op_vars o) kvs -> sends t py abases abody kvs)
    /\ (defaults_nullable s -> variable_defaults_nullable (op_vars o) -> (forall m, is_input s m -> ~ extra_allowed c m) ->
         forall kvs, sends t py abases abody kvs -> valid_variables s sc (op_vars o) kvs).
Proof. exact variable_values. Qed.
Print Assumptions C74_variable_values_partial.

(** ** Example: a required input object, a list of enum values, a default, and a variable whose name is a keyword *)
Definition vars_schema : schema := Schema (Ex_Inputs.scalars ++ [color; vals_filter; query_type]) (Some "Query") None None.
Definition vars_op (vs : list vardef) : operation := Operation OpQuery (Some "find") vs [] [SelField (FieldNode None "count" [] [] None)].
Definition find_vars : list vardef :=
  [VarDef "filter" (req (ty "Filter")) None []; VarDef "colors" (GList (req (ty "Color"))) None []; VarDef "maxCount" (ty "Int") (Some (VInt "10")) []; VarDef "from" (req (ty "ID")) None []].
Definition vars_pc : ocfg := OCfg [] [] [] [] true true None.
Definition vars_fc : frcfg := FrCfg [] [] None true true.
Notation vars_run s vs :=
  (generate_ast default_config (fun l => l) [Plugin "e" (enums_plugin default_config ex_stylers ex_enums s (Ok [DOp (vars_op vs)])); Plugin "i" (inputs_plugin default_config ex_stylers ex_plugin s (Ok [DOp (vars_op vs)]));
     Plugin "f" (fragments_plugin default_config ex_stylers s vars_fc (fun _ => "") (fun x => Ok x) [DOp (vars_op vs)]);
     Plugin "o" (operations_plugin default_config ex_stylers s vars_pc (fun _ => "query") (fun x => Ok x) (fun _ => None) [DOp (vars_op vs)])] false).
Definition find_values : list (string * data) := [("from", str "7"); ("filter", filter_value); ("colors", RList [RText "RED"; RText "GREEN"])].
Lemma vars_runs : exists t, vars_run vars_schema find_vars = Ok t /\ owned t = ["GraphQLDefault"; "Color"; "Filter"; "Find"].
Proof. eexists. split; [vm_compute; reflexivity|]. reflexivity. Qed.

Lemma vars_modelled : modelled_inputs vars_schema ex_stylers true false true (fun n => exists p, dget n (r_scalars (init_reg default_config)) = Some p).
Proof.
  split.
  - intros n d fs dirs u dn k G (x & Hx & Hn & _). typed G; injection G as <- <- <- <-; elem Hx; subst x; discriminate Hn.
  - intros n d fs dirs G. typed G; injection G as <- <- <- <-; apply nodupb_NoDup; reflexivity.
  - intros n d fs dirs k f G Hf. typed G; injection G as <- <- <- <-; elem Hf; injection Hf as <- <-; (split; [discriminate|vm_compute; intuition discriminate]).
  - intros n m (d & fs & dirs & G) (d' & fs' & dirs' & G'). typed G; injection G as <- <- <- <-; typed G'; injection G' as <- <- <- <-; vm_compute; congruence.
  - intros n (d & fs & dirs & G). typed G; injection G as <- <- <- <-; vm_compute; intuition discriminate.
  - intros n (d & fs & dirs & G) _. typed G; injection G as <- <- <- <-; reflexivity.
  - intros n (d & vs & G) _. typed G; injection G as <- <- <-. repeat split.
  - intros n (d & G) _. typed G; injection G as <- <-; eexists; reflexivity.
Qed.
Lemma find_modelled : modelled_variables vars_schema ex_stylers false true (fun n => exists p, dget n (r_scalars (init_reg default_config)) = Some p) find_vars.
Proof.
  split.
  - apply nodupb_NoDup. reflexivity.
  - intros v Hv. elem Hv; subst v; (split; [discriminate|vm_compute; intuition discriminate]).
  - intros v Hv. elem Hv; subst v; split; discriminate.
  - intros v Hv. elem Hv; subst v; (eexists; split; [reflexivity|exact I]).
  - intros v Hv (d & G). elem Hv; subst v; try discriminate G; eexists; reflexivity.
  - intros v Hv (d & vs & G). elem Hv; subst v; try discriminate G. split; [reflexivity|]. split; [reflexivity|]. split; [reflexivity|]. split; [intros (p & X); discriminate X|vm_compute; intuition discriminate].
  - intros v Hv (d & fs & dirs & G). elem Hv; subst v; try discriminate G. split; [intros (p & X); discriminate X|vm_compute; intuition discriminate].
Qed.
Lemma vars_nullable : defaults_nullable vars_schema.
Proof. intros n d fs dirs k f G Hf HN. typed G; injection G as <- <- <- <-; elem Hf; injection Hf as <- <-; try (exfalso; apply HN; reflexivity). reflexivity. Qed.
Lemma find_valid : valid_variables vars_schema served find_vars find_values.
Proof.
  split; [apply nodupb_NoDup; reflexivity|]. split; [|split].
  - intros k v Hv. elem Hv; injection Hv as <- <-; [exists (VarDef "from" (req (ty "ID")) None [])|exists (VarDef "filter" (req (ty "Filter")) None [])|exists (VarDef "colors" (GList (req (ty "Color"))) None [])]; (split; [inl|reflexivity]).
  - intros k v x Hv Hx E. elem Hv; injection Hv as <- <-; elem Hx; subst x; try discriminate E; cbn [v_type]; unfold filter_value, str, req, ty; valid.
  - intros x Hx Hn. elem Hx; subst x; first [left; reflexivity|right; discriminate|exfalso; apply Hn; inl].
Qed.
Example C74_ex : NoDup (dkeys (s_types vars_schema)) /\ no_helper_enum vars_schema /\ enum_values_named vars_schema /\ defaults_nullable vars_schema /\ variable_defaults_nullable find_vars
  /\ exists t bases body abases abody, vars_run vars_schema find_vars = Ok t /\ owned t = ["GraphQLDefault"; "Color"; "Filter"; "Find"]
     /\ Spec_Response.class_of t "Find" bases body /\ nested body "Arguments" abases abody
     /\ sends t marked abases abody find_values /\ ~ sends t marked abases abody [("filter", filter_value)]
     /\ ~ sends t marked abases abody [("filter", filter_value); ("from", str "7"); ("from_", str "7")].
Proof.
  assert (A1 : NoDup (dkeys (s_types vars_schema))) by (apply nodupb_NoDup; reflexivity).
  assert (A2 : no_helper_enum vars_schema) by (intros n d vs G; typed G; injection G as <- <- <-; cbn; intuition discriminate).
  assert (A3 : enum_values_named vars_schema) by (intros n d vs k v G Hv; typed G; injection G as <- <- <-; elem Hv; injection Hv as <- <-; reflexivity).
  assert (A4 : variable_defaults_nullable find_vars) by (intros v Hv X; elem Hv; subst v; try (exfalso; apply X; reflexivity); reflexivity).
  split; [exact A1|]. split; [exact A2|]. split; [exact A3|]. split; [exact vars_nullable|]. split; [exact A4|].
  destruct vars_runs as (t & E & O).
  destruct (C74_variable_values_partial default_config ex_stylers ex_enums ex_plugin vars_fc vars_pc vars_schema [DOp (vars_op find_vars)] (fun _ => "") (fun _ => "query") (fun x => Ok x) (fun _ => None)
    marked served (fun l => l) "e" "i" "f" "o" [] false t A1 A2 A3) with (o := vars_op find_vars) (name := "find") as (bases & body & abases & abody & H1 & H2 & H3 & H4).
  - split; repeat constructor; intros [].
  - exact vars_modelled.
  - exact E.
  - rewrite O. apply nodupb_NoDup. reflexivity.
  - reflexivity.
  - rewrite O. intros b Hb. destruct Hb as [Hb|[(l & X & _)|[(m & l & X & _)|Hb]]]; try discriminate X; elem Hb; subst b; (split; [vm_compute; intuition discriminate|discriminate]).
  - rewrite O. intros m p Hp. split; [|split].
    + apply dget_Some_In in Hp. vm_compute in Hp. elem Hp; injection Hp as <- <-; vm_compute; intuition discriminate.
    + intros v. unfold served. split; [intros Hv; eauto|]. intros (p' & Hp' & Hv). rewrite Hp in Hp'. injection Hp' as <-. exact Hv.
    + intros (p' & _ & (x & X)). discriminate X.
  - now left.
  - reflexivity.
  - exact find_modelled.
  - assert (A5 : forall m, is_input vars_schema m -> ~ extra_allowed default_config m) by (intros m _ [[_ H]|(? & ? & _ & _ & H & _)]; discriminate H).
    exists t, bases, body, abases, abody. split; [exact E|]. split; [exact O|]. split; [exact H1|]. split; [exact H2|]. split; [apply H3; exact find_valid|]. clear E. split.
    + intros D. destruct (H4 vars_nullable A4 A5 _ D) as (_ & _ & _ & M). destruct (M (VarDef "from" (req (ty "ID")) None [])) as [X|X]; [inl|intros X; vm_compute in X; destruct X as [X|[]]; discriminate X|discriminate X|apply X; reflexivity].
    + intros D. destruct (H4 vars_nullable A4 A5 _ D) as (_ & K & _). destruct (K "from_" (str "7")) as (x & Hx & X); [cbn; tauto|]. elem Hx; subst x; discriminate X.
Qed.

(** ** What is missing *)
(** a variable that is not nullable but has a default value can be set to [None]: [$size: Int! = 3] *)
Definition size_vars : list vardef := [VarDef "size" (req (ty "Int")) (Some (VInt "3")) []].
Theorem C74_default_refuted : exists t bases body abases abody, vars_run vars_schema size_vars = Ok t /\ NoDup (owned t)
  /\ Spec_Response.class_of t "Find" bases body /\ nested body "Arguments" abases abody
  /\ sends t marked abases abody [("size", RNull)] /\ ~ valid_variables vars_schema served size_vars [("size", RNull)].
Proof.
  do 5 eexists. split; [vm_compute; reflexivity|]. split; [apply nodupb_NoDup; reflexivity|]. split; [eexists; inl|].
  split; [eexists [_; _], [], _; split; [reflexivity|vm_compute; intuition discriminate]|]. split.
  - split; [|split; [apply nodupb_NoDup; reflexivity|split]].
    + intros n a v Hf. elem Hf. injection Hf as <- <- <-. split; [cbn; intuition discriminate|]. intros X. discriminate X.
    + intros k v Hv. elem Hv. injection Hv as <- <-. left. do 3 eexists. split; [apply (nf_own _ _ _ "size"); [reflexivity|discriminate]|]. split; [reflexivity|].
      apply (Holds _ _ _ JNull); [cbn; tauto|constructor].
    + intros n a val Hf Hn. inversion Hf as [n' f HL _|b f Hb _ HF]; subst.
      * apply last_field_inv in HL. elem HL. injection HL as <- <- <-. reflexivity.
      * elem Hb. injection Hb as <-. inversion HF as [? ? ? ? ? (decs & HC)|? ? ? ? ? (decs & HC)]; elem HC.
  - intros (_ & _ & V & _). specialize (V "size" RNull _ (or_introl eq_refl) (or_introl eq_refl) eq_refl). inversion V; subst; [discriminate|congruence].
Qed.
Print Assumptions C74_default_refuted.
