(** C72: calling a generated function or method looks up no unbound name. *)
From Verif Require Import Base PyAst Gql Config Stylers Registry Utils Documents Recurse Referencer Enums Inputs Inline Print Fragments Operations Objects Funcs InputFuncs Run
  Spec_Types Spec_Imports Spec_Scope Spec_Refs Spec_Funcs Spec_Calls P_Base P_Calls5.

(** C72: in a module made by the plugins for enums, inputs, objects, fragments, operations, functions and factories of inputs, in any
    order and any number, whatever path a call of a function or a method takes, each name it looks up is bound: it is a
    parameter, was assigned before, or is bound in the module or a builtin of Python and not assigned in the function.
    Missing: expanded variables that are not required, functions for operations without the plugin for their classes, and
    names of classes, proxies and sentinels that a function assigns itself; see the refutations. *)
Theorem C72_calls_partial : forall bi c st s d iter ps flag t, incl simple_types bi -> incl used_builtins bi -> set_order iter ->
  Forall (calling_plugin c st s d) ps -> operations_written c st s d ps ->
  generate_ast c iter ps flag = Ok t -> calls_scoped bi t.
Proof. exact module_calls. Qed.
Print Assumptions C72_calls_partial.

(** ** Examples *)
Definition ini (t : gty) : inputfield := InputField t None None None.
Definition call_schema : schema :=
  Schema [("Query", TObject None [] [("user", FieldDef (GNamed "User") [("filter", ArgDef (GNonNull (GNamed "Filter")) None None); ("first", ArgDef (GNamed "Int") None None)] None None [])] []);
          ("Subscription", TObject None [] [("tick", FieldDef (GNamed "Int") [] None None [])] []);
          ("User", TObject None [] [("name", FieldDef (GNamed "String") [] None None [])] []);
          ("Filter", TInput None [("fullName", ini (GNonNull (GNamed "String"))); ("age", ini (GNamed "Int"))] []);
          ("Range", TInput None [("min", ini (GNamed "Int"))] []);
          ("Pick", TInput None [("byFilter", ini (GNamed "Filter")); ("byRange", ini (GNamed "Range"))] [Directive "oneOf" []]);
          ("String", TScalar None); ("Int", TScalar None)] (Some "Query") None (Some "Subscription").
Definition user_field : fieldnode :=
  FieldNode None "user" [("filter", VVar "filter"); ("first", VVar "first")] [] (Some [SelField (FieldNode None "name" [] [] None)]).
Definition tick_field : fieldnode := FieldNode None "tick" [] [] None.
Definition call_doc (sub : string) : document :=
  [DOp (Operation OpQuery (Some "GetUser") [VarDef "filter" (GNonNull (GNamed "Filter")) None []; VarDef "first" (GNamed "Int") None []] [] [SelField user_field]);
   DOp (Operation OpSubscription (Some sub) [] [] [SelField tick_field])].
Definition call_cfg (expand : list string) : fcfg :=
  FCfg "" "a" true [FArg "client" "rath.Rath" "the client"] [FKwarg "timeout" "int" "in seconds" (CInt 5)]
    [FDef OpQuery false [] [] "funcs.execute"; FDef OpQuery true [] [] "funcs.aexecute"; FDef OpSubscription false [] [] "funcs.subscribe"] true expand [] [].
Definition call_ifcfg : ifcfg := IfCfg [] [] true false "make_" true.
Definition call_ocfg : ocfg := OCfg [] [] [] [] true true None.
Definition call_plugins (s : schema) (expand : list string) (d : document) : list plugin :=
  let c := default_config in
  [Plugin "InputsPlugin" (inputs_plugin c [] default_inputs_config s (Ok d)); Plugin "ObjectsPlugin" (generate_types c [] s default_objects_config);
   Plugin "FuncsPlugin" (funcs_plugin c [] s (call_cfg expand) (fun _ => None) d);
   Plugin "OperationsPlugin" (operations_plugin c [] s call_ocfg (fun _ => "query") (fun t => Ok t) (fun _ => None) d);
   Plugin "InputFuncsPlugin" (input_funcs_plugin c [] call_ifcfg s (Ok d))].
Definition call_run (s : schema) (expand : list string) (d : document) : res (list stmt) :=
  generate_ast default_config (fun l => l) (call_plugins s expand d) false.
Definition called (t : list stmt) : list string :=
  map (fun f => match f with SFunc _ n _ _ _ _ => n | _ => "" end) (flat_map functions_of t).
(** expanded variables, sentinels, a loop over the results of a subscription, the serializer of a union of inputs and factories;
    the operations come after the functions *)
Example C72_calls_ex : let ps := call_plugins call_schema ["filter"] (call_doc "Ticks") in
  Forall (calling_plugin default_config [] call_schema (call_doc "Ticks")) ps
  /\ operations_written default_config [] call_schema (call_doc "Ticks") ps
  /\ exists t, call_run call_schema ["filter"] (call_doc "Ticks") = Ok t
     /\ called t = ["__new__"; "__repr__"; "__bool__"; "_serialize_pick"; "get_user"; "aget_user"; "ticks"; "make_Filter"; "make_Range"; "make_Pick"].
Proof.
  split; [|split].
  - repeat apply Forall_cons; try apply Forall_nil; constructor.
    + intros n (a & b & e & H) Z. cbn -[String.eqb style_with] in H. repeat match type of H with (if String.eqb ?x ?k then _ else _) = _ => destruct (String.eqb_spec x k); [subst; vm_compute in Z; intuition discriminate|] end. discriminate.
    + constructor.
      * intros o [[= <-]|[[= <-]|[]]] v Hv He; cbn in Hv, He; [|destruct Hv]. destruct Hv as [<-|[<-|[]]]; cbn in He; [split; [eexists; reflexivity|reflexivity]|]. destruct He as [He|[]]; discriminate.
      * intros o n def g [[= <-]|[[= <-]|[]]] [= <-] Hd Hk Hg; cbn in Hd, Hg |- *;
          (destruct Hd as [<-|[<-|[<-|[]]]]; try discriminate Hk); repeat (destruct Hg as [<-|Hg]; [cbn; intuition discriminate|]); destruct Hg.
  - intros _. do 5 eexists. cbn. do 3 right. left. reflexivity.
  - eexists. split; [vm_compute; reflexivity|]. vm_compute. reflexivity.
Qed.

(** ** Refutations *)
(** a module with a function that looks up the unbound name [n] in some call *)
Definition unscoped (n : string) (x : res (list stmt)) : Prop := exists t, x = Ok t /\ forall bi, ~ In n bi -> ~ calls_scoped bi t.
(** a shortest path *)
Ltac path_tac := repeat first [apply p_nil | apply p_ann | apply p_assign | apply p_store; [discriminate|] | apply p_expr | apply p_return | apply p_raise | apply p_if_not | apply p_for; [apply r_done|]].
Lemma unscoped_by : forall n k t a f args body r decs e, nth_error (flat_map functions_of t) k = Some (SFunc a f args body r decs) -> path body e ->
  (forall G : string -> Prop, (forall x, In x (n :: Spec_Scope.binds t) -> G x -> In x (Spec_Scope.binds t)) ->
     ~ in_order (map pa_name (a_args args) ++ flat_map assigns body) G (map pa_name (a_args args)) e) -> forall bi, ~ In n bi -> ~ calls_scoped bi t.
Proof.
  intros n k t a f args body r decs e HN HP HI bi Hbi H. apply nth_error_In in HN. specialize (H _ HN e HP). eapply HI; [|exact H].
  intros x [<-|Hx] HG; [|exact Hx]. destruct HG; [contradiction|assumption].
Qed.
(** the [k]-th function of the module looks up the unbound name [x] *)
Ltac unscoped_tac k x :=
  eexists; split; [vm_compute; reflexivity|]; eapply (unscoped_by x k);
  [vm_compute; reflexivity|path_tac|
   let G := fresh in let HG := fresh in let Q := fresh in intros G HG Q; specialize (HG x (or_introl eq_refl));
   cbn [app map looks in_order loads opt_loads flat_map fst snd pa_name a_args] in Q;
   repeat match type of Q with _ /\ _ => let Z := fresh in destruct Q as (Z & Q) end;
   match goal with Z : In x _ \/ _ |- _ => let Z' := fresh in destruct Z as [Z|(Z & Z')];
     [apply mem_In in Z; vm_compute in Z; discriminate|first [apply HG, mem_In in Z'; vm_compute in Z'; discriminate|apply Z; apply mem_In; reflexivity]] end].
(** a subscription called "event": the loop variable has the name of its class, [for event in subscribe(event, variables)] *)
Theorem C72_event_refuted : unscoped "event" (call_run call_schema [] (call_doc "event")).
Proof. unscoped_tac 6 "event". Qed.
Print Assumptions C72_event_refuted.
(** an expanded variable with a nullable type: its fields are assigned but are no parameters (C28) *)
Definition list_doc : document :=
  [DOp (Operation OpQuery (Some "GetUser") [VarDef "filter" (GList (GNamed "Filter")) None []] [] [SelField (FieldNode None "user" [] [] (Some [SelField (FieldNode None "name" [] [] None)]))])].
Theorem C72_expanded_refuted : unscoped "fullName" (call_run call_schema ["filter"] list_doc).
Proof. unscoped_tac 4 "fullName". Qed.
Print Assumptions C72_expanded_refuted.
(** an input type called "tags" in a union of inputs: [tags = {tags: "byTags"}] *)
Definition tags_schema : schema :=
  Schema [("tags", TInput None [("min", ini (GNamed "Int"))] []); ("Pick", TInput None [("byTags", ini (GNamed "tags"))] [Directive "oneOf" []]); ("Int", TScalar None)] None None None.
Theorem C72_tags_refuted : unscoped "tags" (generate_ast default_config (fun l => l) [Plugin "InputsPlugin" (inputs_plugin default_config [] default_inputs_config tags_schema (Ok []))] false).
Proof. unscoped_tac 0 "tags". Qed.
Print Assumptions C72_tags_refuted.
(** functions without the classes of the operations *)
Definition no_op_run : res (list stmt) :=
  generate_ast default_config (fun l => l) [Plugin "FuncsPlugin" (funcs_plugin default_config [] call_schema (call_cfg []) (fun _ => None) (tl (call_doc "Ticks")))] false.
Theorem C72_no_operations_refuted : unscoped "Ticks" no_op_run.
Proof. unscoped_tac 0 "Ticks". Qed.
Print Assumptions C72_no_operations_refuted.
