(** C17: the configuration of the classes each plugin generates. *)
From Verif Require Import Base PyAst Gql Config Stylers Registry Utils Documents Recurse Referencer Enums Inputs Objects Inline Print Fragments Operations Run
  Spec_Config Spec_Types Spec_Inputs Spec_Fields P_Freeze P_Freeze2 Ex_Inputs Ex_Select.

(** C17 for input types: every class the plugin emits stands for an input type, or for one field of a oneOf type,
    and is frozen and given options exactly when the configuration asks for that for this type. *)
Theorem C17_inputs_partial : forall c st pc s documents r body r',
  generate_inputs c st pc s documents r = (Ok body, r') ->
  forall cls bases b decs, In (SClass cls bases b decs) body -> exists key t, In (key, t) (schema_inputs s)
    /\ (cls = style_with sty_input st key
        \/ (is_oneof t /\ exists kv, In kv (id_fields t) /\ cls = style_with sty_input st (key +s+ cap_first (fst kv))))
    /\ configured c KInput (Some key) b.
Proof. exact inputs_configured. Qed.
Print Assumptions C17_inputs_partial.
(** C17 for the classes of object and interface types *)
Theorem C17_objects_partial : forall c st s pc r body r',
  generate_types c st s pc r = (Ok body, r') ->
  forall cls bases b decs, In (SClass cls bases b decs) body -> exists key t, In (key, t) (s_types s)
    /\ (is_object_def t = true \/ is_interface_def t = true) /\ cls = schema_class_name st key t
    /\ configured c KObject (Some key) b.
Proof. exact objects_configured. Qed.
Print Assumptions C17_objects_partial.

Definition freezing (version : string) (kinds : list gqltypes) (ex inc : option (list string)) : gconfig :=
  GConfig version (Some "q.graphql") ["pydantic.BaseModel"] None true false [] [] [] None None true None None
          (FreezeConfig true kinds ex inc true) true default_options false [] [] true [] true true
          "api" "schema.py" false "schema.graphql" false "project.json".
(** does the class [n] of a module have the entry [frozen = True]? *)
Definition class_frozen (n : string) (l : list stmt) : list bool :=
  flat_map (fun x => match x with
                     | SClass m _ b _ => if String.eqb n m then [existsb (fun e => String.eqb (fst e) "frozen") (config_entries b)] else []
                     | _ => []
                     end) l.
Definition stms {A} (x : res (list A) * reg) : list A := match fst x with Ok l => l | _ => [] end.
(** both output styles; ByName is excluded, Mixed is oneOf and has wrapper classes *)
Example C17_inputs_ex : forall v, In v ["v1"; "v2"] ->
  let m := stms (generate_inputs (freezing v [KInput] (Some ["ByName"]) None) ex_stylers ex_plugin ex_schema (Ok []) ex_reg) in
  (class_frozen "ById" m, class_frozen "ByName" m, class_frozen "Filter" m) = ([true], [false], [true])
  /\ class_frozen "MixedFlag" m = [true]
  /\ freeze_applies (freezing v [KInput] (Some ["ByName"]) None) KInput (Some "ById")
  /\ ~ freeze_applies (freezing v [KInput] (Some ["ByName"]) None) KInput (Some "ByName").
Proof.
  intros v Hv. split; [|split; [|split]].
  1,2: destruct Hv as [<-|[<-|[]]]; vm_compute; reflexivity.
  - split; [reflexivity|]. split; [now left|]. split; [|discriminate]. intros l [= <-] m [= <-] [E|[]]. discriminate E.
  - intros (_ & _ & H & _). eapply H; [reflexivity|reflexivity|now left].
Qed.
Example C17_objects_ex :
  let m := stms (generate_types (freezing "v2" [KObject] None (Some ["User"])) sst sx default_objects_config sx_reg) in
  (class_frozen "User" m, class_frozen "Post" m, class_frozen "NodeBase" m) = ([true], [false], [false]).
Proof. vm_compute. reflexivity. Qed.

(** The class of an operation is frozen under no configuration: the kind that is looked up in the configured list is
    graphql-core's OperationType, the list has members of turms' own enum. *)
Theorem C17_operations_never : forall c st s pc po add doc_of o r l r',
  generate_operation c st s pc po add doc_of o r = (Ok l, r') ->
  exists pre cls bases body, l = pre ++ [SClass cls bases body []] /\ config_entries body = [].
Proof. exact operation_unconfigured. Qed.
Print Assumptions C17_operations_never.
Definition get_count : operation := Operation OpQuery (Some "Get") [] [] [plain "count"].
Theorem C17_operations_refuted : exists c o l r', freeze_applies c KQuery (op_name o)
  /\ generate_operation c sst sx sx_pc (fun _ => "query") (fun t => Ok t) (fun _ => None) o sx_reg = (Ok l, r')
  /\ class_frozen "Get" l = [false].
Proof.
  exists (freezing "v2" [KQuery] None None), get_count. eexists _, _. split; [|split; [vm_compute; reflexivity|vm_compute; reflexivity]].
  split; [reflexivity|]. split; [now left|]. split; discriminate.
Qed.
Print Assumptions C17_operations_refuted.
(** The classes of fragments ignore the exclude list and fall under no include list, whether these name the fragment or
    its type. *)
Definition person : fragment := Fragment "Person" "User" [] [plain "id"].
Definition node_part : fragment := Fragment "Part" "Node" [] [plain "id"; on "User" [plain "userName"]].
Definition fragment_run (c : gconfig) (f : fragment) : list stmt :=
  stms (fragments_plugin c sst sx (FrCfg [] [] None true true) (fun _ => "fragment") (fun t => Ok t) [DFrag f] sx_reg).
Theorem C17_fragment_names_refuted :
  (class_frozen "Person" (fragment_run (freezing "v2" [KFragment] (Some ["User"; "Person"]) None) person) = [true]
   /\ ~ freeze_applies (freezing "v2" [KFragment] (Some ["User"; "Person"]) None) KFragment (Some "User")
   /\ ~ freeze_applies (freezing "v2" [KFragment] (Some ["User"; "Person"]) None) KFragment (Some "Person"))
  /\ class_frozen "Person" (fragment_run (freezing "v2" [KFragment] None (Some ["User"; "Person"])) person) = [false]
  /\ freeze_applies (freezing "v2" [KFragment] None (Some ["User"; "Person"])) KFragment (Some "User")
  /\ freeze_applies (freezing "v2" [KFragment] None (Some ["User"; "Person"])) KFragment (Some "Person").
Proof.
  split; [split; [vm_compute; reflexivity|split]|split; [vm_compute; reflexivity|split]].
  - intros (_ & _ & H & _). eapply H; [reflexivity|reflexivity|now left].
  - intros (_ & _ & H & _). eapply H; [reflexivity|reflexivity|right; now left].
  - split; [reflexivity|]. split; [now left|]. split; [discriminate|]. intros l [= <-]. right. eexists. split; [reflexivity|now left].
  - split; [reflexivity|]. split; [now left|]. split; [discriminate|]. intros l [= <-]. right. eexists. split; [reflexivity|right; now left].
Qed.
Print Assumptions C17_fragment_names_refuted.
(** None of the classes of a fragment on an interface is frozen. *)
Theorem C17_interface_fragment_refuted : exists c, (forall n, freeze_applies c KFragment n)
  /\ exists x m, fragment_run c node_part = x :: m
  /\ forall cls b body d, In (SClass cls b body d) (x :: m) -> ~ frozen body.
Proof.
  exists (freezing "v2" [KFragment] None None). split.
  { intros n. split; [reflexivity|]. split; [now left|]. split; discriminate. }
  eexists _, _. split; [vm_compute; reflexivity|]. intros cls b body d Hin Hf.
  cbn in Hin. repeat match type of Hin with _ \/ _ => destruct Hin as [Hin|Hin] | False => contradiction end; try discriminate Hin;
  injection Hin as <- <- <- <-; vm_compute in Hf; intuition discriminate.
Qed.
Print Assumptions C17_interface_fragment_refuted.
