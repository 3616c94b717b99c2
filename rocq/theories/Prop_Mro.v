(** C44: class hierarchies. *)
From Verif Require Import Base PyAst Gql Config Stylers Registry Utils Documents Inline Recurse Fragments Operations Objects Strawberry Spec_Mro P_Base P_Monad P_Mro P_Mro2 Ex_Select.

(** C44: Python can create the generated classes, in order.  For object types and interfaces:
    proved when every interface has at most one direct parent ([interface_forest]; object types may
    implement any number of interfaces) and no two classes have one name (see C10).  Missing:
    interfaces with several parents, see [C44_diamond_refuted]. *)
Theorem C44_objects_partial : forall c st s sc pc r l r', valid_interfaces s -> interface_forest s -> bases_fit c s sc (base_names (ob_bases pc)) -> r_iface_base r = [] ->
  Objects.generate_types c st s pc r = (Ok l, r') -> NoDup (class_names l) -> new_in sc l -> constructible sc l.
Proof. exact objects_C44. Qed.
Print Assumptions C44_objects_partial.
(** the types of the server scaffold *)
Theorem C44_scaffold_partial : forall c st s sc ap pc r l r', valid_interfaces s -> interface_forest s -> bases_fit c s sc [] -> r_iface_base r = [] ->
  Strawberry.generate_types c st s ap pc r = (Ok l, r') -> NoDup (class_names l) -> new_in sc l -> constructible sc l.
Proof. exact scaffold_C44. Qed.
Print Assumptions C44_scaffold_partial.

Definition builtin_scope : scope := [("BaseModel", ["BaseModel"]); ("Mixin", ["Mixin"; "Traits"]); ("Traits", ["Traits"])].
Definition oid : list (string * fielddef) := [("id", out (GNamed "ID"))].
(** interface Entity implements Node, type User implements Entity & Named & Node *)
Definition mro_schema : schema := Schema
  [("Node", TInterface None [] oid); ("Named", TInterface None [] oid); ("Entity", TInterface None ["Node"] oid);
   ("User", TObject None ["Node"; "Named"; "Entity"] oid []); ("ID", TScalar None)] None None None.
Definition mro_cfg : gconfig :=
  GConfig "v2" None ["pydantic.BaseModel"] None true false [] [] [] None None true None None
          default_freeze true default_options false [("User", ["traits.Mixin"])] [] true [] true true
          "api" "schema.py" false "schema.graphql" false "project.json".
Definition ob_run (s : schema) : res (list stmt) * reg := Objects.generate_types default_config sst s default_objects_config (init_reg default_config).
Definition bases_of (l : list stmt) : list (string * list expr) := flat_map (fun m => match m with SClass n b _ _ => [(n, b)] | _ => [] end) l.
Lemma mro_valid : valid_interfaces mro_schema /\ interface_forest mro_schema.
Proof.
  split; [split; [|split; [|split]]|].
  - intros k t i ti j H Hi Ht Hj. cbn in H. repeat (destruct H as [H|H]; [injection H as <- <-; cbn in Hi; repeat (destruct Hi as [<-|Hi]; [cbn in Ht; injection Ht as <-; cbn in Hj; cbn; tauto|]); contradiction|]). contradiction.
  - repeat constructor; cbn; intuition discriminate.
  - intros i d is fs H I. cbn in H. repeat (destruct H as [H|H]; [try discriminate H; injection H as <- <- <- <-; cbn in I; intuition discriminate|]). contradiction.
  - intros k d is fs ds H. cbn in H. repeat (destruct H as [H|H]; [try discriminate H; injection H as <- <- <- <- <-; repeat constructor; cbn; intuition discriminate|]). contradiction.
  - intros i d is fs H. cbn in H. repeat (destruct H as [H|H]; [try discriminate H; injection H as <- <- <- <-; cbn; auto|]). contradiction.
Qed.
Example C44_objects_ex : exists l r', Objects.generate_types mro_cfg sst mro_schema default_objects_config (init_reg mro_cfg) = (Ok l, r')
  /\ valid_interfaces mro_schema /\ interface_forest mro_schema /\ bases_fit mro_cfg mro_schema builtin_scope (base_names (ob_bases default_objects_config))
  /\ NoDup (class_names l) /\ new_in builtin_scope l
  /\ dget "User" (bases_of l) = Some [EName "Mixin"; EName "NamedBase"; EName "EntityBase"; EName "BaseModel"].
Proof.
  do 2 eexists. split; [vm_compute; reflexivity|]. split; [apply mro_valid|]. split; [apply mro_valid|]. split; [|split; [|split]].
  - split.
    + intros i d is fs H. cbn in H. repeat (destruct H as [H|H]; [try discriminate H; injection H as <- <- <- <-; reflexivity|]). contradiction.
    + eexists. split; [vm_compute; reflexivity|]. intros k d is fs ds H. cbn in H. repeat (destruct H as [H|H]; [try discriminate H; injection H as <- <- <- <- <-|]); [|contradiction].
      do 3 eexists. split; [vm_compute; reflexivity|]. split; [vm_compute; reflexivity|]. vm_compute. reflexivity.
  - repeat constructor; cbn; intuition discriminate.
  - intros n H. split; [cbn in H; cbn; intuition (subst; discriminate)|]. intros k o K. cbn in K. cbn in H. intuition (try match goal with E : _ = (_, _) |- _ => injection E as <- <- end; subst; cbn in *; intuition discriminate).
  - vm_compute. reflexivity.
Qed.
Example C44_scaffold_ex : exists l r', Strawberry.generate_types default_config sst mro_schema (fun _ => []) default_strawberry_config (init_reg default_config) = (Ok l, r')
  /\ dget "User" (bases_of l) = Some [EName "Named"; EName "Entity"] /\ constructible [] l.
Proof. do 2 eexists. split; [vm_compute; reflexivity|]. split; [reflexivity|]. vm_compute. discriminate. Qed.

(** interface Y1 implements A & B, interface Y2 implements B & A, type Z implements Y1 & Y2 & A & B *)
Definition diamond : schema := Schema
  [("A", TInterface None [] oid); ("B", TInterface None [] oid); ("Y1", TInterface None ["A"; "B"] oid); ("Y2", TInterface None ["B"; "A"] oid);
   ("Z", TObject None ["Y1"; "Y2"; "A"; "B"] oid []); ("ID", TScalar None)] None None None.
Theorem C44_diamond_refuted : exists s l r', valid_interfaces s /\ ob_run s = (Ok l, r') /\ NoDup (class_names l) /\ new_in builtin_scope l
  /\ dget "Z" (bases_of l) = Some [EName "Y1Base"; EName "Y2Base"; EName "BaseModel"] /\ ~ constructible builtin_scope l.
Proof.
  exists diamond. do 2 eexists. split; [|split; [vm_compute; reflexivity|split; [|split; [|split]]]].
  - split; [|split; [|split]].
    + intros k t i ti j H Hi Ht Hj. cbn in H. repeat (destruct H as [H|H]; [injection H as <- <-; cbn in Hi; repeat (destruct Hi as [<-|Hi]; [cbn in Ht; injection Ht as <-; cbn in Hj; cbn; tauto|]); contradiction|]). contradiction.
    + repeat constructor; cbn; intuition discriminate.
    + intros i d is fs H I. cbn in H. repeat (destruct H as [H|H]; [try discriminate H; injection H as <- <- <- <-; cbn in I; intuition discriminate|]). contradiction.
    + intros k d is fs ds H. cbn in H. repeat (destruct H as [H|H]; [try discriminate H; injection H as <- <- <- <- <-; repeat constructor; cbn; intuition discriminate|]). contradiction.
  - repeat constructor; cbn; intuition discriminate.
  - intros n H. split; [cbn in H; cbn; intuition (subst; discriminate)|]. intros k o K. cbn in K. cbn in H. intuition (try match goal with E : _ = (_, _) |- _ => injection E as <- <- end; subst; cbn in *; intuition discriminate).
  - vm_compute. reflexivity.
  - intros H. apply H. vm_compute. reflexivity.
Qed.
Print Assumptions C44_diamond_refuted.

(** ** Fragments and selections: refuted.  The whole module: fragments, then operations. *)
Definition spread (f : string) : selection := SelSpread f [].
Definition sel_fpc : frcfg := FrCfg [] [] None true false.
Definition sel_run (d : document) : res (list stmt) * reg :=
  (let* a := fragments_plugin default_config sst sx sel_fpc (fun _ => "fragment") (fun t => Ok t) d in
   let* b := operations_plugin default_config sst sx sx_pc (fun _ => "query") (fun t => Ok t) (fun _ => None) d in
   ret (a ++ b)) sx_reg.
Definition frag_a : definition := DFrag (Fragment "FragA" "User" [] [plain "id"]).
Definition frag_b : definition := DFrag (Fragment "FragB" "User" [] [spread "FragA"; plain "userName"]).
Definition frag_hit : definition := DFrag (Fragment "FragHit" "Hit" [] [on "User" [plain "id"]; on "Post" [plain "id"]]).
(** a fragment spread before one that contains it *)
Theorem C44_spread_order_refuted : exists d l r', sel_run d = (Ok l, r') /\ NoDup (class_names l) /\ new_in builtin_scope l
  /\ dget "GetMe" (bases_of l) = Some [EName "FragA"; EName "FragB"; EName "BaseModel"] /\ ~ constructible builtin_scope l.
Proof.
  exists [frag_a; frag_b; DOp (sx_op [] [SelField (sub "me" [spread "FragA"; spread "FragB"])])]. do 2 eexists. split; [vm_compute; reflexivity|]. split; [|split; [|split]].
  - repeat constructor; cbn; intuition discriminate.
  - intros n H. split; [cbn in H; cbn; intuition (subst; discriminate)|]. intros k o K. cbn in K. cbn in H. intuition (try match goal with E : _ = (_, _) |- _ => injection E as <- <- end; subst; cbn in *; intuition discriminate).
  - vm_compute. reflexivity.
  - intros H. apply H. vm_compute. reflexivity.
Qed.
Print Assumptions C44_spread_order_refuted.
(** one fragment spread twice *)
Theorem C44_spread_twice_refuted : exists d l r', sel_run d = (Ok l, r') /\ NoDup (class_names l) /\ new_in builtin_scope l
  /\ dget "GetMe" (bases_of l) = Some [EName "FragA"; EName "FragA"; EName "BaseModel"] /\ ~ constructible builtin_scope l.
Proof.
  exists [frag_a; DOp (sx_op [] [SelField (sub "me" [spread "FragA"; spread "FragA"])])]. do 2 eexists. split; [vm_compute; reflexivity|]. split; [|split; [|split]].
  - repeat constructor; cbn; intuition discriminate.
  - intros n H. split; [cbn in H; cbn; intuition (subst; discriminate)|]. intros k o K. cbn in K. cbn in H. intuition (try match goal with E : _ = (_, _) |- _ => injection E as <- <- end; subst; cbn in *; intuition discriminate).
  - vm_compute. reflexivity.
  - intros H. apply H. vm_compute. reflexivity.
Qed.
Print Assumptions C44_spread_twice_refuted.
(** a fragment on a union spread on one of its members: the base is an alias of a Union *)
Theorem C44_union_base_refuted : exists d l r', sel_run d = (Ok l, r') /\ NoDup (class_names l) /\ new_in builtin_scope l
  /\ dget "GetMe" (bases_of l) = Some [EName "FragHit"; EName "BaseModel"]
  /\ In (SAssign (EName "FragHit") (union_of [EName "FragHitUser"; EName "FragHitPost"])) l /\ ~ constructible builtin_scope l.
Proof.
  exists [frag_hit; DOp (sx_op [] [SelField (sub "me" [plain "userName"; spread "FragHit"])])]. do 2 eexists. split; [vm_compute; reflexivity|]. split; [|split; [|split; [|split]]].
  - repeat constructor; cbn; intuition discriminate.
  - intros n H. split; [cbn in H; cbn; intuition (subst; discriminate)|]. intros k o K. cbn in K. cbn in H. intuition (try match goal with E : _ = (_, _) |- _ => injection E as <- <- end; subst; cbn in *; intuition discriminate).
  - vm_compute. reflexivity.
  - cbn. tauto.
  - intros H. apply H. vm_compute. reflexivity.
Qed.
Print Assumptions C44_union_base_refuted.
