(** C71: traits reach the classes of their type. *)
From Verif Require Import Base PyAst Gql Config Stylers Registry Utils Documents Inline Recurse Fragments Operations Objects Inputs Spec_Inputs Spec_Fields Spec_Mro Spec_Mro2 Spec_Traits
  P_Base P_Gql P_Monad P_Mro P_Traits Ex_Inputs Ex_Select Prop_Mro Prop_Mro2.

(** C71: in the module made of the fragments and the operations, every class made for a type
    ([selects]: its [__typename] has the type as default) inherits from every trait configured
    for the type, however deep the selection.  Conditions: [trait_document], which a valid
    document meets unless a fragment on a union is spread on an object type
    ([C71_union_spread_refuted]) or stands for a type with traits ([C71_union_fragment_refuted]). *)
Theorem C71_selections_partial : forall c st s d pc pf addt oc po doc_of r lf r1 lo r2,
  trait_document s (c_additional_bases c) d -> r_frags r = [] -> r_iffrag r = [] ->
  fragments_plugin c st s pc pf addt d r = (Ok lf, r1) -> operations_plugin c st s oc po addt doc_of d r1 = (Ok lo, r2) ->
  traits_reach (c_additional_bases c) (lf ++ lo).
Proof. exact traits_C71. Qed.
Print Assumptions C71_selections_partial.
(** The class of an object type or interface has the traits first among its bases. *)
Theorem C71_objects : forall c st s pc r l r' key t, generate_types c st s pc r = (Ok l, r') -> In (key, t) (s_types s) -> output_fields t <> None ->
  ~ object_skipped (ob_skip_underscore pc) (ob_skip_double_underscore pc) key ->
  exists bases body, In (SClass (schema_class_name st key t) bases body []) l /\ traits_first (c_additional_bases c) key bases.
Proof. exact objects_traits. Qed.
Print Assumptions C71_objects.
(** So do all classes made for input types. *)
Theorem C71_inputs : forall c st pc s documents r l r', generate_inputs c st pc s documents r = (Ok l, r') -> Forall (input_made (c_additional_bases c) st s) l.
Proof. exact inputs_traits. Qed.
Print Assumptions C71_inputs.

Definition trait_config : gconfig :=
  GConfig "v2" None ["pydantic.BaseModel"] None true false [] [] [] None None true None None
          default_freeze true default_options false [("User", ["myapp.traits.UserTrait"])] [] true [] true true
          "api" "schema.py" false "schema.graphql" false "project.json".
Definition trait_run (d : document) : res (list stmt) * reg :=
  (let* a := fragments_plugin trait_config sst sx sel_fpc (fun _ => "fragment") (fun t => Ok t) d in
   let* b := operations_plugin trait_config sst sx sx_pc (fun _ => "query") (fun t => Ok t) (fun _ => None) d in
   ret (a ++ b)) sx_reg.
Definition trait_op : operation := sx_op []
  [SelField (sub "me" [spread "FragB"; SelField (sub "friends" [plain "userName"; SelField (sub "friends" [spread "FragNode"; plain "id"])])]);
   SelField (sub "hits" [on "User" [plain "userName"]; on "Post" [plain "id"]]); SelField (sub "node" [plain "id"; on "User" [plain "userName"]])].
Definition trait_doc : document := [frag_a; frag_b; frag_node; DOp trait_op].
Ltac spreads_ := let E := fresh "E" in let x := fresh "x" in let Hx := fresh "Hx" in let Hn := fresh "Hn" in
  intros E; first [discriminate E|intros x Hx Hn; in_doc Hx; cbn in Hn; first [left; reflexivity|right; split; [reflexivity|vm_compute; tauto]|exfalso; intuition discriminate]].
Lemma trait_fits : trait_document sx (c_additional_bases trait_config) trait_doc.
Proof.
  split; [repeat constructor; cbn; intuition discriminate|]. split; [|split].
  - intros x Hx m k O. in_doc Hx; each_set O; (split; [spreads_|cbn; intuition discriminate]).
  - intros x u ms i Hx E. in_doc Hx; discriminate E.
  - intros o Ho root m k E O. in_doc Ho. injection E as <-. each_set O; spreads_.
Qed.
(** a class in the operation, two levels deep, has the trait through the class of a fragment on
    the interface; the one above it has the trait itself *)
Example C71_ex : trait_document sx (c_additional_bases trait_config) trait_doc
  /\ exists l r', trait_run trait_doc = (Ok l, r')
  /\ dget "FragB" (bases_of l) = Some [EName "FragA"; EName "UserTrait"; EName "BaseModel"]
  /\ dget "GetMe" (bases_of l) = Some [EName "FragB"; EName "BaseModel"]
  /\ dget "GetMeFriends" (bases_of l) = Some [EName "UserTrait"; EName "BaseModel"]
  /\ dget "GetMeFriendsFriends" (bases_of l) = Some [EName "FragNodeUser"; EName "BaseModel"]
  /\ dget "FragNodeUser" (bases_of l) = Some [EName "FragNodeBase"; EName "UserTrait"; EName "BaseModel"]
  /\ dget "GetUserInlineFragment" (bases_of l) = Some [EName "UserTrait"; EName "BaseModel"]
  /\ selects l "User" "GetMeFriendsFriends".
Proof.
  split; [apply trait_fits|]. do 2 eexists. split; [vm_compute; reflexivity|]. do 6 (split; [vm_compute; reflexivity|]).
  eapply selects_own; [do 9 (try (left; reflexivity); right)|].
  right. left. do 4 eexists. split; [reflexivity|]. cbn. split; tauto.
Qed.

(** a fragment on a union: the classes of its members do not have the traits of the members *)
Theorem C71_union_fragment_refuted : exists d l r', trait_run d = (Ok l, r') /\ In "myapp.traits.UserTrait" (traits (c_additional_bases trait_config) "User")
  /\ selects l "User" "FragHitUser" /\ ~ inherits l "UserTrait" "FragHitUser".
Proof.
  exists [frag_hit]. do 2 eexists. split; [vm_compute; reflexivity|]. split; [now left|]. split.
  - eapply selects_own; [left; reflexivity|]. left. do 4 eexists. split; [reflexivity|]. cbn. split; tauto.
  - apply not_inherits with ["FragHitUser"; "BaseModel"]; [now left|]. intros m bases body decs H Hm. cbn in H.
    repeat (destruct H as [H|H]; [try discriminate H; injection H as <- <- <- <-|]); try contradiction; cbn in *; intuition (try discriminate); try congruence.
Qed.
Print Assumptions C71_union_fragment_refuted.
(** a fragment on a union spread on an object type: the class of the field inherits from the alias
    of the union only (see also [C44_union_base_refuted]) *)
Theorem C71_union_spread_refuted : exists d l r', trait_run d = (Ok l, r')
  /\ selects l "User" "GetMe" /\ dget "GetMe" (bases_of l) = Some [EName "FragHit"; EName "BaseModel"] /\ ~ inherits l "UserTrait" "GetMe".
Proof.
  exists [frag_hit; DOp (sx_op [] [SelField (sub "me" [spread "FragHit"; plain "id"])])]. do 2 eexists. split; [vm_compute; reflexivity|]. split; [|split].
  - eapply selects_own; [do 3 right; left; reflexivity|]. right. left. do 4 eexists. split; [reflexivity|]. cbn. split; tauto.
  - reflexivity.
  - apply not_inherits with ["GetMe"; "FragHit"; "BaseModel"]; [now left|]. intros m bases body decs H Hm. cbn in H.
    repeat (destruct H as [H|H]; [try discriminate H; injection H as <- <- <- <-|]); try contradiction; cbn in *; intuition (try discriminate); try congruence.
Qed.
Print Assumptions C71_union_spread_refuted.
(** Traits do not come first in the classes for implementing types, so attributes of the generated
    base class win over those of the trait. *)
Theorem C71_first_refuted : exists l r' bases body, trait_run trait_doc = (Ok l, r') /\ In (SClass "FragNodeUser" bases body []) l
  /\ Exists (typename_field "User") body /\ hd_error bases = Some (EName "FragNodeBase") /\ In (EName "UserTrait") bases
  /\ ~ traits_first (c_additional_bases trait_config) "User" bases.
Proof.
  do 4 eexists. split; [vm_compute; reflexivity|]. split; [do 9 (try (left; reflexivity); right)|]. split; [|split; [reflexivity|split; [cbn; tauto|]]].
  - right. left. do 4 eexists. split; [reflexivity|]. cbn. split; tauto.
  - intros [rest E]. discriminate E.
Qed.
Print Assumptions C71_first_refuted.

(** the types of the schema *)
Example C71_objects_ex : exists l r', generate_types trait_config sst sx (ObCfg ["pydantic.BaseModel"] false false) sx_reg = (Ok l, r')
  /\ dget "User" (bases_of l) = Some [EName "UserTrait"; EName "NodeBase"; EName "BaseModel"].
Proof. do 2 eexists. split; vm_compute; reflexivity. Qed.
Definition trait_inputs : gconfig :=
  GConfig "v2" None ["pydantic.BaseModel"] None true false [] [] [] None None true None None
          default_freeze true default_options false [("Mixed", ["myapp.MixedTrait"]); ("ById", ["myapp.a.Keyed"; "myapp.b.Named"])] [] true [] true true
          "api" "schema.py" false "schema.graphql" false "project.json".
Example C71_inputs_ex : exists l r', generate_inputs trait_inputs ex_stylers ex_plugin ex_schema (Ok []) ex_reg = (Ok l, r')
  /\ dget "MixedFlag" (bases_of l) = Some [EName "MixedTrait"; EName "BaseModel"] /\ dget "MixedIds" (bases_of l) = Some [EName "MixedTrait"; EName "BaseModel"]
  /\ dget "ById" (bases_of l) = Some [EName "Keyed"; EName "Named"; EName "BaseModel"].
Proof. do 2 eexists. split; [vm_compute; reflexivity|]. repeat split. Qed.
