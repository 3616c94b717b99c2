(** C11: names of the classes for nested selections. *)
From Verif Require Import Base PyAst Gql Config Stylers Registry Utils Documents Inline Recurse Fragments Operations
  Spec_Types Spec_Fields Spec_Selection Spec_Paths P_Base P_Paths Ex_Select.

(** C11.  The classes of one operation, or of one fragment on an object type, have pairwise
    different names if every selection set below keeps its response keys [apart].  Missing for
    the full property: keys that differ only in case, start with an underscore or are "base",
    and inline fragments on unions; see the refutations. *)
Theorem C11_operation_partial : forall c st s pc po add doc_of o r l r' root,
  NoDup (dkeys (s_types s)) -> composite s "String" = false -> root_type s (op_kind o) = Some root ->
  all_apart s (c_create_catchall c) root (op_sels o) ->
  generate_operation c st s pc po add doc_of o r = (Ok l, r') -> NoDup (defined l).
Proof. exact operation_C11. Qed.
Print Assumptions C11_operation_partial.
Theorem C11_fragment_partial : forall c st s pc pf add f cls d r l r', NoDup (dkeys (s_types s)) ->
  all_apart s (c_create_catchall c) (fr_on f) (fr_sels f) ->
  object_fragment c st s pc pf add f cls d r = (Ok l, r') -> NoDup (defined l).
Proof. exact object_fragment_C11. Qed.
Print Assumptions C11_fragment_partial.

Definition alias (a n : string) (l : list selection) : selection := SelField (FieldNode (Some a) n [] [] (Some l)).
Definition c11_sels : list selection :=
  [SelField (sub "me" [plain "id"; SelField (sub "friends" [plain "id"; alias "me" "friends" [plain "id"]])]);
   alias "mefriends" "me" [plain "id"];
   SelField (sub "node" [plain "id"; on "User" [SelField (sub "friends" [plain "id"])]; on "Post" [SelField (sub "author" [plain "id"])]])].
Ltac apart_tac := constructor; [apply nodupb_NoDup; reflexivity
  |cbn; intros ? ? H; repeat (destruct H as [H|H]; [injection H as <- <-; split; [reflexivity|discriminate]|]); contradiction
  |intros ? ? H; discriminate
  |intros ? ? ? H; try discriminate; vm_compute; intros ? Ht; repeat (destruct Ht as [<-|Ht]; [split; [reflexivity|discriminate]|]); contradiction].
Lemma c11_apart : all_apart sx true "Query" c11_sels.
Proof.
  intros m u H. inversion H as [|? ? ? ? ? ? Hi HR]; subst; clear H; [apart_tac|]. vm_compute in Hi.
  repeat (destruct Hi as [Hi|Hi];
    [injection Hi as <- <-; inversion HR as [|? ? ? ? ? ? Hi HR2]; subst; clear HR; [apart_tac|]; vm_compute in Hi;
     repeat (destruct Hi as [Hi|Hi];
       [injection Hi as <- <-; inversion HR2 as [|? ? ? ? ? ? Hi HR3]; subst; clear HR2; [apart_tac|]; vm_compute in Hi;
        repeat (destruct Hi as [Hi|Hi];
          [injection Hi as <- <-; inversion HR3 as [|? ? ? ? ? ? Hi HR4]; subst; clear HR3; [apart_tac|]; vm_compute in Hi; contradiction|]);
        contradiction|]);
     contradiction|]).
  contradiction.
Qed.
Example C11_ex : NoDup (dkeys (s_types sx)) /\ composite sx "String" = false /\ root_type sx OpQuery = Some "Query"
  /\ all_apart sx (c_create_catchall default_config) "Query" c11_sels
  /\ exists l r', sx_generate (sx_op [] c11_sels) = (Ok l, r')
     /\ defined l = ["GetMeFriendsMe"; "GetMeFriends"; "GetMe"; "GetMefriends"; "GetNodeFriends";
          "GetNodeAuthorBase"; "GetNodeAuthorBaseUser"; "GetNodeAuthorBasePost"; "GetNodeAuthorBaseCatchAll";
          "GetNodeBase"; "GetNodeBaseUser"; "GetNodeBasePost"; "GetNodeBaseCatchAll"; "Get"].
Proof.
  split; [apply nodupb_NoDup; reflexivity|]. split; [reflexivity|]. split; [reflexivity|]. split; [exact c11_apart|].
  eexists _, _. split; [vm_compute; reflexivity|]. reflexivity.
Qed.

(** [str.capitalize] lowers the rest of the key: keys that differ only in case get one class *)
Theorem C11_case_refuted : exists o l r', sx_generate o = (Ok l, r')
  /\ op_sels o = [alias "userId" "me" [plain "id"]; alias "userid" "me" [plain "userName"]]
  /\ defined l = ["GetUserid"; "GetUserid"; "Get"].
Proof. exists (sx_op [] [alias "userId" "me" [plain "id"]; alias "userid" "me" [plain "userName"]]). eexists _, _. split; [vm_compute; reflexivity|]. split; reflexivity. Qed.
Print Assumptions C11_case_refuted.
(** concatenation is ambiguous for keys that start with an underscore *)
Theorem C11_concat_refuted : exists o l r', sx_generate o = (Ok l, r')
  /\ op_sels o = [alias "a" "me" [alias "_b" "friends" [plain "id"]]; alias "a_b" "me" [plain "userName"]]
  /\ defined l = ["GetA_b"; "GetA"; "GetA_b"; "Get"].
Proof.
  exists (sx_op [] [alias "a" "me" [alias "_b" "friends" [plain "id"]]; alias "a_b" "me" [plain "userName"]]).
  eexists _, _. split; [vm_compute; reflexivity|]. split; reflexivity.
Qed.
Print Assumptions C11_concat_refuted.
(** the class of an inline fragment on a union does not mention the field *)
Theorem C11_union_refuted : exists o l r', sx_generate o = (Ok l, r')
  /\ op_sels o = [SelField (sub "hit" [on "User" [plain "id"]]); SelField (sub "hits" [on "User" [plain "userName"]])]
  /\ defined l = ["GetUserInlineFragment"; "GetUserInlineFragment"; "Get"].
Proof.
  exists (sx_op [] [SelField (sub "hit" [on "User" [plain "id"]]); SelField (sub "hits" [on "User" [plain "userName"]])]).
  eexists _, _. split; [vm_compute; reflexivity|]. split; reflexivity.
Qed.
Print Assumptions C11_union_refuted.
(** a key "base" under an interface takes the name of the interface's own class *)
Theorem C11_base_refuted : exists o l r' pre mid post, sx_generate o = (Ok l, r')
  /\ op_sels o = [SelField (sub "node" [on "User" [alias "base" "friends" [plain "id"]]])]
  /\ defined l = pre ++ "GetNodeBase" :: mid ++ "GetNodeBase" :: post.
Proof.
  exists (sx_op [] [SelField (sub "node" [on "User" [alias "base" "friends" [plain "id"]]])]).
  eexists _, _, [], [], ["GetNodeBaseUser"; "GetNodeBasePost"; "GetNodeBaseCatchAll"; "Get"]. split; [vm_compute; reflexivity|]. split; reflexivity.
Qed.
Print Assumptions C11_base_refuted.
