(** C35, C36: merging generated code into an existing file. *)
From Verif Require Import Base Merge Spec_Merge P_Merge.

Definition field (k t : string) : cst := CLine [AnnName k t] "".
Definition line (t : string) : cst := CLine [Small t] "".
(** the existing file: an import, a class with an own method between generated fields, an own
    function, a generated function with an own body *)
Definition ex_old : cmodule :=
  CModule "" [line "import os"; CClass "A" "(BaseModel)" [field "x" "x: int"; CFunc "mine" "(self)" [line "return 1"]; CLine [AnnName "z" "z: str"] "# old"];
              CFunc "helper" "()" [line "return os"]; CFunc "get" "(a: int)" [line "return helper()"]] "".
Definition ex_gen : cmodule :=
  CModule "" [line "from enum import Enum"; CClass "B" "(Enum)" [line "X = 1"]; CClass "A" "(BaseModel)" [field "x" "x: str"; field "y" "y: int"; field "z" "z: float"];
              CFunc "get" "(a: int, b: int)" [line "pass"]; CFunc "list" "()" [line "pass"]] "".
Definition ex_out : cmodule :=
  CModule "" [line "import os"; CClass "B" "(Enum)" [line "X = 1"];
              CClass "A" "(BaseModel)" [field "x" "x: str"; CFunc "mine" "(self)" [line "return 1"]; field "y" "y: int"; CLine [AnnName "z" "z: float"] "# old"];
              CFunc "helper" "()" [line "return os"]; CFunc "get" "(a: int, b: int)" [line "return helper()"]; CFunc "list" "()" [line "pass"]] "".
Example merge_ex : merge_modules ex_old ex_gen = Ok ex_out.
Proof. reflexivity. Qed.
Lemma final_In : forall p l n, final p l n -> In n l.
Proof. intros p l n (pre & post & -> & _). apply in_or_app. right. now left. Qed.
Example same_kinds_ex : same_kinds (m_body ex_old) (m_body ex_gen).
Proof.
  intros k e g He Hg Hk. pose proof (final_In _ _ _ Hg) as Hin. destruct Hg as (_ & _ & _ & Hd & _).
  repeat (destruct He as [<-|He]; [try discriminate Hk; apply String.eqb_eq in Hk; subst k;
    repeat (destruct Hin as [<-|Hin]; [first [exact I|vm_compute in Hd; discriminate Hd]|]); destruct Hin|]). destruct He.
Qed.

(** C35: every statement of the existing module is found again, in order: functions and methods
    with their bodies, classes with all their members; everything else is generated.  Missing:
    the comments around the module, statements of one name that change their kind, several
    statements on the line of a generated field, see the refutations. *)
Theorem C35_merge_partial : forall old gen out,
  merge_modules old gen = Ok out -> same_kinds (m_body old) (m_body gen) ->
  embeds (kept (m_body gen)) (m_body old) (m_body out)
  /\ forall n, In n (m_body out) -> (exists e, In e (m_body old) /\ kept (m_body gen) e n) \/ In n (m_body gen).
Proof. exact C35_kept_lemma. Qed.
Print Assumptions C35_merge_partial.
Example C35_ex : embeds (kept (m_body ex_gen)) (m_body ex_old) (m_body ex_out).
Proof. exact (proj1 (C35_merge_partial _ _ _ merge_ex same_kinds_ex)). Qed.

(** the comment at the top of the file *)
Theorem C35_header_refuted : exists old gen out, merge_modules old gen = Ok out /\ same_kinds (m_body old) (m_body gen)
  /\ m_header old = "# (c) the authors" /\ m_header out = "".
Proof.
  exists (CModule "# (c) the authors" [line "import os"] ""), (CModule "" [CFunc "f" "()" [line "pass"]] ""). eexists. split; [reflexivity|]. split; [|now split].
  intros k e g [<-|[]] _ Hk. discriminate.
Qed.
Print Assumptions C35_header_refuted.
(** a function with the name of a generated class becomes a class with the body of the function *)
Theorem C35_kind_refuted : exists old gen out h b h', merge_modules old gen = Ok out
  /\ m_body old = [CFunc "Item" h b] /\ m_body out = [CClass "Item" h' b].
Proof.
  exists (CModule "" [CFunc "Item" "(x)" [line "return x"]] ""), (CModule "" [CClass "Item" "(BaseModel)" [field "x" "x: int"]] "").
  eexists _, _, _, _. split; [reflexivity|]. split; reflexivity.
Qed.
Print Assumptions C35_kind_refuted.
(** [x: int = 1; y = 2] becomes [x: str] *)
Theorem C35_line_refuted : exists old gen out, merge_modules old gen = Ok out /\ same_kinds (m_body old) (m_body gen)
  /\ m_body old = [CClass "A" "" [CLine [AnnName "x" "x: int = 1"; Small "y = 2"] ""]]
  /\ m_body out = [CClass "A" "" [CLine [AnnName "x" "x: str"] ""]].
Proof.
  exists (CModule "" [CClass "A" "" [CLine [AnnName "x" "x: int = 1"; Small "y = 2"] ""]] ""), (CModule "" [CClass "A" "" [field "x" "x: str"]] "").
  eexists. split; [reflexivity|]. split; [|now split]. intros k e g [<-|[]] Hg Hk. apply final_In in Hg. destruct Hg as [<-|[]]. exact I.
Qed.
Print Assumptions C35_line_refuted.
(** a field and a method of the same name: the merged tree cannot be printed *)
Theorem C35_member_kind_refuted : exists old gen, same_kinds (m_body old) (m_body gen) /\ merge_modules old gen = rraise TypeErrorC "body".
Proof.
  exists (CModule "" [CClass "A" "" [CFunc "x" "(self)" [line "return 1"]]] ""), (CModule "" [CClass "A" "" [field "x" "x: str"]] ""). split; [|reflexivity].
  intros k e g [<-|[]] Hg Hk. apply final_In in Hg. destruct Hg as [<-|[]]. exact I.
Qed.
Print Assumptions C35_member_kind_refuted.

(** C36: every generated class and function is there as often as before, or once; every
    definition of its name has the generated signature and, for classes, all the generated
    fields and methods; merging again changes nothing.  Missing: other statements of the
    generated module, nested classes, bases of classes, see the refutations. *)
Theorem C36_count_partial : forall old gen out, merge_modules old gen = Ok out ->
  forall k, count (defines k) (m_body out) =
            if existsb (defines k) (m_body gen) then Nat.max 1 (count (defines k) (m_body old)) else count (defines k) (m_body old).
Proof. exact C36_count_lemma. Qed.
Print Assumptions C36_count_partial.
Theorem C36_updated_partial : forall old gen out, merge_modules old gen = Ok out -> same_kinds (m_body old) (m_body gen) ->
  forall k g n, final (defines k) (m_body gen) g -> In n (m_body out) -> defines k n = true -> updated (m_body old) g n.
Proof. exact C36_updated_lemma. Qed.
Print Assumptions C36_updated_partial.
Theorem C36_again_partial : forall old gen out, merge_modules old gen = Ok out -> same_kinds (m_body old) (m_body gen) -> unique_members (m_body gen) ->
  merge_modules out gen = Ok out.
Proof. exact C36_again_lemma. Qed.
Print Assumptions C36_again_partial.
Example unique_members_ex : unique_members (m_body ex_gen).
Proof.
  intros c h body k H. repeat (destruct H as [H|H]; [try discriminate H|]); try contradiction.
  - injection H as <- <- <-. cbn. apply Nat.le_0_l.
  - injection H as <- <- <-. unfold count. cbn [filter member annotates field line].
    destruct (String.eqb_spec "x" k) as [<-|]; [vm_compute; constructor|].
    destruct (String.eqb_spec "y" k) as [<-|]; [vm_compute; constructor|].
    destruct (String.eqb_spec "z" k) as [<-|]; vm_compute; repeat constructor.
Qed.
Example C36_ex : merge_modules ex_out ex_gen = Ok ex_out
  /\ count (defines "A") (m_body ex_out) = 1%nat /\ count (defines "list") (m_body ex_out) = 1%nat.
Proof.
  split; [exact (C36_again_partial _ _ _ merge_ex same_kinds_ex unique_members_ex)|].
  split; rewrite (C36_count_partial _ _ _ merge_ex); reflexivity.
Qed.

(** imports and assignments of the generated module are left out *)
Theorem C36_import_refuted : exists old gen out, merge_modules old gen = Ok out /\ same_kinds (m_body old) (m_body gen) /\ unique_members (m_body gen)
  /\ In (line "from enum import Enum") (m_body gen) /\ In (CClass "B" "(Enum)" [line "X = 1"]) (m_body out)
  /\ ~ In (line "from enum import Enum") (m_body out).
Proof.
  exists ex_old, ex_gen, ex_out. split; [exact merge_ex|]. split; [exact same_kinds_ex|]. split; [exact unique_members_ex|].
  split; [now left|]. split; [right; now left|]. cbn. intuition discriminate.
Qed.
Print Assumptions C36_import_refuted.
(** a new base class and a new nested class of an existing class are left out *)
Theorem C36_class_refuted : exists old gen out, merge_modules old gen = Ok out /\ same_kinds (m_body old) (m_body gen) /\ unique_members (m_body gen)
  /\ m_body gen = [CClass "GetA" "(Common, BaseModel)" [CClass "Arguments" "(BaseModel)" [field "x" "x: int"]]]
  /\ m_body out = [CClass "GetA" "(BaseModel)" []].
Proof.
  exists (CModule "" [CClass "GetA" "(BaseModel)" []] ""), (CModule "" [CClass "GetA" "(Common, BaseModel)" [CClass "Arguments" "(BaseModel)" [field "x" "x: int"]]] "").
  eexists. split; [reflexivity|]. split; [intros k e g [<-|[]] Hg Hk; apply final_In in Hg; destruct Hg as [<-|[]]; exact I|].
  split; [|now split]. intros c h body k [[= <- <- <-]|[]]. vm_compute. repeat constructor.
Qed.
Print Assumptions C36_class_refuted.
(** two methods of one name *)
Definition getter : cst := CFunc "x" "@property (self)" [line "return 1"].
Definition setter : cst := CFunc "x" "@x.setter (self, v)" [line "pass"].
Theorem C36_again_refuted : exists old gen out out', merge_modules old gen = Ok out /\ same_kinds (m_body old) (m_body gen)
  /\ merge_modules out gen = Ok out' /\ m_body out = [CClass "A" "" [getter; setter]]
  /\ m_body out' = [CClass "A" "" [CFunc "x" "@x.setter (self, v)" [line "return 1"]; setter]].
Proof.
  exists (CModule "" [] ""), (CModule "" [CClass "A" "" [getter; setter]] ""). eexists _, _. split; [reflexivity|].
  split; [intros k e g []|]. split; [reflexivity|]. split; reflexivity.
Qed.
Print Assumptions C36_again_refuted.
