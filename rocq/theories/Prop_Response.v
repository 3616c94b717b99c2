(** C61: the generated classes take every response a server may send. *)
From Verif Require Import Base PyAst Gql Config Stylers Registry Utils Documents Recurse Referencer Enums Inputs Inline Print Fragments Operations Run
  Spec_Types Spec_Refs Spec_Scope2 Spec_Mro2 Spec_Fields Spec_Selection Spec_Docs Spec_Inline Spec_Dispatch Spec_Valid Spec_ValidDoc Spec_Funcs Spec_Names Spec_Pydantic Spec_Response
  P_Base P_InputProps P_Print P_Total4 P_Total8 P_Response2 Ex_Select Prop_Inline Prop_Total Prop_TotalDoc Prop_Scope Prop_Scope2.

(** C61.  The module of the enum, the input, the fragment and the operation plugin: the class of an operation takes
    every response to the operation that conforms to the schema.  [py p v]: the Python type [p], which is not of the module, takes
    the value [v].  Missing for the full property: the cases of the refutations below, which [readable_document] and the conditions
    about names rule out, and fragments that are spread in inline fragments only. *)
Theorem C61_responses_partial : forall c st ec ic fc oc s d print_fragment print_operation add doc_of py,
  NoDup (dkeys (s_types s)) -> valid_unions s -> covariant s -> enum_values_named s -> valid_document s d ->
  (forall fr n, In fr (fragments_of d) -> spread_in True (fr_sels fr) n -> spread_in False (fr_sels fr) n) ->
  (* the enums of the document get classes *)
  enums_available (ec_skip_underscore ec) (ec_skip_double_underscore ec) (skipping c (ec_skip_unreferenced ec)) s d ->
  readable_document s d (generate_node_name st) (style_fragment_class st) ->
  oc_extra (c_options c) <> Some "forbid" ->
  forall iter a b e f t,
  generate_ast c iter [Plugin a (enums_plugin c st ec s (Ok d)); Plugin b (inputs_plugin c st ic s (Ok d));
    Plugin e (fragments_plugin c st s fc print_fragment add d); Plugin f (operations_plugin c st s oc print_operation add doc_of d)] false = Ok t ->
  (* no two classes have the same name, and none that of an imported class *)
  NoDup (owned t) -> ~ In "Enum" (owned t) ->
  (forall b, configured_base c (fr_bases fc ++ fr_object_bases fc ++ o_query_bases oc ++ o_mutation_bases oc ++ o_subscription_bases oc) b -> ~ In (last_comp b) (owned t) /\ last_comp b <> "Enum") ->
  (* the Python types of scalars take the values of scalars *)
  (forall n p x, dget n (r_scalars (init_reg c)) = Some p -> ~ In (last_comp p) (owned t) /\ py (last_comp p) (RScalar n x)) ->
  forall o name v, In o (operations_of d) -> op_name o = Some name -> response s d o v ->
  reads t py (EName (operation_class st (op_kind o) name)) v.
Proof. exact client_reads. Qed.
Print Assumptions C61_responses_partial.

(** ** Example: fragments on an object, an interface and a union, inline fragments, an enum *)
Definition rx_doc : document :=
  [DFrag (Fragment "Whole" "Node" [] [plain "__typename"; plain "id"; on "User" [plain "userName"]]);
   DFrag (Fragment "Person" "User" [] [SelField (sub "friends" [plain "id"]); spread "Whole"]);
   DFrag (Fragment "Found" "Hit" [] [on "User" [plain "id"]; on "Post" [SelField (sub "author" [plain "__typename"; plain "id"])]; spread "Other"]);
   DFrag (Fragment "Other" "Hit" [] [on "Post" [plain "id"]]);
   DOp (Operation OpQuery (Some "Get") [] []
     [plain "count"; plain "color"; SelField (sub "me" [spread "Person"]); SelField (sub "node" [plain "__typename"; spread "Whole"; on "Post" [plain "id"]]);
      SelField (sub "hits" [spread "Found"; spread "Other"]); SelField (sub "hit" [on "User" [spread "Person"; plain "id"]; on "Post" [plain "id"]])])].
Definition rx_me : list (string * data) := [("friends", RList [RObj [("id", RScalar "ID" "2")]]); ("__typename", RText "User"); ("id", RScalar "ID" "1"); ("userName", RNull)].
Definition rx_response : data := RObj
  [("count", RScalar "Int" "3"); ("color", RList [RText "RED"; RText "RED"]); ("me", RObj rx_me);
   ("node", RObj [("__typename", RText "Post"); ("id", RScalar "ID" "7")]);
   ("hits", RList [RNull; RObj [("id", RScalar "ID" "2")]; RObj [("author", RObj [("__typename", RText "User"); ("id", RScalar "ID" "2")]); ("id", RScalar "ID" "8")]]);
   ("hit", RObj rx_me)].
Definition any_scalar (p : string) (v : data) : Prop := exists n x, v = RScalar n x.

Ltac elem H := cbn in H; repeat match type of H with _ \/ _ => destruct H as [H|H] | False => contradiction end; try discriminate H.
Ltac the_field :=
  match goal with H : schema_field _ _ _ _ |- _ => let t := fresh in let fs := fresh in let E1 := fresh in let E2 := fresh in let E3 := fresh in
    destruct H as (t & fs & E1 & E2 & E3); vm_compute in E1; try discriminate E1; injection E1 as <-; vm_compute in E2; try discriminate E2; injection E2 as <-; vm_compute in E3; try discriminate E3; injection E3 as <- end.
Ltac inl := cbn; solve [repeat first [left; reflexivity|right]].
Ltac told := match goal with |- told_apart _ _ _ _ => first [left; do 2 eexists; inl|right; do 2 eexists; split; [inl|right; eexists; split; [reflexivity|split; [reflexivity|cbn; tauto]]]] end.
Ltac uncond := let H := fresh in intros H; destruct H as (? & H & _); exact H.
Ltac reada := constructor;
  [ let f := fresh "f" in let fd := fresh "fd" in let H := fresh "H" in let HN := fresh "N" in let HF := fresh "HF" in
    intros f fd H HN HF; elem H; injection H as <-; try (exfalso; apply HN; reflexivity); the_field; (constructor;
    [ intros _; uncond
    | split; [discriminate|vm_compute; intuition discriminate]
    | try discriminate; intros _; (eexists; cbn; split; [left; reflexivity|split; [reflexivity|split; [reflexivity|uncond]]])
    | try discriminate; intros _; (split; [let i := fresh in let Hi := fresh in intros i Hi; elem Hi; subst i; told|split; [intros _; cbn; discriminate|]]);
      let H := fresh in let K := fresh in intros ? ? ? ? ? H K; elem H; injection H as <- <- <-; elem K; injection K as <- <-; (eexists; split; [reflexivity|split; reflexivity])
    | reada ])
  | let H := fresh in intros ? ? H; elem H; injection H as <- <-; uncond
  | let H := fresh in intros ? ? ? H; elem H; injection H as <- <- <-; (split; [uncond|reada])
  | try discriminate; let H := fresh in intros _ ? ? H; elem H; injection H as <- <-; first [left; eexists; split; [reflexivity|split; reflexivity]|right; eexists; split; [reflexivity|split; [reflexivity|cbn; tauto]]]
  | try discriminate; let H := fresh in let K := fresh in intros _ ? ? ? ? H K _; elem H; injection H as <- <- <-; elem K; injection K as <-; vm_compute; discriminate ].
Lemma rx_readable : readable_document vx rx_doc (generate_node_name sst) (style_fragment_class sst).
Proof.
  split.
  - intros o root Ho HR. by_elem Ho. subst o. injection HR as <-. cbn [op_sels]. reada.
  - intros o f Ho Hf. by_elem Ho. subst o. elem Hf; injection Hf as <-; discriminate.
  - intros fr Hfr. by_elem Hfr; subst fr; cbn [fr_on fr_sels]; reada.
  - intros fr i dirs m g dirs' Hfr HU Hm Hg. by_elem Hfr; subst fr; try discriminate HU; elem Hm; injection Hm as <- <- <-; elem Hg.
Qed.
(** the response conforms *)
Ltac says := let E := fresh in intros ? E; vm_compute in E; first [discriminate E|injection E as <-; reflexivity].
Ltac conf := first [apply ct_null; reflexivity | apply ct_nonnull; [conf|discriminate] | apply ct_list; let H := fresh in intros ? H; elem H; subst; conf
  | eapply ct_scalar; reflexivity | eapply ct_enum; [reflexivity|left; reflexivity]
  | eapply ct_object; [cbn; left; reflexivity|says|confs] | eapply ct_object; [cbn; right; left; reflexivity|says|confs] ]
with confs := let H := fresh in intros ? H; elem H; subst; first
  [ apply cs_typename; reflexivity
  | eapply cs_field; [discriminate|eexists; eexists; split; [reflexivity|split; reflexivity]|reflexivity|conf]
  | eapply cs_spread; [reflexivity|let K := fresh in intros K; try (exfalso; cbn in K; solve [intuition discriminate]); clear K; cbn [fr_sels]; confs]
  | apply cs_inline; let K := fresh in intros K; try (exfalso; cbn in K; solve [intuition discriminate]); clear K; confs ].
Lemma rx_responds : forall o, In o (operations_of rx_doc) -> response vx rx_doc o rx_response.
Proof.
  intros o Ho. by_elem Ho. subst o. eexists _, _. split; [reflexivity|]. split; [reflexivity|]. split; [says|]. cbn [op_sels]. confs.
Qed.
Definition rx_owned : list string :=
  ["Deprecated"; "Color"; "WholeBase"; "WholeCatch"; "WholeUser"; "WholePost"; "OtherUser"; "OtherPost"; "Other"; "PersonFriends";
   "Person"; "FoundAuthorBase"; "FoundAuthorBaseUser"; "FoundAuthorBasePost"; "FoundAuthorBaseCatchAll"; "FoundUser"; "FoundPost"; "Found";
   "GetNodeBase"; "GetNodeBaseUser"; "GetNodeBasePost"; "GetNodeBaseCatchAll"; "GetUserInlineFragment"; "GetPostInlineFragment"; "Get"].
Lemma vx_unions_valid : valid_unions vx.
Proof. split; [apply nodupb_NoDup; reflexivity|]. intros n d ms i G Hi. apply dget_Some_In in G. by_elem G; try discriminate G. injection G as <- _ <-. by_elem Hi; subst i; reflexivity. Qed.
Lemma vx_covariant : covariant vx.
Proof.
  intros n i f fd fdi Hn Hi (t & fs & G & E & L) (ti & fsi & Gi & Ei & Li). apply dget_Some_In in G. by_elem G; injection G as <- <-; try discriminate Hn.
  injection E as <-. apply dget_Some_In in L. by_elem L; injection L as <- <-.
  elem Hi; subst i; injection Gi as <-; injection Ei as <-; injection Li as <-; apply nw_same.
Qed.
Lemma vx_values : enum_values_named vx.
Proof. intros n desc vs k v G Hv. apply dget_Some_In in G. by_elem G; try discriminate G. injection G as <- _ <-. by_elem Hv. injection Hv as <- <-. reflexivity. Qed.
Lemma rx_flat : flat_document rx_doc.
Proof.
  split.
  - intros o H. by_elem H; try discriminate H. injection H as <-. split; [flatten|]. intros x Hx. by_elem Hx; subst x; cbn; tauto.
  - intros f H. by_elem H; try discriminate H; injection H as <-; flatten.
Qed.
Lemma rx_spreads : forall fr n, In fr (fragments_of rx_doc) -> spread_in True (fr_sels fr) n -> spread_in False (fr_sels fr) n.
Proof.
  intros f n Hf Hs. apply (spreads_list no_strings) in Hs. by_elem Hf; subst f; by_elem Hs; subst n.
  - eapply si_here. right. left. reflexivity.
  - eapply si_here. right. right. left. reflexivity.
Qed.
Example C61_ex : NoDup (dkeys (s_types vx)) /\ valid_unions vx /\ covariant vx /\ enum_values_named vx /\ valid_document vx rx_doc
  /\ (forall fr n, In fr (fragments_of rx_doc) -> spread_in True (fr_sels fr) n -> spread_in False (fr_sels fr) n)
  /\ enums_available false true (skipping (with_documents true) true) vx rx_doc
  /\ readable_document vx rx_doc (generate_node_name sst) (style_fragment_class sst)
  /\ (forall o, In o (operations_of rx_doc) -> response vx rx_doc o rx_response)
  /\ exists t, doc_run (with_documents true) vx rx_doc = Ok t /\ owned t = rx_owned
     /\ reads t any_scalar (EName "Get") rx_response.
Proof.
  assert (VD : valid_document vx rx_doc) by (apply (valid_doc_ok _ _ (rank_in ["Found"; "Person"; "Whole"; "Other"])); reflexivity).
  assert (EA : enums_available false true (skipping (with_documents true) true) vx rx_doc).
  { split; [|intros _; exact rx_flat]. intros e (d & vs & G) _. apply dget_Some_In in G. by_elem G; try discriminate G. injection G as <- _ _.
    split; [|split; intros _; reflexivity]. intros K. by_elem K; discriminate K. }
  split; [exact (proj1 vx_unions_valid)|]. split; [exact vx_unions_valid|]. split; [exact vx_covariant|]. split; [exact vx_values|].
  split; [exact VD|]. split; [exact rx_spreads|]. split; [exact EA|]. split; [exact rx_readable|]. split; [exact rx_responds|].
  assert (OK : match doc_run (with_documents true) vx rx_doc with Ok _ => true | Err _ => false end = true) by (vm_compute; reflexivity).
  destruct (doc_run (with_documents true) vx rx_doc) as [t|x] eqn:R; [clear OK|discriminate OK].
  exists t. split; [reflexivity|].
  assert (O : owned t = rx_owned).
  { assert (N : match doc_run (with_documents true) vx rx_doc with Ok t => owned t | Err _ => [] end = owned t) by now rewrite R.
    rewrite <- N. vm_compute. reflexivity. }
  split; [exact O|]. rewrite doc_run_eq in R.
  change (reads t any_scalar (EName (operation_class sst OpQuery "Get")) rx_response).
  eapply (C61_responses_partial (with_documents true) sst default_enums_config default_inputs_config (FrCfg [] [] None true true) sx_pc vx rx_doc)
    with (iter := fun l => l) (o := nth 0 (operations_of rx_doc) (Operation OpQuery None [] [] [])) (name := "Get");
    [exact (proj1 vx_unions_valid)|exact vx_unions_valid|exact vx_covariant|exact vx_values|exact VD|exact rx_spreads|exact EA|exact rx_readable|discriminate|exact R| | | | | |reflexivity|];
    rewrite ?O.
  - apply nodupb_NoDup; reflexivity.
  - vm_compute; intuition discriminate.
  - intros b [H|[(l & H & _)|[(n & l & H & _)|H]]]; try discriminate H; by_elem H; subst b; split; vm_compute; intuition discriminate.
  - intros n p x H. apply dget_Some_In in H. vm_compute in H.
    split; [|eexists _, _; reflexivity]. by_elem H; injection H as <- <-; vm_compute; intuition discriminate.
  - left. reflexivity.
  - apply rx_responds. left. reflexivity.
Qed.

(** ** Refutations: the document is valid, a module is generated, the response conforms, and the class of the operation does not take it,
    whatever scalars are *)
Definition refused (d : document) (v : data) : Prop :=
  valid_document vx d /\ (forall o, In o (operations_of d) -> response vx d o v)
  /\ exists t, doc_run (with_documents true) vx d = Ok t /\ forall py, ~ reads t py (EName "Get") v.
(** the fields of the classes of a name *)
Definition fields_named (t : list stmt) (k : string) : list (string * expr * option expr) :=
  flat_map (fun x => match x with SClass n _ body _ => if String.eqb n k then class_fields body else [] | _ => [] end) t.
Definition aliased (t : list stmt) (k : string) : bool := existsb (fun x => match x with SAssign (EName n) _ => String.eqb n k | _ => false end) t.
Lemma model_builds : forall t py k kvs, mem k (owned t) = true -> aliased t k = false -> reads t py (EName k) (RObj kvs) -> builds t py k kvs.
Proof.
  intros t py k kvs HO HA H. inversion H; subst; try assumption. all: try discriminate.
  - exfalso. match goal with K : ~ In _ _ |- _ => apply K; now apply mem_In end.
  - exfalso. apply Bool.not_true_iff_false in HA. apply HA. apply existsb_exists. eexists. split; [eassumption|]. apply String.eqb_refl.
Qed.
Lemma model_object : forall t py k v, mem k (owned t) = true -> aliased t k = false -> reads t py (EName k) v -> match v with RObj _ | RText _ => True | _ => False end.
Proof.
  intros t py k v HO HA H. inversion H; subst; try exact I. all: try discriminate.
  - exfalso. match goal with K : ~ In _ _ |- _ => apply K; now apply mem_In end.
  - exfalso. apply Bool.not_true_iff_false in HA. apply HA. apply existsb_exists. eexists. split; [eassumption|]. apply String.eqb_refl.
Qed.
Lemma field_builds : forall t py k kvs n a v, builds t py k kvs -> In (n, a, v) (fields_named t k) ->
  (forall x, dget (wire_name n v) kvs = Some x -> reads t py a x) /\ (dget (wire_name n v) kvs = None -> may_omit v = true).
Proof.
  intros t py k kvs n a v H F. unfold fields_named in F. apply in_flat_map in F. destruct F as (x & Hx & F). destruct x; try destruct F.
  destruct (String.eqb name k) eqn:E; [|destruct F]. apply String.eqb_eq in E. subst. inversion H; subst.
  match goal with K : forall bases body n a v, _ |- _ => eapply K; [eexists; exact Hx|exact F] end.
Qed.
Lemma optional_reads : forall t py e v, reads t py (optional_of e) v -> v = RNull \/ reads t py e v.
Proof. intros t py e v H. inversion H; subst; tauto. Qed.
Lemma union_reads_one : forall t py es v, reads t py (union_of es) v -> exists e, In e es /\ reads t py e v.
Proof. intros t py es v H. inversion H; subst; eauto. Qed.
Lemma literal_reads : forall t py x v, reads t py (literal_of x) v -> v = RText x.
Proof. intros t py x v H. inversion H; subst; reflexivity. Qed.
Ltac responds := let o := fresh "o" in let Ho := fresh "Ho" in intros o Ho; by_elem Ho; subst o; eexists _, _;
  (split; [reflexivity|split; [reflexivity|split; [says|cbn [op_sels]; confs]]]).
Ltac refused_tac r := split; [now apply (valid_doc_ok _ _ (rank_in r))|split; [try responds|eexists; split; [vm_compute; reflexivity|]]].
(** the field of the class that does not fit *)
Ltac field_ H n := match type of H with builds ?t _ ?k _ => let fs := eval vm_compute in (fields_named t k) in
  let rec go l := match l with (n, ?a, ?v) :: _ => eapply (field_builds _ _ _ _ n a v) in H; [|vm_compute; tauto] | _ :: ?l' => go l' end in go fs end.
Ltac model H := apply model_builds in H; [|vm_compute; reflexivity|vm_compute; reflexivity].
(** a member of a union that is not selected: there is no class for its objects *)
Definition hit_users : document := [query [SelField (sub "hit" [plain "__typename"; on "User" [plain "id"]])]].
Theorem C61_union_refuted : refused hit_users (RObj [("hit", RObj [("__typename", RText "Post")])]).
Proof.
  refused_tac (@nil string). intros py H. model H. field_ H "hit". destruct H as (H & _). specialize (H _ eq_refl). model H. field_ H "typename". destruct H as (H & _).
    specialize (H _ eq_refl). apply literal_reads in H. discriminate H.
Qed.
Print Assumptions C61_union_refuted.
(** a union that may be null, with one class: the annotation is not optional *)
Theorem C61_null_refuted : refused hit_users (RObj [("hit", RNull)]).
Proof.
  refused_tac (@nil string). intros py H. model H. field_ H "hit". destruct H as (H & _). specialize (H _ eq_refl).
  apply model_object in H; [exact H|vm_compute; reflexivity|vm_compute; reflexivity].
Qed.
Print Assumptions C61_null_refuted.
(** a field that may be left out but may not be null *)
Theorem C61_skip_refuted : refused [query [SelField (FieldNode None "count" [] [Directive "skip" [("if", VBool true)]] None)]] (RObj []).
Proof.
  refused_tac (@nil string).
  - intros o Ho. by_elem Ho; subst o. eexists _, _. split; [reflexivity|]. split; [reflexivity|]. split; [says|]. intros x Hx. elem Hx. subst x.
    apply cs_no_field; [eexists; split; [left; reflexivity|left; reflexivity]|reflexivity].
  - intros py H. model H. field_ H "count". destruct H as (_ & H). specialize (H eq_refl). discriminate H.
Qed.
Print Assumptions C61_skip_refuted.
(** below an inline fragment no [__typename] is added, but objects behind an interface are told apart by it *)
Theorem C61_inline_refuted : refused [query [SelField (sub "hit" [plain "__typename"; on "Post" [SelField (sub "author" [plain "id"])]])]]
  (RObj [("hit", RObj [("__typename", RText "Post"); ("author", RObj [("id", RScalar "ID" "1")])])]).
Proof.
  refused_tac (@nil string). intros py H. model H. field_ H "hit". destruct H as (H & _). specialize (H _ eq_refl). model H. field_ H "author".
  destruct H as (H & _). specialize (H _ eq_refl). apply optional_reads in H. destruct H as [H|H]; [discriminate H|].
  apply union_reads_one in H. destruct H as (e & He & H). by_elem He; subst e.
  - inversion H; subst; try discriminate.
  - model H. field_ H "typename". destruct H as (_ & H). specialize (H eq_refl). discriminate H.
Qed.
Print Assumptions C61_inline_refuted.
(** two inline fragments on the same type get classes of the same name, of which the second remains *)
Theorem C61_names_refuted : refused
  [query [SelField (sub "hit" [plain "__typename"; on "User" [plain "userName"]]); SelField (FieldNode (Some "other") "hit" [] [] (Some [plain "__typename"; on "User" [plain "id"]]))]]
  (RObj [("hit", RObj [("__typename", RText "User"); ("userName", RNull)]); ("other", RObj [("__typename", RText "User"); ("id", RScalar "ID" "1")])]).
Proof.
  refused_tac (@nil string). intros py H. model H. field_ H "hit". destruct H as (H & _). specialize (H _ eq_refl). model H. field_ H "id".
  destruct H as (_ & H). specialize (H eq_refl). discriminate H.
Qed.
Print Assumptions C61_names_refuted.
