(** C01, C02, C05, C51: loading documents and ordering fragments. *)
From Verif Require Import Base Gql Config Documents Spec_Docs P_Documents P_Topo.
From Coq Require Import Permutation.

(** C01.  For any spreads (cyclic, self-referential, unknown), ordering is a permutation. *)
Theorem C01_ordering_is_permutation : forall d, unique_fragment_names d ->
  exists l, ordered_fragments d = Ok l /\ Permutation l (fragments_of d).
Proof. exact ordering_C01. Qed.
Print Assumptions C01_ordering_is_permutation.
Example C01_ex :
  let fr n s := DFrag (Fragment n "T" [] s) in
  let d := [fr "A" [SelSpread "B" []]; DOp (Operation OpQuery (Some "Q") [] [] [SelSpread "A" []]);
            fr "B" [SelSpread "A" []]; fr "C" [SelSpread "Missing" []]; fr "D" []] in
  unique_fragment_names d
  /\ match ordered_fragments d with Ok l => map fr_name l = ["D"; "A"; "B"; "C"] | _ => False end.
Proof.
  split; [|vm_compute; reflexivity]. unfold unique_fragment_names; cbn.
  repeat constructor; cbn; intuition discriminate.
Qed.

(** C02, the part that holds: dependencies through fields.  Missing: dependencies through
    inline fragments, see C02_inline_refuted. *)
Theorem C02_dependencies_first_partial : forall d l a b,
  unique_fragment_names d -> known_spreads d -> acyclic d ->
  ordered_fragments d = Ok l -> depends_trans False d a b -> before b a (map fr_name l).
Proof. exact ordering_C02. Qed.
Print Assumptions C02_dependencies_first_partial.

Definition c02_doc : document :=
  let fr n s := DFrag (Fragment n "T" [] s) in
  let sub s := SelField (FieldNode None "x" [] [] (Some s)) in
  [fr "A" [sub [SelSpread "B" []]]; fr "B" [sub [sub [SelSpread "C" []]]]; fr "C" []].
Lemma c02_one : forall x m b, spread_in True [SelField (FieldNode None x [] [] (Some m))] b -> spread_in True m b.
Proof.
  intros x m b H. inversion H as [? ? ? I|? ? ? ? I E K|? ? ? ? ? _ I]; subst.
  - destruct I as [I|[]]; discriminate.
  - destruct I as [[= <-]|[]]. cbn in E. injection E as ->. exact K.
  - destruct I as [I|[]]; discriminate.
Qed.
Lemma c02_leaf : forall n d b, spread_in True [SelSpread n d] b -> b = n.
Proof.
  intros n d b H. inversion H as [? ? ? I|? ? ? ? I E K|? ? ? ? ? _ I]; subst.
  - destruct I as [[= -> _]|[]]; reflexivity.
  - destruct I as [I|[]]; discriminate.
  - destruct I as [I|[]]; discriminate.
Qed.
Lemma c02_nil : forall b, ~ spread_in True [] b.
Proof. intros b H. inversion H as [? ? ? I|? ? ? ? I E K|? ? ? ? ? _ I]; destruct I. Qed.
Example C02_ex_deps : forall a b, depends True c02_doc a b -> (a, b) = ("A", "B") \/ (a, b) = ("B", "C").
Proof.
  intros a b (f & [<-|[<-|[<-|[]]]] & <- & H); cbn [fr_name fr_sels] in *.
  - apply c02_one in H. apply c02_leaf in H. subst; auto.
  - apply c02_one, c02_one in H. apply c02_leaf in H. subst; auto.
  - destruct (c02_nil b H).
Qed.
Example C02_ex_hyps : known_spreads c02_doc /\ acyclic c02_doc.
Proof.
  split.
  - intros a b H. destruct (C02_ex_deps a b H) as [[= -> ->]|[= -> ->]]; cbn; auto.
  - assert (A : forall a b, depends_trans True c02_doc a b ->
                In (a, b) [("A", "B"); ("B", "C"); ("A", "C")]).
    { intros a b H. induction H as [a b H|a b c _ IH1 _ IH2].
      - destruct (C02_ex_deps a b H) as [E|E]; rewrite E; cbn; auto.
      - cbn in *. intuition congruence. }
    intros a H. apply A in H. cbn in H. intuition congruence.
Qed.
Example C02_ex : unique_fragment_names c02_doc /\ depends_trans False c02_doc "A" "C"
  /\ match ordered_fragments c02_doc with Ok l => map fr_name l = ["C"; "B"; "A"] | _ => False end.
Proof.
  repeat split.
  - unfold unique_fragment_names; cbn. repeat constructor; cbn; intuition discriminate.
  - apply t_trans with "B"; apply t_step.
    + eexists; split; [left; reflexivity|]; split; [reflexivity|].
      eapply si_field; [now left|reflexivity|]. eapply si_here; now left.
    + eexists; split; [right; left; reflexivity|]; split; [reflexivity|].
      eapply si_field; [now left|reflexivity|]. eapply si_field; [now left|reflexivity|].
      eapply si_here; now left.
Qed.

(** C02 fails when the spread sits inside an inline fragment. *)
Definition c02_bad : document :=
  let fr n s := DFrag (Fragment n "T" [] s) in
  [fr "A" [SelInline (Some "U") [] [SelSpread "B" []]]; fr "B" []].
Theorem C02_inline_refuted : exists d l a b,
  unique_fragment_names d /\ depends True d a b
  /\ ordered_fragments d = Ok l /\ map fr_name l = [a; b].
Proof.
  exists c02_bad. eexists. exists "A", "B". repeat split.
  - unfold unique_fragment_names; cbn. repeat constructor; cbn; intuition discriminate.
  - eexists; split; [left; reflexivity|]. split; [reflexivity|].
    eapply si_inline; [exact I|now left|]. eapply si_here; now left.
Qed.
Print Assumptions C02_inline_refuted.

(** C05, the part that holds: all selection sets of fields that are not below an inline
    fragment, and of fragment definitions.  Missing: C05_inline_refuted, C05_alias_refuted. *)
Theorem C05_typename_requested_partial : forall d,
  Forall2 (typename_loaded False) d (auto_add_typename_field_to_all_objects d)
  /\ auto_add_typename_field_to_all_objects (auto_add_typename_field_to_all_objects d)
     = auto_add_typename_field_to_all_objects d.
Proof. exact typename_C05. Qed.
Print Assumptions C05_typename_requested_partial.
Example C05_ex :
  let f n s := SelField (FieldNode None n [] [] s) in
  auto_add_typename_field_to_all_objects
    [DOp (Operation OpQuery (Some "Q") [] [] [f "user" (Some [f "name" None; f "pet" (Some [f "id" None])])])]
  = [DOp (Operation OpQuery (Some "Q") [] []
       [f "user" (Some [f "name" None; f "pet" (Some [f "id" None; f "__typename" None]);
                        f "__typename" None])])].
Proof. reflexivity. Qed.

(** A field inside an inline fragment keeps a selection set without __typename. *)
Definition c05_bad : document :=
  let f n s := SelField (FieldNode None n [] [] s) in
  [DOp (Operation OpQuery (Some "Q") [] []
     [f "node" (Some [SelInline (Some "User") [] [f "pet" (Some [f "id" None])]])])].
Theorem C05_inline_refuted : exists d, ~ Forall2 (typename_loaded True) d (auto_add_typename_field_to_all_objects d).
Proof.
  exists c05_bad. intros H. inversion H as [|? ? ? ? T _]; subst. cbn in T.
  destruct T as (_ & _ & _ & _ & _ & T).
  assert (A : asks_typename [SelField (FieldNode None "id" [] [] None)]).
  { apply T. eapply fs_field; [now left|reflexivity|]. eapply fs_inline; [exact I|now left|].
    eapply fs_here; [now left|reflexivity]. }
  destruct A as (f & [[= <-]|[]] & E). discriminate.
Qed.
Print Assumptions C05_inline_refuted.

(** An aliased __typename suppresses the request under the response key the models read. *)
Definition c05_alias : document :=
  [DFrag (Fragment "F" "T" [] [SelField (FieldNode (Some "kind") "__typename" [] [] None)])].
Theorem C05_alias_refuted : exists d f, In (DFrag f) (auto_add_typename_field_to_all_objects d)
  /\ ~ asks_typename_key (fr_sels f).
Proof.
  exists c05_alias. eexists. split; [now left|]. cbn.
  intros (f & [[= <-]|[]] & _ & E). discriminate.
Qed.
Print Assumptions C05_alias_refuted.

(** C51: comments of one file must not swallow the next one.  Holds when every file ends
    with a line break; otherwise see the refutation. *)
Theorem C51_files_concatenate_partial : forall files,
  Forall (fun f => exists a, f = a +s+ nl) files ->
  strip_comments false (join "" files) = join "" (map (strip_comments false) files).
Proof. exact files_concat. Qed.
Print Assumptions C51_files_concatenate_partial.
Example C51_ex : Forall (fun f => exists a, f = a +s+ nl)
  ["query A { a } # done" +s+ nl; "query B { b }" +s+ nl].
Proof. repeat constructor; eexists; reflexivity. Qed.
Theorem C51_last_line_comment_refuted : exists files,
  strip_comments false (join "" files) <> join "" (map (strip_comments false) files)
  /\ strip_comments false (join "" files) = "query A { a } ".
Proof.
  exists ["query A { a } # done"; "query B { b }"]. split; vm_compute; [discriminate|reflexivity].
Qed.
Print Assumptions C51_last_line_comment_refuted.

(** C23 for document loading: the order in which the file system lists files is irrelevant. *)
Theorem C23_documents_listing_order : forall glob glob' read parse validate c g,
  (forall p, Permutation (glob p) (glob' p)) ->
  parse_documents glob read parse validate c g = parse_documents glob' read parse validate c g.
Proof. exact parse_documents_perm. Qed.
Print Assumptions C23_documents_listing_order.
Example C23_docs_ex : Permutation ["b.graphql"; "a.graphql"] ["a.graphql"; "b.graphql"]
  /\ str_sort ["b.graphql"; "a.graphql"] = ["a.graphql"; "b.graphql"].
Proof. split; [constructor|reflexivity]. Qed.

(** ** C43 for document loading: accepted documents passed exactly the rules that are not
    omitted, in the order of the specified rules, and a violation of them is an error. *)
Theorem C43_documents_validated : forall glob read parse validate c g d,
  parse_documents glob read parse validate c g = Ok d ->
  exists text nodes rules, parse text = Ok nodes /\ d = auto_add_typename_field_to_all_objects nodes
  /\ validate rules nodes = []
  /\ (forall rule, In rule rules <-> In rule specified_rules_map /\ ~ In rule (c_omited_document_rules c))
  /\ exists keep, rules = filter keep specified_rules_map.
Proof. exact documents_validated. Qed.
Print Assumptions C43_documents_validated.
Theorem C43_documents_rejected : forall glob read parse validate c g d,
  parse_documents glob read parse validate c g = Ok d ->
  forall validate', (forall rules nodes,
     (forall rule, In rule rules <-> In rule specified_rules_map /\ ~ In rule (c_omited_document_rules c)) ->
     validate' rules nodes <> []) ->
  exists msg, parse_documents glob read parse validate' c g = Err (Exn InvalidDocumentsC msg).
Proof. exact documents_rejected. Qed.
Print Assumptions C43_documents_rejected.
Definition ex_loader := parse_documents (fun _ => ["a.graphql"]) (fun _ => Ok "query A { a }") (fun _ => Ok []).
Example C43_documents_ex :
  ex_loader (fun _ _ => []) default_config (Some "**/*.graphql") = Ok []
  /\ ex_loader (fun rules _ => if mem "scalar_leafs" rules then ["leaf"] else []) default_config (Some "**/*.graphql")
     = rraise InvalidDocumentsC "Invalid Documents".
Proof. split; vm_compute; reflexivity. Qed.
