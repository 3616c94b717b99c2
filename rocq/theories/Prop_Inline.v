(** C03, C04: the documents stored for operations. *)
From Verif Require Import Base PyAst Gql Config Stylers Registry Utils Documents Inline Print Fragments Operations
  Spec_Docs Spec_Inline P_Print P_InlineProps.

(** ** Examples *)
Definition no_strings (s : string) (b : bool) : string := """" +s+ s +s+ """".
(** parses and prints the definitions of a document *)
Definition add_for (d : document) (t : string) : res string :=
  match find (fun f => String.eqb (print_fragment no_strings f) t) (fragments_of d) with
  | Some f => Ok (print_fragment no_strings (with_typename f))
  | None => rraise GraphQLErrorC "Syntax Error"
  end.
Definition leaf (n : string) : selection := SelField (FieldNode None n [] [] None).
Definition il_schema : schema :=
  Schema [("Query", TObject None [] [("user", FieldDef (GNamed "User") [] None None [])] []);
          ("User", TObject None [] [("id", FieldDef (GNonNull (GNamed "ID")) [] None None []);
                                    ("name", FieldDef (GNamed "String") [] None None [])] []);
          ("String", TScalar None); ("ID", TScalar None)] (Some "Query") None None.
Definition user_query (spread : string) : operation :=
  Operation OpQuery (Some "GetUser") [] []
    [SelField (FieldNode None "user" [] [] (Some [SelSpread spread []; leaf "__typename"]))].
Definition il_fr : frcfg := FrCfg [] [] None true false.
Definition il_op : ocfg := OCfg [] [] [] [] true true None.
Definition il_fragments (d : document) : res (list stmt) * reg :=
  fragments_plugin default_config [default_styler] il_schema il_fr (print_fragment no_strings) (add_for d) d (init_reg default_config).
Definition il_operations (d : document) : res (list stmt) * reg :=
  operations_plugin default_config [default_styler] il_schema il_op (print_operation no_strings) (add_for d) (fun _ => None) d
    (snd (il_fragments d)).
(** two fragments, one using the other, and a third that is not needed *)
Definition il_doc : document :=
  [DFrag (Fragment "Whole" "User" [] [leaf "id"; SelSpread "Names" []]); DFrag (Fragment "Names" "User" [] [leaf "name"]);
   DFrag (Fragment "Other" "User" [] [leaf "id"]); DOp (user_query "Whole")].
Definition il_text : string :=
  "fragment Names on User {" +s+ nl +s+ "  name" +s+ nl +s+ "  __typename" +s+ nl +s+ "}" +s+ nl +s+ nl +s+
  "fragment Whole on User {" +s+ nl +s+ "  id" +s+ nl +s+ "  ...Names" +s+ nl +s+ "  __typename" +s+ nl +s+ "}" +s+ nl +s+ nl +s+
  "query GetUser {" +s+ nl +s+ "  user {" +s+ nl +s+ "    ...Whole" +s+ nl +s+ "    __typename" +s+ nl +s+ "  }" +s+ nl +s+ "}".

(** ** C03 *)
(** The document stored for an operation is the definitions of exactly the fragments it needs,
    each once, and then the operation.  [_partial]: only if spread names consist of letters and
    no other lexeme looks like a spread ([readable_*]), see the refutations below.  [add] is
    graphql-core's parse and print around the addition of __typename; other plugins between
    the two must leave the registered fragment documents alone. *)
Theorem C03_self_contained_partial : forall c st s pcf pco doc_of ps add d r cs1 r1 r2 cs2 r3,
  unique_fragment_names d -> r_fragdocs r = [] ->
  (forall f, In f (fragments_of d) -> readable_fragment ps f /\ add (print_fragment ps f) = Ok (print_fragment ps (with_typename f))) ->
  Forall (readable_operation ps) (operations_of d) ->
  fragments_plugin c st s pcf (print_fragment ps) add d r = (Ok cs1, r1) ->
  r_fragdocs r2 = r_fragdocs r1 ->
  operations_plugin c st s pco (print_operation ps) add doc_of d r2 = (Ok cs2, r3) ->
  exists css, cs2 = List.concat css /\ Forall2 (self_contained ps d) (operations_of d) css.
Proof. exact plugin_self_contained. Qed.
Print Assumptions C03_self_contained_partial.
(** An operation that needs an unknown fragment is reported.  [_partial]: as above. *)
Theorem C03_unknown_partial : forall c st s pcf pco doc_of ps add d r cs1 r1 r2 o n,
  unique_fragment_names d -> r_fragdocs r = [] ->
  (forall f, In f (fragments_of d) -> readable_fragment ps f /\ add (print_fragment ps f) = Ok (print_fragment ps (with_typename f))) ->
  readable_operation ps o ->
  fragments_plugin c st s pcf (print_fragment ps) add d r = (Ok cs1, r1) ->
  r_fragdocs r2 = r_fragdocs r1 ->
  needs d o n -> ~ In n (map fr_name (fragments_of d)) ->
  exists e, fst (generate_operation c st s pco (print_operation ps) add doc_of o r2) = Err e.
Proof. exact unknown_reported. Qed.
Print Assumptions C03_unknown_partial.
Lemma il_readable : forall l ws, Forall (fun w => quietb w = true) ws -> Forall word (flat_map spreads l) -> readable_sels l ws.
Proof.
  intros l ws H1 H2. split; [eapply Forall_impl; [apply quietb_quiet|exact H1]|].
  intros n Hn. apply (spreads_list no_strings) in Hn. rewrite Forall_forall in H2. auto.
Qed.
Ltac readable := apply il_readable; repeat constructor; discriminate.
Example C03_ex :
  (unique_fragment_names il_doc
   /\ (forall f, In f (fragments_of il_doc) -> readable_fragment no_strings f
        /\ add_for il_doc (print_fragment no_strings f) = Ok (print_fragment no_strings (with_typename f)))
   /\ Forall (readable_operation no_strings) (operations_of il_doc))
  /\ (is_ok (fst (il_fragments il_doc)) = true
      /\ exists cs, fst (il_operations il_doc) = Ok cs /\ stored_document cs il_text).
Proof.
  split; [split; [|split]|split].
  - repeat constructor; cbn; intuition discriminate.
  - intros f [<-|[<-|[<-|[]]]]; (split; [readable|reflexivity]).
  - constructor; [|constructor]. readable.
  - vm_compute. reflexivity.
  - eexists. split; [vm_compute; reflexivity|]. unfold stored_document. exists [], "GetUser". do 3 eexists. split; [vm_compute; reflexivity|].
    split; [right; right; right; left; reflexivity|]. right. left. reflexivity.
Qed.
Example C03_unknown_ex :
  let o := user_query "Missing" in
  needs il_doc o "Missing" /\ ~ In "Missing" (map fr_name (fragments_of il_doc)) /\ readable_operation no_strings o
  /\ is_ok (fst (generate_operation default_config [default_styler] il_schema il_op (print_operation no_strings) (add_for il_doc)
                   (fun _ => None) o (snd (il_fragments il_doc)))) = false.
Proof.
  split; [|split; [|split]].
  - left. eapply si_field; [left; reflexivity|reflexivity|]. eapply si_here. left. reflexivity.
  - cbn. intuition discriminate.
  - readable.
  - reflexivity.
Qed.
(** The pattern that looks for spreads reads letters only.  An operation that spreads
    [User_full] gets the definition of [User] instead, ... *)
Definition occurs (x text : string) : Prop := exists a b, text = a +s+ x +s+ b.
Lemma substring_mid : forall a x b, String.substring (String.length a) (String.length x) (a +s+ x +s+ b) = x.
Proof.
  induction a as [|h a IH]; intros x b; cbn; [|apply IH]. induction x as [|h x IH]; cbn; [now destruct b|now rewrite IH].
Qed.
Lemma not_occurs : forall x text, x <> "" -> String.index 0 x text = None -> ~ occurs x text.
Proof.
  intros x text Hx Hi (a & b & ->). eapply String.index_correct3 with (m := String.length a) in Hi; [|assumption|apply PeanoNat.Nat.le_0_l].
  apply Hi. apply substring_mid.
Qed.
Definition full_doc (name : string) : document :=
  [DFrag (Fragment "User" "User" [] [leaf "id"]); DFrag (Fragment name "User" [] [leaf "name"]); DOp (user_query name)].
Theorem C03_incomplete_refuted : exists d o n cs t,
  unique_fragment_names d /\ known_spreads d /\ operations_of d = [o] /\ needs d o n
  /\ (forall f, In f (fragments_of d) -> add_for d (print_fragment no_strings f) = Ok (print_fragment no_strings (with_typename f)))
  /\ is_ok (fst (il_fragments d)) = true /\ fst (il_operations d) = Ok cs
  /\ stored_document cs t /\ ~ occurs ("fragment " +s+ n) t.
Proof.
  exists (full_doc "User_full"), (user_query "User_full"), "User_full". do 2 eexists.
  repeat match goal with |- _ /\ _ => split end; try (vm_compute; reflexivity).
  - repeat constructor; cbn; intuition discriminate.
  - intros a b (f & [<-|[<-|[]]] & _ & H); exfalso; apply (spreads_list no_strings) in H; exact H.
  - left. eapply si_field; [left; reflexivity|reflexivity|]. eapply si_here. left. reflexivity.
  - intros f [<-|[<-|[]]]; reflexivity.
  - unfold stored_document. exists [], "GetUser". do 3 eexists. split; [reflexivity|].
    split; [right; right; right; left; reflexivity|]. right. left. reflexivity.
  - apply not_occurs; [discriminate|]. vm_compute. reflexivity.
Qed.
Print Assumptions C03_incomplete_refuted.
(** ... and an operation that spreads the only fragment [Person2] is rejected. *)
Definition person_doc : document := [DFrag (Fragment "Person2" "User" [] [leaf "name"]); DOp (user_query "Person2")].
Theorem C03_rejected_refuted : exists d e,
  unique_fragment_names d /\ known_spreads d /\ (forall o n, In o (operations_of d) -> needs d o n -> In n (map fr_name (fragments_of d)))
  /\ is_ok (fst (il_fragments d)) = true /\ fst (il_operations d) = Err e /\ ecls e = FragmentNotFoundErrorC.
Proof.
  exists person_doc. eexists.
  assert (Ndep : forall a b, ~ depends True person_doc a b).
  { intros a b (f & [<-|[]] & _ & H). apply (spreads_list no_strings) in H. exact H. }
  repeat match goal with |- _ /\ _ => split end; try (vm_compute; reflexivity).
  - repeat constructor; cbn; intuition discriminate.
  - intros a b H. destruct (Ndep _ _ H).
  - intros o n [<-|[]] [H|(g & _ & H)].
    + apply (spreads_list no_strings) in H. destruct H as [<-|[]]. now left.
    + exfalso. induction H as [a b H|a b c _ IH _ _]; [eapply Ndep; eassumption|exact IH].
Qed.
Print Assumptions C03_rejected_refuted.

(** ** C04 *)
(** Collecting fragments stops for every text and every registered document, however these
    mention each other: the recursion is never cut off by the model's bound. *)
Theorem C04_terminates : forall add text r e r', (forall d x, add d = Err x -> ecls x <> OutOfFuelC) ->
  replace_iteratively add text r = (Err e, r') -> ecls e <> OutOfFuelC.
Proof. exact terminates_C04. Qed.
Print Assumptions C04_terminates.
(** What is put in front of the text is the documents of fragments that are mentioned in the
    text or in the document of a mentioned fragment, each once. *)
Theorem C04_nothing_unrelated : forall add text r t r', replace_iteratively add text r = (Ok t, r') ->
  exists fs parts, NoDup fs /\ Forall2 (fun f p => text_of add (r_fragdocs r) f = Some p) fs parts
    /\ (forall f, In f fs -> mentioned (text_of add (r_fragdocs r)) text f) /\ document_of parts text t.
Proof. exact inlining_C04. Qed.
Print Assumptions C04_nothing_unrelated.
(** two fragments that mention each other, and one that nobody mentions *)
Definition cyc_reg : reg := with_fragdocs [("A", "A ...B"); ("B", "B ...A ...B"); ("C", "C ...A")] (init_reg default_config).
Example C04_ex : replace_iteratively (fun t => Ok t) "q ...A" cyc_reg
  = (Ok ("B ...A ...B" +s+ nl +s+ nl +s+ "A ...B" +s+ nl +s+ nl +s+ "q ...A"), cyc_reg).
Proof. reflexivity. Qed.
Example C04_error_ex : match fst (replace_iteratively (fun t => Ok t) "q ...D" cyc_reg) with
                       | Err e => ecls e = FragmentNotFoundErrorC | Ok _ => False end.
Proof. reflexivity. Qed.
