(** C44: class hierarchies of fragments and operations. *)
From Verif Require Import Base PyAst Gql Config Stylers Registry Utils Documents Inline Recurse Fragments Operations Objects Strawberry Spec_Mro Spec_Mro2 P_Base P_Gql P_Monad P_Mro P_Mro2 P_Mro5 Ex_Select Prop_Mro.

(** C44 for fragments and operations: Python can create the classes, in order, provided that
    - fragments that become bases together have no common part ([document_fits]; otherwise
      [C44_spread_order_refuted], [C44_spread_twice_refuted]),
    - fragments on unions are spread on unions only ([C44_union_base_refuted]),
    - inline fragments of union selections spread fragments on object types only
      ([C44_interface_base_refuted]),
    - the configured bases of objects, interfaces and fragments give one order, and no type has
      additional bases,
    - the module binds no name twice (see C10). *)
Theorem C44_selections_partial : forall c st s d sc pc pf addt oc po doc_of r lf r1 lo r2, valid_unions s -> document_fits s d -> c_additional_bases c = [] ->
  one_order sc [c_object_bases c; match c_interface_bases c with Some (b :: bs) => b :: bs | _ => c_object_bases c end;
                fr_bases pc ++ fr_object_bases pc ++ c_object_bases c; fr_bases pc ++ c_object_bases c] ->
  (forall b, In b [o_query_bases oc; o_mutation_bases oc; o_subscription_bases oc; o_arguments_bases oc] ->
     bases_order sc (base_names (match b with [] => c_object_bases c | _ => b end)) <> None) ->
  r_frags r = [] -> r_iffrag r = [] -> r_ufrag r = [] -> r_fragtypes r = [] ->
  fragments_plugin c st s pc pf addt d r = (Ok lf, r1) -> operations_plugin c st s oc po addt doc_of d r1 = (Ok lo, r2) -> all_new sc (lf ++ lo) -> constructible sc (lf ++ lo).
Proof. exact selections_C44. Qed.
Print Assumptions C44_selections_partial.

Definition frag_node : definition := DFrag (Fragment "FragNode" "Node" [] [plain "id"; on "User" [plain "userName"]]).
Definition fit_op : operation := sx_op []
  [SelField (sub "me" [spread "FragB"; spread "FragNode"]); SelField (sub "hits" [spread "FragHit"; on "User" [spread "FragA"]]); SelField (sub "node" [spread "FragNode"])].
Definition fit_doc : document := [frag_a; frag_b; frag_node; frag_hit; DOp fit_op].

Lemma part_closed : forall d f L g, In f L -> (forall x, In (DFrag x) d -> In (fr_name x) L -> incl (spreads (fr_sels x)) L) -> part_of d f g -> In g L.
Proof. intros d f L g Hf HC P. induction P as [|x h P IH Hx Hh]; [exact Hf|]. exact (HC x Hx IH h Hh). Qed.
Lemma apart_by : forall d f g L K, In f L -> In g K -> (forall x, In (DFrag x) d -> In (fr_name x) L -> incl (spreads (fr_sels x)) L) ->
  (forall x, In (DFrag x) d -> In (fr_name x) K -> incl (spreads (fr_sels x)) K) -> (forall h, In h L -> ~ In h K) -> apart d f g.
Proof. intros d f g L K Hf Hg HL HK N h Pf Pg. eapply N; eapply part_closed; eassumption. Qed.
Ltac in_doc H := cbn in H; repeat (destruct H as [H|H]; [try discriminate H; injection H as <-|]); [..|contradiction].
(** the selection sets of a document *)
Fixpoint sets_of (s : schema) (n : string) (x : selection) : list (string * list selection) :=
  match x with
  | SelField g => sets_field s n g
  | SelInline (Some i) _ k => (i, k) :: flat_map (sets_of s i) k
  | _ => []
  end
with sets_field (s : schema) (n : string) (g : fieldnode) : list (string * list selection) :=
  match g with
  | FieldNode _ f _ _ (Some k) => match get_field_def s n f with Some fd => (gty_name (fd_type fd), k) :: flat_map (sets_of s (gty_name (fd_type fd))) k | None => [] end
  | _ => []
  end.
Lemma sets_trans : forall s x n m k p, In (m, k) (sets_of s n x) -> In p (flat_map (sets_of s m) k) -> In p (sets_of s n x).
Proof.
  intros s. apply (sel_ind (fun x => forall n m k p, In (m, k) (sets_of s n x) -> In p (flat_map (sets_of s m) k) -> In p (sets_of s n x))).
  - intros a f ar ds n m k p H. contradiction.
  - intros a f ar ds l IH n m k p H J. cbn in H |- *. destruct (get_field_def s n f) as [fd|]; [|contradiction]. destruct H as [[= <- <-]|H]; right; [exact J|].
    apply in_flat_map in H as (x & Hx & H). apply in_flat_map. exists x. split; [exact Hx|]. rewrite Forall_forall in IH. eapply IH; eassumption.
  - intros f ds n m k p H. contradiction.
  - intros [i|] ds l IH n m k p H J; [|contradiction]. cbn in H |- *. destruct H as [[= <- <-]|H]; right; [exact J|].
    apply in_flat_map in H as (x & Hx & H). apply in_flat_map. exists x. split; [exact Hx|]. rewrite Forall_forall in IH. eapply IH; eassumption.
Qed.
Lemma occurs_sets : forall s n l m k, occurs s n l m k -> In (m, k) ((n, l) :: flat_map (sets_of s n) l).
Proof.
  assert (T : forall s n l m k p, In (m, k) ((n, l) :: flat_map (sets_of s n) l) -> In p (flat_map (sets_of s m) k) -> In p ((n, l) :: flat_map (sets_of s n) l)).
  { intros s n l m k p [[= <- <-]|H] J; right; [exact J|]. apply in_flat_map in H as (x & Hx & H). apply in_flat_map. exists x. split; [exact Hx|]. eapply sets_trans; eassumption. }
  intros s n l m k O. induction O as [|m k a f ar ds k' fd O IH Hf Hd|m k i ds k' O IH Hf]; [now left|..]; eapply T; try exact IH; apply in_flat_map; eexists; (split; [exact Hf|]).
  - cbn. rewrite Hd. now left.
  - now left.
Qed.
Ltac each_set O := apply occurs_sets in O; cbn in O; repeat (destruct O as [O|O]; [injection O as <- <-|]); [..|contradiction].
Ltac closed_ := let x := fresh "x" in let Hx := fresh "Hx" in let Hn := fresh "Hn" in intros x Hx Hn; in_doc Hx; cbn in Hn; try (intuition discriminate); intros ? Hy; cbn in Hy; cbn; tauto.
Ltac apart_ := eapply (apart_by _ _ _ ["FragA"; "FragB"] ["FragNode"]); [cbn; tauto|cbn; tauto|closed_|closed_|cbn; intros h Hh Hk; intuition congruence].
Ltac on_types_ := let x := fresh "x" in let Hx := fresh "Hx" in let Hn := fresh "Hn" in intros x Hx Hn; in_doc Hx; cbn in Hn; intuition (try discriminate; try reflexivity).
Ltac fits_ := split; [intros _; unfold all_apart; cbn; once (repeat constructor); try apart_|split; [let E := fresh "E" in intros E; first [discriminate E|on_types_]|
  let E := fresh "E" in let H := fresh "H" in intros E; first [discriminate E|
    intros ? ? ? H; cbn in H; repeat (destruct H as [H|H]; [try discriminate H; injection H as <- <- <-|]); [..|contradiction]; (split; [on_types_|unfold all_apart; cbn; once (repeat constructor)])]]].
Lemma fit_fits : document_fits sx fit_doc.
Proof.
  split; [|split].
  - repeat constructor; cbn; intuition discriminate.
  - intros x Hx. in_doc Hx; (split; [intros m k O; each_set O; (split; [|cbn; intuition discriminate]); fits_|intros E; try discriminate E]).
    split; [cbn; apply FOP_nil|]. intros c ds k H. cbn in H. repeat (destruct H as [H|H]; [try discriminate H; injection H as <- <- <-; reflexivity|]). contradiction.
  - intros o Ho. in_doc Ho. intros root m k [= <-] O. each_set O; fits_.
Qed.
Example C44_selections_ex : exists lf r1 lo r2, valid_unions sx /\ document_fits sx fit_doc
  /\ fragments_plugin default_config sst sx sel_fpc (fun _ => "fragment") (fun t => Ok t) fit_doc sx_reg = (Ok lf, r1)
  /\ operations_plugin default_config sst sx sx_pc (fun _ => "query") (fun t => Ok t) (fun _ => None) fit_doc r1 = (Ok lo, r2)
  /\ all_new builtin_scope (lf ++ lo) /\ one_order builtin_scope [c_object_bases default_config; c_object_bases default_config]
  /\ dget "FragB" (bases_of lf) = Some [EName "FragA"; EName "BaseModel"]
  /\ dget "GetMe" (bases_of lo) = Some [EName "FragB"; EName "FragNodeUser"; EName "BaseModel"].
Proof.
  do 4 eexists. split; [|split; [apply fit_fits|]]; [|split; [vm_compute; reflexivity|]; split; [vm_compute; reflexivity|]; split; [|split; [|split; vm_compute; reflexivity]]].
  - split; [repeat constructor; cbn; intuition discriminate|]. intros n d ms i H Hi. unfold get_type, sx, sx_types, s_types in H. cbn in H.
    repeat match type of H with (if ?b then _ else _) = _ => destruct b; [try discriminate H|] end; try discriminate H. injection H as <- <-. cbn in Hi. intuition (subst; reflexivity).
  - split; [repeat constructor; cbn; intuition discriminate|]. intros n H. split; [cbn in H; cbn; intuition (subst; discriminate)|]. intros k o K. cbn in K. cbn in H. intuition (try match goal with E : _ = (_, _) |- _ => injection E as <- <- end; subst; cbn in *; intuition discriminate).
  - eexists. intros b Hb. cbn in Hb. destruct Hb as [<-|[<-|[]]]; vm_compute; reflexivity.
Qed.

(** an interface fragment spread in an inline fragment of a union selection: the base is never
    defined *)
Theorem C44_interface_base_refuted : exists d l r', sel_run d = (Ok l, r') /\ NoDup (class_names l) /\ new_in builtin_scope l
  /\ dget "GetUserInlineFragment" (bases_of l) = Some [EName "FragNode"; EName "BaseModel"]
  /\ ~ In "FragNode" (class_names l) /\ ~ constructible builtin_scope l.
Proof.
  exists [frag_node; DOp (sx_op [] [SelField (sub "hits" [on "User" [spread "FragNode"; plain "userName"]; on "Post" [plain "id"]])])]. do 2 eexists. split; [vm_compute; reflexivity|]. split; [|split; [|split; [|split]]].
  - repeat constructor; cbn; intuition discriminate.
  - intros n H. split; [cbn in H; cbn; intuition (subst; discriminate)|]. intros k o K. cbn in K. cbn in H. intuition (try match goal with E : _ = (_, _) |- _ => injection E as <- <- end; subst; cbn in *; intuition discriminate).
  - vm_compute. reflexivity.
  - vm_compute. intuition discriminate.
  - intros H. apply H. vm_compute. reflexivity.
Qed.
Print Assumptions C44_interface_base_refuted.
