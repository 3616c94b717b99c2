(** C65: the starter templates generate modules that can be imported. *)
From Verif Require Import Base PyAst Gql Config Stylers Registry Strawberry Enums Inputs Inline Print Fragments Operations Funcs Run
  Spec_Docs Spec_Refs Spec_Imports Spec_Inputs Spec_Types Spec_Scope Spec_Scope2 Spec_Scope3 Spec_Inline Spec_Valid Spec_ValidDoc Spec_ValidFuncs Spec_Naming Spec_Syntax Spec_Syntax2 Spec_Syntax3 Templates Spec_Templates
  P_Base P_InputProps P_Print P_Total4 P_Total8 P_Scope8 P_Scope9 P_Templates Ex_Select Prop_Inline Prop_Total Prop_TotalDoc Prop_TotalFuncs Prop_Scope Prop_Scope2 Prop_Scope3 Prop_Scope4 Prop_Syntax.

(** C65, template "documents": a module is generated, it is valid Python, and it looks up bound names only.  Missing: the schemas and
    documents [client_ready] leaves out, see C59, C60 and C63. *)
Theorem C65_documents_partial : forall s d ps add, client_ready s d ps add -> forall iter bi doc_of, set_order iter -> incl simple_types bi ->
  exists t, documents_template iter s d ps add doc_of = Ok t /\ valid_module t = true /\ scoped (fun n => In n bi) t.
Proof. exact documents_template_ok. Qed.
Print Assumptions C65_documents_partial.
(** template "gql" *)
Theorem C65_gql_partial : forall s d ps add, client_ready s d ps add -> functions_ready s d template_stylers gql_functions ->
  forall iter doc_of, set_order iter -> forall bi, incl simple_types bi ->
  exists t, functions_template gql_functions iter s d ps add doc_of = Ok t /\ valid_module t = true /\ scoped (fun n => In n bi) t.
Proof.
  intros s d ps add R F iter doc_of HO bi HB. destruct (functions_template_ok _ _ _ _ R _ _ _ F iter doc_of HO) as (t & E & V & S). exists t. split; [exact E|]. split; [exact V|].
  apply S; [exact HB|]. intros k [[]|(def & Hd & Hk)]. by_elem Hd; subst def; destruct Hk.
Qed.
Print Assumptions C65_gql_partial.
(** template "rath": valid Python, but see [C65_rath_refuted] *)
Theorem C65_rath_partial : forall s d ps add, client_ready s d ps add -> functions_ready s d template_stylers rath_functions ->
  forall iter doc_of, set_order iter -> exists t, functions_template rath_functions iter s d ps add doc_of = Ok t /\ valid_module t = true.
Proof. intros s d ps add R F iter doc_of HO. destruct (functions_template_ok _ _ _ _ R _ _ _ F iter doc_of HO) as (t & E & V & _). eauto. Qed.
Print Assumptions C65_rath_partial.
(** template "strawberry" *)
Theorem C65_strawberry_partial : forall s directives applied, server_ready s directives applied template_stylers -> forall iter bi, set_order iter -> incl simple_types bi -> In "None" bi ->
  exists t, server_template iter s directives applied = Ok t /\ valid_module t = true /\ scoped_paths (fun n => In n bi) t /\ quotes_bound (fun n => In n bi) t.
Proof. exact server_template_ok. Qed.
Print Assumptions C65_strawberry_partial.

(** ** Examples *)
Lemma vf_client : client_ready vf vf_doc no_strings (add_for vf_doc).
Proof.
  destruct C54_ex as (A1 & A2 & A3 & A4 & A5 & A6 & A7 & A8 & A9 & _). destruct C60_functions_ex as (_ & _ & B1 & _ & _ & B2 & _ & B3 & B4 & B5 & B6 & _).
  constructor; try assumption.
  - exact vf_named.
  - intros k t n H M I. destruct (in_app_or _ _ _ (A4 k t n H M I)) as [K|K]; [now right|destruct K].
  - exact (proj1 B1 eq_refl).
  - intros k t n H I M E. by_type H; by_elem M; subst n; try discriminate E; reflexivity.
  - exact vf_doc_named.
  - exact vf_flat.
  - intros e E S. destruct (proj1 B2 e E S) as (K1 & _ & K2). split; [exact K1|exact (K2 eq_refl)].
  - exact vf_classes.
  - intros o v n Ho Hv E. destruct (A9 o v n Ho Hv E) as (K1 & _ & K2). split.
    + intros I. destruct (in_app_or _ _ _ (K1 I)) as [K|K]; [now right|destruct K].
    + intros I. generalize (proj1 (K2 I)). unfold underscored. cbn [andb]. intros K. now apply orb_false_iff in K.
  - intros _. exact B6.
Qed.
Lemma vf_functions : forall pc, (pc = gql_functions \/ pc = rath_functions) -> functions_ready vf vf_doc template_stylers pc.
Proof.
  intros pc Hpc. constructor.
  - split.
    + intros o f (Ho & _) Hf. by_elem Ho; subst o; by_elem Hf; injection Hf as <-; reflexivity.
    + intros o v x (Ho & _) Hv. by_elem Ho; subst o; by_elem Hv; subst v; cbn; intros [= <-]; reflexivity.
    + intros o v _ _ [].
    + intros o f root t (Ho & _) _ Hs R Ft. by_elem Ho; subst o; try discriminate Hs; injection Hs as <-; injection R as <-; injection Ft as <-; [|reflexivity].
      intros g Hg. injection Hg as <-. discriminate.
  - intros o e _ (E & H). unfold Spec_Valid.is_enum in E. destruct (get_type vf e) as [t|] eqn:G; [|discriminate]. apply dget_Some_In in G. by_type G; try discriminate E. vm_compute. intuition discriminate.
  - intros n (d & f & ds & G). apply dget_Some_In in G. by_elem G; try discriminate G; injection G as <- _ _ _; vm_compute; discriminate.
  - exact vf_roots.
  - constructor.
    + intros def a Hd Ha. destruct Hpc; subst pc; by_elem Hd; subst def; by_elem Ha; subst a; split; reflexivity.
    + intros def k Hd Hk. destruct Hpc; subst pc; by_elem Hd; subst def; by_elem Hk; subst k; split; reflexivity.
    + intros def Hd. destruct Hpc; subst pc; by_elem Hd; subst def; reflexivity.
    + intros k p H. destruct Hpc; subst pc; by_elem H.
    + intros o n def H E Hd _. by_elem H; try discriminate H; injection H as <-; injection E as <-; destruct Hpc; subst pc; by_elem Hd; subst def; reflexivity.
    + intros o H v _ K. destruct Hpc; subst pc; by_elem K.
    + intros o def H Hd _. by_elem H; try discriminate H; injection H as <-; destruct Hpc; subst pc; by_elem Hd; subst def; apply nodupb_NoDup; reflexivity.
Qed.
Definition names_of (t : list stmt) : list string := flat_map (fun x => match x with SClass n _ _ _ => [n] | SFunc _ n _ _ _ _ => [n +s+ "()"] | _ => [] end) t.
Definition no_doc (o : operation) : option string := None.
Example C65_ex : client_ready vf vf_doc no_strings (add_for vf_doc) /\ functions_ready vf vf_doc template_stylers gql_functions /\ functions_ready vf vf_doc template_stylers rath_functions
  /\ (exists t, documents_template (@rev string) vf vf_doc no_strings (add_for vf_doc) no_doc = Ok t
      /\ names_of t = ["GraphQLDefault"; "Color"; "Filter"; "PersonFriends"; "Person"; "GetMe"; "Colors"; "PutPut"; "Put"])
  /\ exists t, functions_template gql_functions (@rev string) vf vf_doc no_strings (add_for vf_doc) no_doc = Ok t
      /\ names_of t = ["UnsetType"; "GraphQLDefault"; "Color"; "Filter"; "PersonFriends"; "Person"; "GetMe"; "Colors"; "PutPut"; "Put"; "get_me()"; "colors()"; "put()"].
Proof.
  split; [exact vf_client|]. split; [apply vf_functions; now left|]. split; [apply vf_functions; now right|].
  split; eexists; (split; [vm_compute; reflexivity|reflexivity]).
Qed.
Lemma vs_server : server_ready vs vs_directives never template_stylers.
Proof.
  constructor.
  - now apply valid_b_ok.
  - exact vs_named.
  - intros n t m H _ M. assert (Z : forall t' x, In x (s_types vs) -> snd x = t' -> forall m, Spec_Scope3.mentions t' m -> reserved m = false).
    { clear. intros t' x Hx <- m [(k & f & Hf & Hm)|(a & b & e & k & f & E & Hf & Hm)]; by_elem Hx; subst x; try discriminate E.
      all: try (by_elem Hf; injection Hf as <- <-; first [destruct Hm as [<-|(y & Hy & <-)]; [reflexivity|by_elem Hy; subst y; reflexivity]|idtac]).
      injection E as <- <- <-. by_elem Hf; injection Hf as <- <-; subst m; reflexivity. }
    destruct M as [M|(u & d & ms & _ & G & _)]; [exact (Z t (n, t) H eq_refl m M)|]. apply dget_Some_In in G. by_elem G; discriminate G.
  - intros n (d & f & ds & G). apply dget_Some_In in G. by_elem G; try discriminate G. injection G as <- _ _ _. reflexivity.
  - intros k t i H _ K. by_type H; by_elem K; subst i. split; [reflexivity|discriminate].
  - exact sc_proper.
  - intros n E H. unfold Spec_Valid.is_enum in E. destruct (get_type vs n) as [t|] eqn:G; [|discriminate]. apply dget_Some_In in G. by_type G; try discriminate E. vm_compute in H. intuition discriminate.
  - exact sc_declared.
  - intros k t H. split; [|intros f fd K]; intros d a v Hd _ Ha; by_type H; try by_elem K; try injection K as <- <-; by_elem Hd; try subst d; by_elem Ha; injection Ha as <- <-; reflexivity.
  - intros d a ad Hd B Ha. by_elem Hd; subst d; by_elem Ha; injection Ha as <- <-; vm_compute; tauto.
  - destruct vs_scaffold as [V1 V2 V3 V4 V5]. constructor; assumption.
Qed.
Example C65_strawberry_ex : server_ready vs vs_directives never template_stylers
  /\ exists t, server_template (@rev string) vs vs_directives never = Ok t /\ names_of t = ["cost"; "Color"; "Filter"; "Node"; "Query"; "Subscription"].
Proof. split; [exact vs_server|]. eexists. split; [vm_compute; reflexivity|reflexivity]. Qed.

(** ** Refutation: the functions of the template for rath have a keyword argument with the annotation [Optional[Rath]], and nothing imports
    [Optional] if no field and no variable is nullable *)
Definition vr : schema := Schema [("Query", TObject None [] [("number", out (GNonNull (GNamed "Int")))] []); ("Int", TScalar None); ("String", TScalar None)] (Some "Query") None None.
Definition vr_doc : document := [DOp (Operation OpQuery (Some "Get") [] [] [plain "number"])].
Lemma vr_client : client_ready vr vr_doc no_strings (add_for vr_doc).
Proof.
  assert (NE : forall e, ~ Spec_Refs.is_enum vr e) by (intros e (a & b & G); apply dget_Some_In in G; by_elem G; discriminate G).
  assert (NF : forall f, ~ In (DFrag f) vr_doc) by (intros f H; by_elem H; discriminate H).
  constructor.
  - now apply valid_b_ok.
  - constructor.
    + intros n t H. by_type H; reflexivity.
    + intros n t k H K. by_type H; by_elem K; subst k; reflexivity.
    + intros n de ms m H K. by_elem H; discriminate H.
    + intros n de vs k v H K. by_elem H; discriminate H.
    + intros n de fs dirs u dn k H _. by_elem H; discriminate H.
  - reflexivity.
  - intros k t n H Hn E. by_type H; by_elem Hn; subst n; vm_compute; tauto.
  - split; [apply nodupb_NoDup; reflexivity|]. split; intros until 1; by_elem H; discriminate H.
  - intros n (a & b & e & G). apply dget_Some_In in G. by_elem G; discriminate G.
  - intros k t n H I. by_type H; discriminate I.
  - intros n E. exfalso. apply (NE n). unfold Spec_Valid.is_enum in E. unfold Spec_Refs.is_enum. destruct (get_type vr n) as [[]|]; try discriminate E. eauto.
  - now apply (valid_doc_ok _ _ (rank_in [])).
  - split.
    + intros o Ho. by_elem Ho; subst o; eexists; reflexivity.
    + intros o x root Ho R Hx. by_elem Ho; subst o; injection R as <-; by_elem Hx; subst x; (split; [eexists; reflexivity|reflexivity]).
    + intros o v x Ho Hv. by_elem Ho; subst o. by_elem Hv.
    + intros f Hf. by_elem Hf.
    + intros f n Hf. by_elem Hf.
    + intros f Hf. by_elem Hf.
    + intros o Ho. by_elem Ho; subst o; readable.
  - constructor; [|intros f H; now apply NF in H]. intros o H. by_elem H. injection H as <-. repeat split. intros v [].
  - split; [|intros f H; now apply NF in H]. intros o H. by_elem H. injection H as <-. split; [flatten|]. intros x Hx. by_elem Hx; subst x; cbn; tauto.
  - intros e E. now apply NE in E.
  - intros fr H. now apply NF in H.
  - intros fr c dirs sub f dirs' H. now apply NF in H.
  - intros f H. now apply NF in H.
  - intros o v H Hv. by_elem H. injection H as <-. by_elem Hv.
  - intros o v n Ho Hv. by_elem Ho; subst o. by_elem Hv.
  - intros (o & v & H & Hv & _). by_elem H. injection H as <-. by_elem Hv.
Qed.
Lemma vr_functions : functions_ready vr vr_doc template_stylers rath_functions.
Proof.
  assert (NE : forall e, Spec_Valid.is_enum vr e = false) by (intros e; unfold Spec_Valid.is_enum; destruct (get_type vr e) as [t|] eqn:G; [|reflexivity]; apply dget_Some_In in G; by_type G; reflexivity).
  constructor.
  - split.
    + intros o f (Ho & _) Hf. by_elem Ho; subst o; by_elem Hf; injection Hf as <-; reflexivity.
    + intros o v x (Ho & _) Hv. by_elem Ho; subst o; by_elem Hv.
    + intros o v _ _ [].
    + intros o f root t (Ho & _) _ Hs R Ft. by_elem Ho; subst o. injection Hs as <-; injection R as <-; injection Ft as <-. reflexivity.
  - intros o e _ (E & _). rewrite NE in E. discriminate.
  - intros n (d & f & ds & G). apply dget_Some_In in G. by_elem G; discriminate G.
  - intros o root f fd Ho R Hf G. by_elem Ho. injection Ho as <-. injection R as <-. by_elem Hf. injection Hf as <-. vm_compute in G. injection G as <-. vm_compute. intuition discriminate.
  - constructor.
    + intros def a Hd Ha. by_elem Hd; subst def; by_elem Ha.
    + intros def k Hd Hk. by_elem Hd; subst def; by_elem Hk; subst k; split; reflexivity.
    + intros def Hd. by_elem Hd; subst def; reflexivity.
    + intros k p H. by_elem H.
    + intros o n def H E Hd _. by_elem H. injection H as <-; injection E as <-; by_elem Hd; subst def; reflexivity.
    + intros o H v _ K. by_elem K.
    + intros o def H Hd _. by_elem H. injection H as <-; by_elem Hd; subst def; apply nodupb_NoDup; reflexivity.
Qed.
Theorem C65_rath_refuted : exists s d, client_ready s d no_strings (add_for d) /\ functions_ready s d template_stylers rath_functions
  /\ looks_up (functions_template rath_functions (@rev string) s d no_strings (add_for d) no_doc) "Optional".
Proof. exists vr, vr_doc. split; [exact vr_client|]. split; [exact vr_functions|]. unbound_tac. Qed.
Print Assumptions C65_rath_refuted.
