(** Attributes of operation classes and of input classes. *)
From Verif Require Import Base PyAst Gql Config Stylers Registry Utils Documents Inline Referencer Enums Inputs Recurse Fragments Operations Objects
  Spec_Types Spec_Refs Spec_Inputs Spec_Fields Spec_Naming Spec_Names P_Base P_Monad P_Inputs P_InputProps P_Args P_Attr.

Lemma operation_root_C09 : forall c st s pc po add doc_of o r l r', Forall shipped st ->
  generate_operation c st s pc po add doc_of o r = (Ok l, r') ->
  exists classes cls bases body fields, l = classes ++ [SClass cls bases body []]
    /\ op_sels o = map SelField fields /\ map wire (class_fields body) = map response_key fields
    /\ (NoDup (map folded (map response_key fields)) -> NoDup (map attribute (class_fields body))).
Proof.
  intros until r'. intros HS H. assert (G := post_operation _ _ _ _ _ _ _ _ _ _ _ H).
  apply operation_C08 in H as (classes & cls & bases & body & fields & -> & E & W). exists classes, cls, bases, body, fields.
  split; [reflexivity|]. split; [exact E|]. split; [exact W|]. intros N.
  eapply nodup_attributes; [exact HS| |exact W|exact N]. eapply class_goods; [exact G|apply in_or_app; right; now left].
Qed.
Lemma input_type_C09 : forall c st pc s documents r r' body, Forall shipped st ->
  no_helper_enum s -> NoDup (dkeys (s_types s)) -> names_styled st r ->
  generate_inputs c st pc s documents r = (Ok body, r') ->
  exists refd,
  referenced_inputs (skipping c (ic_skip_unreferenced pc)) s documents refd
  /\ forall key t, In (key, t) (schema_inputs s) ->
       ~ union_member refd t -> ~ input_skipped (ic_skip_underscore pc) refd key -> ~ is_oneof t -> ~ union_target refd s key ->
       NoDup (map folded (map fst (id_fields t))) ->
       exists bases b decs, In (SClass (style_with sty_input st key) bases b decs) body
         /\ map wire (class_fields b) = map fst (id_fields t) /\ NoDup (map attribute (class_fields b)).
Proof.
  intros c st pc s documents r r' body HS HB HN HR H. assert (G := post_inputs _ _ _ _ _ _ _ _ H).
  destruct (plain_inputs _ _ _ _ _ _ _ _ HB HN HR H) as (refd & R & P). exists refd. split; [exact R|].
  intros key t Hin H1 H2 H3 H4 N. destruct (P key t Hin H1 H2 H3 H4) as (stm & Hs & bases & b & decs & dfl & fl & -> & E & D & F).
  exists bases, b, decs. split; [exact Hs|]. inversion D; subst. cbn [app] in E.
  assert (W : map wire (class_fields b) = map fst (id_fields t)).
  { rewrite E. clear -F. cbn [map mem] in F. revert fl F. induction (id_fields t) as [|kv l IH]; intros fl F; cbn in F.
    - inversion F. reflexivity.
    - inversion F as [|? ? ? ? [_ W _ _] F']; subst. cbn [map]. rewrite (IH _ F'). f_equal. exact W. }
  split; [exact W|]. eapply nodup_attributes; [exact HS| |exact W|exact N]. eapply class_goods; eassumption.
Qed.
