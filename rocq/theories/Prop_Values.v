(** C62: the input classes can be written as the valid input values. *)
From Verif Require Import Base PyAst Gql Config Stylers Registry Utils Documents Referencer Enums Inputs Run
  Spec_Types Spec_Inputs Spec_Refs Spec_Dispatch Spec_Names Spec_Pydantic Spec_Response Spec_Values P_Base P_InputProps P_Values P_Values2 Ex_Inputs.

(** C62.  The module of the enum and the input plugin, and of any other plugins: every valid value of an input type except null
    can be held by its class, and serialised from it.  Only valid values are serialised from it, if the default values of
    the schema belong to nullable fields and the configuration does not ask for undeclared fields.  [py p v]: the Python type [p], which is not of the module, has an instance that is
    serialised to [v]; [sc n v]: the server takes [v] for the scalar [n].  Missing for the full property: the cases of the
    refutations below, and unions of input types (C25). *)
Theorem C62_input_values_partial : forall c st ec ic s d py sc iter a b rest skip t,
  NoDup (dkeys (s_types s)) -> no_helper_enum s -> enum_values_named s -> unique_names d ->
  modelled_inputs s st (ic_skip_underscore ic) (ec_skip_underscore ec) (ec_skip_double_underscore ec) (fun n => exists p, dget n (r_scalars (init_reg c)) = Some p) ->
  generate_ast c iter (Plugin a (enums_plugin c st ec s (Ok d)) :: Plugin b (inputs_plugin c st ic s (Ok d)) :: rest) skip = Ok t ->
  (* no two classes have the same name, and none that of an imported class *)
  NoDup (owned t) ->
  (forall b, configured_base c (ic_bases ic) b -> ~ In (last_comp b) (owned t) /\ last_comp b <> "Enum") ->
  (* the Python type of a scalar stands for the values of the scalar *)
  (forall n p, dget n (r_scalars (init_reg c)) = Some p -> ~ In (last_comp p) (owned t) /\ (forall v, py (last_comp p) v <-> sc n v) /\ ~ sc n RNull) ->
  forall n, is_input s n -> (skipping c (ic_skip_unreferenced ic) = true \/ skipping c (ec_skip_unreferenced ec) = true -> needs s (variable_type d) n) ->
  (forall v, valid_input s sc (GNamed n) v -> v <> RNull -> dumps t py (JLeaf (style_with sty_input st n)) v)
  /\ (defaults_nullable s -> (forall m, is_input s m -> ~ extra_allowed c m) -> forall v, dumps t py (JLeaf (style_with sty_input st n)) v -> valid_input s sc (GNamed n) v /\ v <> RNull).
Proof. exact input_values. Qed.
Print Assumptions C62_input_values_partial.

(** ** Example: an enum, lists, a default, a recursive type, oneOf types of both forms *)
Definition vals_filter : string * typedef :=
  ("Filter", TInput None [("name", fld (req (ty "String"))); ("maxCount", fld_default (ty "Int") (PInt 10)); ("color", fld (ty "Color"));
                          ("tags", fld (req (GList (req (ty "String"))))); ("and", fld (GList (req (ty "Filter"))))] []).
Definition vals : schema := Schema (scalars ++ [color; vals_filter; by_id; by_name; selector; mixed]) None None None.
(** a value of the Python type [p] is marked with [p] *)
Definition marked (p : string) (v : data) : Prop := exists x, v = RScalar p x.
Definition served (n : string) (v : data) : Prop := exists p, dget n (r_scalars (init_reg default_config)) = Some p /\ marked (last_comp p) v.
Notation vals_run s :=
  (generate_ast default_config (fun l => l) [Plugin "e" (enums_plugin default_config ex_stylers ex_enums s (Ok [])); Plugin "i" (inputs_plugin default_config ex_stylers ex_plugin s (Ok []))] false).
Definition str (x : string) : data := RScalar "str" x.
Definition filter_value : data :=
  RObj [("tags", RList [str "a"; str "b"]); ("name", str "n"); ("color", RText "RED"); ("and", RList [RObj [("name", str "m"); ("maxCount", RNull); ("tags", RList [])]])].
Definition selector_value : data := RObj [("byId", RObj [("id", str "1")])].
Definition mixed_value : data := RObj [("ids", RList [str "1"; str "2"])].

Ltac elem H := cbn in H; repeat match type of H with _ \/ _ => destruct H as [H|H] | False => contradiction end; try discriminate H.
Ltac typed G := apply dget_Some_In in G; elem G; try discriminate G.
Lemma vals_modelled : modelled_inputs vals ex_stylers true false true (fun n => exists p, dget n (r_scalars (init_reg default_config)) = Some p).
Proof.
  split.
  - intros n d fs dirs u dn k G (x & Hx & Hn & _). typed G; injection G as <- <- <- <-; elem Hx; subst x; discriminate Hn.
  - intros n d fs dirs G. typed G; injection G as <- <- <- <-; apply nodupb_NoDup; reflexivity.
  - intros n d fs dirs k f G Hf. typed G; injection G as <- <- <- <-; elem Hf; injection Hf as <- <-; (split; [discriminate|vm_compute; intuition discriminate]).
  - intros n m (d & fs & dirs & G) (d' & fs' & dirs' & G'). typed G; injection G as <- <- <- <-; typed G'; injection G' as <- <- <- <-; vm_compute; congruence.
  - intros n (d & fs & dirs & G). typed G; injection G as <- <- <- <-; vm_compute; intuition discriminate.
  - intros n (d & fs & dirs & G) _. typed G; injection G as <- <- <- <-; reflexivity.
  - intros n (d & vs & G) _. typed G; injection G as <- <- <-. repeat split.
  - intros n (d & G) _. typed G; injection G as <- <-; eexists; reflexivity.
Qed.
Ltac inl := cbn; solve [repeat first [left; reflexivity|right]].
Ltac valid := match goal with
  | |- valid_input _ _ _ RNull => apply vi_null; reflexivity
  | |- valid_input _ _ (GNonNull _) _ => apply vi_nonnull; [valid|discriminate]
  | |- valid_input _ _ (GList _) _ => apply vi_list; let H := fresh in intros ? H; elem H; subst; valid
  | |- valid_input _ _ (GNamed _) (RScalar _ _) => eapply vi_scalar; [reflexivity|eexists; split; [reflexivity|eexists; reflexivity]]
  | |- valid_input _ _ (GNamed _) (RText _) => eapply vi_enum; [reflexivity|inl]
  | |- valid_input _ _ (GNamed _) (RObj _) => first
      [ eapply vi_oneof; [reflexivity|eexists; split; [now left|reflexivity]|first [left; reflexivity|right; left; reflexivity]|cbn [fld if_type]; unfold req, ty; valid]
      | eapply vi_object; [reflexivity| | | | |];
        [ let H := fresh in let X := fresh in intros (? & H & X); elem H; subst; discriminate X
        | apply nodupb_NoDup; reflexivity
        | let H := fresh in intros ? ? H; elem H; injection H as <- <-; inl
        | let H := fresh in let X := fresh in intros ? ? ? H X; elem H; injection H as <- <-; elem X; injection X as <-; cbn [fld fld_default if_type]; unfold req, ty; valid
        | let H := fresh in let X := fresh in intros ? ? H X; elem H; injection H as <- <-; first [left; reflexivity|right; discriminate|exfalso; apply X; inl] ] ]
  end.
Lemma filter_valid : valid_input vals served (GNamed "Filter") filter_value. Proof. unfold filter_value, str, req, ty. valid. Qed.
Lemma selector_valid : valid_input vals served (GNamed "Selector") selector_value. Proof. unfold selector_value, str. valid. Qed.
Lemma mixed_valid : valid_input vals served (GNamed "Mixed") mixed_value. Proof. unfold mixed_value, str. valid. Qed.
Lemma vals_nullable : defaults_nullable vals.
Proof. intros n d fs dirs k f G Hf HN. typed G; injection G as <- <- <- <-; elem Hf; injection Hf as <- <-; try (exfalso; apply HN; reflexivity). reflexivity. Qed.
Lemma default_strict : forall m, is_input vals m -> ~ extra_allowed default_config m.
Proof. intros m _ [[_ H]|(? & ? & _ & _ & H & _)]; discriminate H. Qed.
Definition two_selectors : data := RObj [("byId", RObj [("id", str "1")]); ("byName", RObj [("name", str "x")])].
Lemma vals_runs : exists t, vals_run vals = Ok t /\ owned t = ["GraphQLDefault"; "Color"; "Filter"; "ById"; "ByName"; "MixedFlag"; "MixedIds"; "Mixed"; "Selector"].
Proof. eexists. split; [vm_compute; reflexivity|]. reflexivity. Qed.
Example C62_ex : NoDup (dkeys (s_types vals)) /\ no_helper_enum vals /\ enum_values_named vals /\ defaults_nullable vals
  /\ exists t, vals_run vals = Ok t /\ owned t = ["GraphQLDefault"; "Color"; "Filter"; "ById"; "ByName"; "MixedFlag"; "MixedIds"; "Mixed"; "Selector"]
     /\ dumps t marked (JLeaf "Filter") filter_value /\ dumps t marked (JLeaf "Selector") selector_value /\ dumps t marked (JLeaf "Mixed") mixed_value
     /\ ~ dumps t marked (JLeaf "Selector") two_selectors /\ ~ dumps t marked (JLeaf "ById") (RObj []).
Proof.
  assert (A1 : NoDup (dkeys (s_types vals))) by (apply nodupb_NoDup; reflexivity).
  assert (A2 : no_helper_enum vals) by (intros n d vs G; typed G; injection G as <- <- <-; cbn; intuition discriminate).
  assert (A3 : enum_values_named vals) by (intros n d vs k v G Hv; typed G; injection G as <- <- <-; elem Hv; injection Hv as <- <-; reflexivity).
  split; [exact A1|]. split; [exact A2|]. split; [exact A3|]. split; [exact vals_nullable|].
  destruct vals_runs as (t & E & O). exists t. split; [exact E|].
  split; [exact O|].
  assert (T : forall n, is_input vals n ->
    (forall v, valid_input vals served (GNamed n) v -> v <> RNull -> dumps t marked (JLeaf (style_with sty_input ex_stylers n)) v)
    /\ (forall v, dumps t marked (JLeaf (style_with sty_input ex_stylers n)) v -> valid_input vals served (GNamed n) v)).
  { intros n Hn.
    destruct (C62_input_values_partial default_config ex_stylers ex_enums ex_plugin vals [] marked served (fun l => l) "e" "i" [] false t A1 A2 A3) with (n := n) as [H1 H2].
    - split; constructor.
    - exact vals_modelled.
    - exact E.
    - rewrite O. apply nodupb_NoDup. reflexivity.
    - rewrite O. intros b Hb. destruct Hb as [Hb|[(l & X & _)|[(m & l & X & _)|Hb]]]; try discriminate X; elem Hb; subst b; (split; [vm_compute; intuition discriminate|discriminate]).
    - rewrite O. intros m p Hp. split; [|split].
      + apply dget_Some_In in Hp. vm_compute in Hp. elem Hp; injection Hp as <- <-; vm_compute; intuition discriminate.
      + intros v. unfold served. split; [intros Hv; eauto|]. intros (p' & Hp' & Hv). rewrite Hp in Hp'. injection Hp' as <-. exact Hv.
      + intros (p' & _ & (x & X)). discriminate X.
    - exact Hn.
    - intros [X|X]; discriminate X.
    - split; [exact H1|]. intros v Hv. apply (H2 vals_nullable default_strict v Hv). }
  split; [|split; [|split; [|split]]].
  - refine (proj1 (T "Filter" _) _ filter_valid _); [do 3 eexists; reflexivity|discriminate].
  - refine (proj1 (T "Selector" _) _ selector_valid _); [do 3 eexists; reflexivity|discriminate].
  - refine (proj1 (T "Mixed" _) _ mixed_valid _); [do 3 eexists; reflexivity|discriminate].
  - intros D. clear E; apply (T "Selector") in D; [|do 3 eexists; reflexivity]. inversion D; subst; try discriminate.
    match goal with H : get_type vals "Selector" = Some (TInput _ _ _) |- _ => injection H as <- <- <- end.
    match goal with H : ~ is_oneof _ |- _ => apply H; exists one_of; split; [now left|reflexivity] end.
  - intros D. clear E; apply (T "ById") in D; [|do 3 eexists; reflexivity]. inversion D; subst; try discriminate.
    match goal with H : get_type vals "ById" = Some (TInput _ _ _) |- _ => injection H as <- <- <- end.
    match goal with H : forall k f, In (k, f) _ -> _ |- _ => destruct (H _ _ (or_introl eq_refl) (fun x => x)) as [X|X]; [discriminate X|apply X; reflexivity] end.
Qed.

(** ** What is missing *)
(** a field that is not nullable but has a default value can be set to [None]: [b: Int! = 3] *)
Definition with_default : schema := Schema (scalars ++ [("Page", TInput None [("size", fld_default (req (ty "Int")) (PInt 3))] [])]) None None None.
Theorem C62_default_refuted : exists t, vals_run with_default = Ok t /\ NoDup (owned t)
  /\ dumps t marked (JLeaf "Page") (RObj [("size", RNull)]) /\ ~ valid_input with_default served (GNamed "Page") (RObj [("size", RNull)]).
Proof.
  eexists. split; [vm_compute; reflexivity|]. assert (ND : forall l, nodupb l = true -> NoDup l) by (intros l; apply nodupb_NoDup). split; [apply ND; reflexivity|]. split.
  - eapply (model_dumps _ _ False); [apply ND; reflexivity| | | |].
    + do 2 eexists. split; [eexists; inl|]. split; [|split; [reflexivity|split; [apply ND; reflexivity|split; [|intros []]]]];
        [|intros g Hg; elem Hg; subst g; split; [discriminate|vm_compute; intuition discriminate]].
      intros b Hb. elem Hb. subst b. eexists. split; [reflexivity|]. cbn. split; [intuition discriminate|discriminate].
    + apply ND. reflexivity.
    + intros k v Hv. elem Hv. injection Hv as <- <-. do 3 eexists. split; [left; reflexivity|]. split; [reflexivity|]. apply (Holds _ _ _ JNull); [cbn; tauto|constructor].
    + intros n a v Hf Hn. elem Hf. injection Hf as <- <- <-. reflexivity.
  - intros D. inversion D; subst; try discriminate.
    match goal with H : get_type with_default "Page" = Some (TInput _ _ _) |- _ => injection H as <- <- <- end.
    match goal with H : forall k v f, In (k, v) _ -> In (k, f) _ -> _ |- _ => specialize (H _ _ _ (or_introl eq_refl) (or_introl eq_refl)); inversion H; subst; [discriminate|congruence] end.
    match goal with H : get_type with_default "Page" = Some (TInput _ _ _) |- _ => injection H as <- <- <- end.
    match goal with H : is_oneof _ |- _ => destruct H as (? & [] & _) end.
Qed.
Print Assumptions C62_default_refuted.
(** two fields whose names become the same attribute: one of them cannot be set *)
Definition colliding : schema := Schema (scalars ++ [("Pair", TInput None [("userName", fld (ty "Int")); ("user_name", fld (ty "Int"))] [])]) None None None.
Definition pair_value : data := RObj [("userName", RScalar "int" "1"); ("user_name", RScalar "int" "2")].
Theorem C62_attributes_refuted : exists t, vals_run colliding = Ok t /\ NoDup (owned t)
  /\ valid_input colliding served (GNamed "Pair") pair_value /\ ~ dumps t marked (JLeaf "Pair") pair_value.
Proof.
  eexists. split; [vm_compute; reflexivity|]. split; [apply nodupb_NoDup; reflexivity|]. split; [unfold pair_value; valid|].
  intros D. inversion D as [| |p v HO| | |k e v HA|]; subst.
  - apply HO. cbn. tauto.
  - match goal with H : forall key v, In (key, v) _ -> _ |- _ => specialize (H "userName" _ (or_introl eq_refl)); inversion H as [? n a val ? HF HH E|? ? ? HX]; subst; [|inversion HX as [? ? ? (decs & HC) HE|? ? ? b (decs & HC) HB HX']; subst; elem HC; injection HC as <- <- <-] end.
    1: inversion HF as [? ? ? n' ? (decs & HC) HL HPV|? ? ? ? ? (decs & HC) HB ? HF']; subst; elem HC; injection HC as <- <- <-.
    + assert (X : n' = "user_name").
      { unfold last_field in HL. apply find_some in HL as [HL HE]. apply String.eqb_eq in HE. cbn [fst] in HE. rewrite <- HE. elem HL; injection HL; congruence. }
      subst n'. vm_compute in HL. injection HL as <- <- <-. match goal with E : wire_name _ _ = _ |- _ => discriminate E end.
    + elem HB. injection HB as <-. inversion HF' as [? ? ? ? ? (decs' & HC)|? ? ? ? ? (decs' & HC)]; elem HC.
    + elem HE.
    + elem HB. injection HB as <-. inversion HX' as [? ? ? (decs' & HC)|? ? ? ? (decs' & HC)]; elem HC.
  - elem HA.
Qed.
Print Assumptions C62_attributes_refuted.
(** a field whose name has an underscore in front, as in the schemas of Hasura: it is never sent *)
Definition operators : schema := Schema (scalars ++ [("IntFilter", TInput None [("_eq", fld (ty "Int"))] [])]) None None None.
Definition operator_value : data := RObj [("_eq", RScalar "int" "1")].
Theorem C62_private_refuted : exists t, vals_run operators = Ok t /\ NoDup (owned t)
  /\ valid_input operators served (GNamed "IntFilter") operator_value /\ ~ dumps t marked (JLeaf "IntFilter") operator_value
  /\ dumps t marked (JLeaf "IntFilter") (RObj []).
Proof.
  eexists. split; [vm_compute; reflexivity|]. split; [apply nodupb_NoDup; reflexivity|]. split; [unfold operator_value; valid|]. split.
  - intros D. inversion D as [| |p v HO| | |k e v HA|]; subst.
    + apply HO. cbn. tauto.
    + match goal with H : forall key v, In (key, v) _ -> _ |- _ => specialize (H "_eq" _ (or_introl eq_refl)); inversion H as [? n a val ? HF HH E|? ? ? HX]; subst; [|inversion HX as [? ? ? (decs & HC) HE|? ? ? b (decs & HC) HB HX']; subst; elem HC; injection HC as <- <- <-] end.
      1: inversion HF as [? ? ? n' ? (decs & HC) HL HPV|? ? ? ? ? (decs & HC) HB ? HF']; subst; elem HC; injection HC as <- <- <-.
      * apply HPV. unfold last_field in HL. apply find_some in HL as [HL HE]. apply String.eqb_eq in HE. cbn [fst] in HE. rewrite <- HE. elem HL; injection HL as <- _ _.
        unfold private_name. match goal with W : wire_name _ _ = "_eq" |- _ => rewrite W end. reflexivity.
      * elem HB. injection HB as <-. inversion HF' as [? ? ? ? ? (decs' & HC)|? ? ? ? ? (decs' & HC)]; elem HC.
      * elem HE.
      * elem HB. injection HB as <-. inversion HX' as [? ? ? (decs' & HC)|? ? ? ? (decs' & HC)]; elem HC.
    + elem HA.
    + match goal with W : wrapped_by _ _ _ _ _ _ |- _ => destruct W as (f & pre & av & ah & ret & mid & post & _ & E & _) end.
      assert (HI : forall x, In x (pre ++ SFunc false f (PyArgs [PyArg pv av; PyArg ph ah] []) body ret [] :: mid ++ SAssign (EName "IntFilter") e :: post) -> match x with SAssign _ _ => False | _ => True end).
      { rewrite <- E. intros x Hx. elem Hx; subst x; exact I. }
      apply (HI (SAssign (EName "IntFilter") e)). rewrite in_app_iff. right. right. rewrite in_app_iff. right. now left.
  - eapply dp_model; [eexists; inl|cbn; intuition discriminate| |constructor|intros ? ? []|].
    + intros n a v H. elem H. injection H as <- <- <-. split; [cbn; intuition discriminate|]. intros _ (args & kws & X). discriminate X.
    + intros n a v HF _. inversion HF as [? ? ? n' ? (decs & HC) HL HPV|? ? ? ? ? (decs & HC) HB ? HF']; subst; elem HC; injection HC as <- <- <-.
      * apply last_field_inv in HL. elem HL. injection HL as <- <- <-. reflexivity.
      * elem HB. injection HB as <-. inversion HF' as [? ? ? ? ? (decs' & HC)|? ? ? ? ? (decs' & HC)]; elem HC.
Qed.
Print Assumptions C62_private_refuted.
