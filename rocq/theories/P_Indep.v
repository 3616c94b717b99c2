(** Computations that change and look at nothing but the sets of imports, built-ins and forward
    references: their results depend on the rest of the registry only, which they leave alone. *)
From Verif Require Import Base PyAst Gql Config Stylers Registry Utils Funcs P_Base P_Monad P_Annot.

Definition core (r : reg) : reg := with_imports [] (with_builtins [] (with_fwd [] r)).
Definition indep {A} (m : M A) : Prop :=
  (forall r, core (snd (m r)) = core r) /\ (forall r r', core r = core r' -> fst (m r) = fst (m r')).
Lemma indep_ret : forall {A} (a : A), indep (ret a).
Proof. intros; split; reflexivity. Qed.
Lemma indep_raise : forall {A} c m, indep (@raise A c m).
Proof. intros; split; reflexivity. Qed.
Lemma indep_lift : forall {A} (x : res A), indep (lift x).
Proof. intros; split; reflexivity. Qed.
Lemma indep_from_opt : forall {A} (o : option A) c m, indep (from_opt o c m).
Proof. intros A [] c m; split; reflexivity. Qed.
Lemma indep_massert : forall b m, indep (massert b m).
Proof. intros [] m; split; reflexivity. Qed.
Lemma indep_gets : forall {A} (f : reg -> A), (forall r, f (core r) = f r) -> indep (gets f).
Proof. intros A f H; split; [reflexivity|]. intros r r' E. cbn. now rewrite <- (H r), <- (H r'), E. Qed.
Lemma indep_modify : forall f, (forall r, core (f r) = core r) -> indep (modify f).
Proof. intros f H; split; [exact H|reflexivity]. Qed.
Lemma indep_bind : forall {A B} (m : M A) (k : A -> M B), indep m -> (forall a, indep (k a)) -> indep (bind m k).
Proof.
  intros A B m k [M1 M2] K. split.
  - intros r. unfold bind. specialize (M1 r). destruct (m r) as [[a|e] r1]; cbn in *; [|exact M1].
    destruct (K a) as [K1 _]. now rewrite K1.
  - intros r r' E. unfold bind. assert (X := M1 r). assert (X' := M1 r'). assert (F := M2 r r' E).
    destruct (m r) as [[a|e] r1], (m r') as [[a'|e'] r1']; cbn [fst snd] in *; try discriminate F; try exact F.
    + injection F as <-. apply (K a). rewrite X, X'. exact E.
    + injection F as <-. reflexivity.
Qed.
Lemma indep_if : forall {A} (b : bool) (m n : M A), indep m -> indep n -> indep (if b then m else n).
Proof. intros A [] m n H1 H2; assumption. Qed.
Lemma indep_mmap : forall {A B} (f : A -> M B) l, (forall x, In x l -> indep (f x)) -> indep (mmap f l).
Proof.
  intros A B f l. induction l as [|x l IH]; intros H; [apply indep_ret|]. cbn. apply indep_bind; [apply H; now left|].
  intros y. apply indep_bind; [apply IH; intros; apply H; now right|]. intros; apply indep_ret.
Qed.
Lemma indep_mfold : forall {A S} (f : S -> A -> M S) l, (forall s x, In x l -> indep (f s x)) -> forall s, indep (mfold f l s).
Proof.
  intros A S f l. induction l as [|x l IH]; intros H s; [apply indep_ret|]. cbn. apply indep_bind; [apply H; now left|].
  intros y. apply IH; intros; apply H; now right.
Qed.
Lemma indep_mconcat : forall {A B} (f : A -> M (list B)) l, (forall x, In x l -> indep (f x)) -> indep (mconcat f l).
Proof. intros. unfold mconcat. apply indep_bind; [now apply indep_mmap|]. intros; apply indep_ret. Qed.
Lemma indep_import : forall n, indep (register_import n).
Proof. intros n. unfold register_import. apply indep_if; [apply indep_ret|]. now apply indep_modify. Qed.
Lemma indep_builtin : forall n, indep (register_builtin n).
Proof. intros n. now apply indep_modify. Qed.
Lemma indep_forward : forall n, indep (add_forward n).
Proof. intros n. now apply indep_modify. Qed.
Create HintDb indepdb.
Global Hint Resolve indep_import indep_builtin indep_forward : indepdb.
Ltac ind_one :=
  match goal with
  | |- indep (ret _) => apply indep_ret
  | |- indep (raise _ _) => apply indep_raise
  | |- indep (lift _) => apply indep_lift
  | |- indep (from_opt _ _ _) => apply indep_from_opt
  | |- indep (massert _ _) => apply indep_massert
  | |- indep (modify _) => apply indep_modify; reflexivity
  | |- indep (gets _) => apply indep_gets; reflexivity
  | |- indep (bind _ _) => apply indep_bind; [|intros ?]
  | |- indep (mmap _ _) => apply indep_mmap; intros ? _
  | |- indep (mfold _ _ _) => apply indep_mfold; intros ? ? _
  | |- indep (mconcat _ _) => apply indep_mconcat; intros ? _
  | |- indep (if _ then _ else _) => apply indep_if
  | |- indep (match ?x with _ => _ end) => destruct x
  | |- _ => solve [assumption | eauto 2 with indepdb nocore]
  end.
Ltac ind_tac := repeat (cbn beta zeta; ind_one).

Lemma indep_scalar : forall n, indep (reference_scalar n).
Proof. intros. unfold reference_scalar. ind_tac. Qed.
Lemma indep_inputtype : forall st n p f, indep (reference_inputtype st n p f).
Proof. intros. unfold reference_inputtype. ind_tac. Qed.
Lemma indep_enum : forall st n p f, indep (reference_enum st n p f).
Proof. intros. unfold reference_enum. ind_tac. Qed.
Lemma indep_override : forall o b n, indep (reference_override o b n).
Proof. intros. unfold reference_override. ind_tac. Qed.
Lemma indep_unset : forall c, indep (reference_unset c).
Proof. intros. apply indep_override. Qed.
Lemma indep_unset_type : forall c, indep (reference_unset_type c).
Proof. intros. apply indep_override. Qed.
Lemma indep_fragment : forall st n p f, indep (reference_fragment st n p f).
Proof. intros. unfold reference_fragment, reference_generic. ind_tac. Qed.
Lemma indep_impl : forall n t, indep (get_interface_fragment_implementation_or_none n t).
Proof. intros. unfold get_interface_fragment_implementation_or_none. ind_tac. Qed.
Lemma indep_single : forall n, indep (get_operation_single_or_none n).
Proof. intros. unfold get_operation_single_or_none. ind_tac. Qed.
Lemma indep_inputclass : forall n, indep (get_inputtype_class n).
Proof. intros. unfold get_inputtype_class. ind_tac. Qed.
Lemma indep_opt_wrap : forall b e, indep (opt_wrap b e).
Proof. intros. unfold opt_wrap. ind_tac. Qed.
Lemma indep_name_id : forall e, indep (name_id e).
Proof. intros []; cbn; ind_tac. Qed.
Global Hint Resolve indep_scalar indep_inputtype indep_enum indep_unset indep_unset_type indep_fragment indep_impl indep_single
  indep_inputclass indep_opt_wrap indep_name_id : indepdb.
Lemma indep_try : forall {A} (m : M A) p h, indep m -> (forall e, indep (h e)) -> indep (try_except m p h).
Proof.
  intros A m p h [M1 M2] K. split.
  - intros r. unfold try_except. specialize (M1 r). destruct (m r) as [[a|e] r1]; cbn in *; [exact M1|].
    destruct (p e); [|exact M1]. destruct (K e) as [K1 _]. now rewrite K1.
  - intros r r' E. unfold try_except. assert (X := M1 r). assert (X' := M1 r'). assert (F := M2 r r' E).
    destruct (m r) as [[a|e] r1], (m r') as [[a'|e'] r1']; cbn [fst snd] in *; try discriminate F; try exact F.
    injection F as <-. destruct (p e); [|reflexivity]. apply (K e). rewrite X, X'. exact E.
Qed.
Lemma indep_any_input : forall st n p, indep (reference_any_input st n p).
Proof. intros. unfold reference_any_input. repeat (apply indep_try; [|intros ?]); ind_tac; repeat (apply indep_try; [|intros ?]); ind_tac. Qed.
Global Hint Resolve indep_any_input : indepdb.
Lemma indep_type_annotation : forall st t o b, indep (recurse_type_annotation st o t b).
Proof. intros st t. induction t; intros o b; cbn; ind_tac. Qed.
Lemma indep_label_of : forall e, indep (label_of e).
Proof. intros []; cbn; ind_tac. Qed.
Global Hint Resolve indep_label_of indep_type_annotation : indepdb.
Lemma indep_type_label : forall st t o b, indep (recurse_type_label st o t b).
Proof. intros st t. induction t; intros o b; cbn; ind_tac. Qed.
Fixpoint gty_ind2 (P : gty -> Prop) (Hn : forall n, P (GNamed n)) (Hl : forall t, P t -> P (GList t))
  (H1 : forall n, P (GNonNull (GNamed n))) (H2 : forall t, P t -> P (GNonNull (GList t))) (H3 : forall t, P t -> P (GNonNull (GNonNull t)))
  (t : gty) : P t :=
  match t with
  | GNamed n => Hn n
  | GList t => Hl t (gty_ind2 P Hn Hl H1 H2 H3 t)
  | GNonNull (GNamed n) => H1 n
  | GNonNull (GList t) => H2 t (gty_ind2 P Hn Hl H1 H2 H3 t)
  | GNonNull (GNonNull t) => H3 t (gty_ind2 P Hn Hl H1 H2 H3 t)
  end.
Lemma indep_out_annotation : forall st s t o b, indep (recurse_outputtype_annotation st s o t b).
Proof. intros st s t. induction t using gty_ind2; intros o b; cbn; ind_tac. Qed.
Lemma indep_out_label : forall st s t o b, indep (recurse_outputtype_label st s o t b).
Proof. intros st s t. induction t; intros o b; cbn; ind_tac. Qed.
Global Hint Resolve indep_type_label indep_out_annotation indep_out_label : indepdb.

(** ** the functions of funcs.py *)
Section Funcs.
Variable c : gconfig.
Variable st : list styler.
Variable s : schema.
Variable pc : fcfg.
Lemma indep_coercible : forall e t, indep (coercible_input_union e t).
Proof. intros. unfold coercible_input_union. ind_tac. Qed.
Hint Resolve indep_coercible : indepdb.
Lemma indep_input_annotation : forall t b, indep (generate_input_annotation st s pc t b).
Proof. induction t; intros b; cbn; ind_tac. Qed.
Lemma indep_input_description : forall t, indep (generate_input_description s t).
Proof. induction t; cbn; ind_tac. Qed.
Hint Resolve indep_input_annotation indep_input_description : indepdb.
Lemma indep_descriptions : forall l, indep (generate_input_type_descriptions st s l).
Proof. intros. unfold generate_input_type_descriptions. ind_tac. Qed.
Lemma indep_variable_annotation : forall t, indep (generate_variable_annotation st pc t).
Proof. intros. unfold generate_variable_annotation. ind_tac. Qed.
Lemma indep_unset_union : forall e, indep (unset_union_annotation c e).
Proof. intros. unfold unset_union_annotation. ind_tac. Qed.
Hint Resolve indep_descriptions indep_variable_annotation indep_unset_union : indepdb.
Lemma indep_input_params : forall l, indep (generate_input_type_params c st s pc l).
Proof. intros. unfold generate_input_type_params. ind_tac. Qed.
Lemma indep_expanded_type : forall v, indep (expanded_type s v).
Proof. intros. unfold expanded_type. ind_tac. Qed.
Lemma indep_fields_of : forall t, indep (fields_of t).
Proof. intros []; cbn; ind_tac. Qed.
Hint Resolve indep_input_params indep_expanded_type indep_fields_of : indepdb.
Lemma indep_parameters : forall d o, indep (generate_parameters c st s pc d o).
Proof. intros. unfold generate_parameters. ind_tac. Qed.
Lemma indep_assign : forall b d k p, indep (assign_or_guard c b d k p).
Proof. intros. unfold assign_or_guard, guarded_assign. ind_tac. Qed.
Lemma indep_new_dict : forall d, indep (new_dict d).
Proof. intros. unfold new_dict, dict_str_any_annotation. ind_tac. Qed.
Hint Resolve indep_assign indep_new_dict : indepdb.
Lemma indep_assignments : forall o, indep (generate_variable_assignments c st s pc o).
Proof. intros. unfold generate_variable_assignments, variable_assignment. ind_tac. Qed.
Lemma indep_class_name : forall o, indep (get_operation_class_name st o).
Proof. intros. unfold get_operation_class_name. ind_tac. Qed.
Lemma indep_first_field : forall o, indep (first_field o).
Proof. intros. unfold first_field. ind_tac. Qed.
Lemma indep_root_of : forall o, indep (root_of s o).
Proof. intros. unfold root_of. ind_tac. Qed.
Lemma indep_field_type : forall t f, indep (field_type s t f).
Proof. intros. unfold field_type. ind_tac. Qed.
Lemma indep_fragment_class : forall n t, indep (fragment_class_for st n t).
Proof. intros. unfold fragment_class_for. ind_tac. Qed.
Hint Resolve indep_class_name indep_first_field indep_root_of indep_field_type indep_fragment_class : indepdb.
Lemma indep_return_annotation : forall o b, indep (get_return_type_annotation st s o b).
Proof. intros. unfold get_return_type_annotation. ind_tac. Qed.
Lemma indep_return_string : forall o b, indep (get_return_type_string st s o b).
Proof. intros. unfold get_return_type_string. ind_tac. Qed.
Lemma indep_default_text : forall v, indep (default_text v).
Proof. intros []; cbn; ind_tac. Qed.
Hint Resolve indep_return_annotation indep_return_string indep_default_text : indepdb.
Variable doc_of : operation -> option string.
Lemma indep_doc : forall d o b, indep (generate_query_doc st s pc doc_of d o b).
Proof. intros. unfold generate_query_doc. ind_tac. Qed.
Lemma indep_proxy_call : forall d o, indep (proxy_call st pc d o).
Proof. intros. unfold proxy_call. ind_tac. Qed.
Lemma indep_collapsed : forall o b e, indep (collapsed_attr st o b e).
Proof. intros. unfold collapsed_attr. ind_tac. Qed.
Hint Resolve indep_doc indep_proxy_call indep_collapsed indep_parameters indep_assignments : indepdb.
Lemma indep_call : forall d o b, indep (call_stmt st pc d o b).
Proof. intros. unfold call_stmt. ind_tac. Qed.
Lemma indep_func_name : forall b o, indep (func_name pc b o).
Proof. intros. unfold func_name. ind_tac. Qed.
Hint Resolve indep_call indep_func_name : indepdb.
Lemma indep_func : forall o d, indep (generate_operation_func c st s pc doc_of o d).
Proof. intros. unfold generate_operation_func. ind_tac. Qed.
End Funcs.
