(** Which names calling a function looks up, and whether they are bound by then.  Independent of
    the generator, whose plugins are only named. *)
From Verif Require Import Base PyAst Gql Config Stylers Registry Enums Inputs Objects Fragments Operations Funcs InputFuncs Run
  Spec_Imports Spec_Scope Spec_Refs Spec_Funcs.

(** ** Calls *)
(** what happens to names while statements of a function are run *)
Inductive event := Look (n : string) | Bind (n : string).
Definition looks (l : list string) : list event := map Look l.
(** [path l e]: running the statements [l] can look up and bind the names [e], in this order.  The test of an [if] has any
    outcome, a loop any number of rounds.  The annotation of a local variable is not evaluated.  Statements after a [return],
    a [raise] or a [break] are taken to be reached as well; an exception only cuts a path short. *)
Inductive path : list stmt -> list event -> Prop :=
| p_nil : path [] []
| p_declare n a l e : path l e -> path (SAnn n a None :: l) e
| p_ann n a v l e : path l e -> path (SAnn n a (Some v) :: l) (looks (loads v) ++ Bind n :: e)
| p_assign n v l e : path l e -> path (SAssign (EName n) v :: l) (looks (loads v) ++ Bind n :: e)
| p_store t v l e : (forall n, t <> EName n) -> path l e -> path (SAssign t v :: l) (looks (loads v) ++ looks (loads t) ++ e)
| p_expr x l e : path l e -> path (SExpr x :: l) (looks (loads x) ++ e)
| p_return x l e : path l e -> path (SReturn x :: l) (looks (opt_loads x) ++ e)
| p_raise x l e : path l e -> path (SRaise x :: l) (looks (loads x) ++ e)
| p_if_not t b l e : path l e -> path (SIf t b :: l) (looks (loads t) ++ e)
| p_if t b l e1 e : path b e1 -> path l e -> path (SIf t b :: l) (looks (loads t) ++ e1 ++ e)
| p_for a ns it b l e1 e : rounds ns b e1 -> path l e -> path (SFor a ns it b :: l) (looks (loads it) ++ e1 ++ e)
| p_break l e : path l e -> path (SBreak :: l) e
| p_pass l e : path l e -> path (SPass :: l) e
| p_text x l e : path l e -> path (SText x :: l) e
with rounds : list string -> list stmt -> list event -> Prop :=
| r_done ns b : rounds ns b []
| r_next ns b e1 e2 : path b e1 -> rounds ns b e2 -> rounds ns b (map Bind ns ++ e1 ++ e2).

(** the names a statement assigns: they are local in all of the function *)
Fixpoint assigns (x : stmt) : list string :=
  match x with
  | SAnn n _ _ => [n]
  | SAssign (EName n) _ => [n]
  | SIf _ b => flat_map assigns b
  | SFor _ ns _ b => ns ++ flat_map assigns b
  | _ => []
  end.
(** [in_order L G have e]: each name looked up was bound before, or is not one of the local names [L] and bound outside *)
Fixpoint in_order (L : list string) (G : string -> Prop) (have : list string) (e : list event) : Prop :=
  match e with
  | [] => True
  | Look n :: e => (In n have \/ (~ In n L /\ G n)) /\ in_order L G have e
  | Bind n :: e => in_order L G (n :: have) e
  end.
(** calling the function looks up no unbound name; [G]: the names bound in the module and the builtins of Python *)
Definition callable (G : string -> Prop) (f : stmt) : Prop :=
  match f with
  | SFunc _ _ args body _ _ =>
      let params := map pa_name (a_args args) in
      forall e, path body e -> in_order (params ++ flat_map assigns body) G params e
  | _ => True
  end.
(** the functions and methods of a module *)
Fixpoint functions_of (x : stmt) : list stmt :=
  match x with
  | SFunc _ _ _ _ _ _ => [x]
  | SClass _ _ body _ => flat_map functions_of body
  | _ => []
  end.
Definition calls_scoped (bi : list string) (t : list stmt) : Prop :=
  forall f, In f (flat_map functions_of t) -> callable (fun n => In n bi \/ In n (Spec_Scope.binds t)) f.

(** ** Modules *)
(** the builtins of Python that bodies use *)
Definition used_builtins : list string := ["type"; "isinstance"; "ValueError"; "super"].

Section Plugins.
Variable c : gconfig.
Variable st : list styler.
Variable s : schema.
Variable d : document.
(** the names a function for [o] assigns besides its parameters and [variables]: the loop variable of a subscription, the
    dictionaries of expanded variables *)
Definition own_names (pc : fcfg) (o : operation) : list string :=
  match op_kind o with OpSubscription => ["event"] | _ => [] end
  ++ map (fun v => "_" +s+ generate_parameter_name st (v_name v)) (filter (fun v => mem (v_name v) (f_expand_input_types pc)) (op_vars o)).
(** the names it means to look up in the module: the class of the operation, the proxy function, the sentinel *)
Definition meant_global (o : operation) (n : string) (def : fdef) : list string :=
  [Spec_Funcs.operation_class st (op_kind o) n; last_comp (d_use def); sentinel_name (c_unset_instance c)].
Record funcs_apart (pc : fcfg) : Prop := FuncsApart {
  fa_expanded : forall o, In (DOp o) d -> no_optional_expansion (f_expand_input_types pc) (op_vars o);
  fa_apart : forall o n def g, In (DOp o) d -> op_name o = Some n -> In def (f_definitions pc) -> d_kind def = op_kind o ->
    In g (meant_global o n def) -> ~ In g (own_names pc o) }.
(** no class of an input type has a name that the serializer of a union of input types assigns *)
Definition inputs_apart : Prop :=
  forall n, Spec_Refs.is_input s n -> ~ In (style_with sty_input st n) ["tags"; "tag"; "member_class"; "member_tag"].

Inductive calling_plugin : plugin -> Prop :=
| WrEnums n pc docs : calling_plugin (Plugin n (enums_plugin c st pc s docs))
| WrInputs n pc docs : inputs_apart -> calling_plugin (Plugin n (inputs_plugin c st pc s docs))
| WrObjects n pc : calling_plugin (Plugin n (generate_types c st s pc))
| WrFragments n pc pf add : calling_plugin (Plugin n (fragments_plugin c st s pc pf add d))
| WrOperations n pc po add doc_of : calling_plugin (Plugin n (operations_plugin c st s pc po add doc_of d))
| WrFuncs n pc doc_of : funcs_apart pc -> calling_plugin (Plugin n (funcs_plugin c st s pc doc_of d))
| WrInputFuncs n pc docs : calling_plugin (Plugin n (input_funcs_plugin c st pc s docs)).
(** if there are functions for operations, there are the classes of the operations *)
Definition operations_written (ps : list plugin) : Prop :=
  (exists n pc doc_of, In (Plugin n (funcs_plugin c st s pc doc_of d)) ps) ->
  exists n pc po add doc_of, In (Plugin n (operations_plugin c st s pc po add doc_of d)) ps.
End Plugins.
