(** Operations for which functions can be generated.  Independent of the generator. *)
From Verif Require Import Base PyAst Gql Config Spec_Mro Spec_Mro2 Spec_Valid Spec_ValidDoc.

Section ValidFuncs.
Variable s : schema.
Variable d : document.
(** the selected fields of a list of selections, and the selections below a field *)
Definition below_field (f : fieldnode) : list selection := match f with FieldNode _ _ _ _ l => match l with Some l => l | None => [] end end.
Definition no_variable (f : fieldnode) : bool := forallb (fun a => match snd a with VVar _ => false | _ => true end) (fn_args f).
(** [quiet here f]: at [f] (if [here]) and at every second level below it no argument is a variable.  What inline
    fragments contain does not matter. *)
Fixpoint quiet (here : bool) (f : fieldnode) : bool :=
  match f with
  | FieldNode a n args ds sels =>
      (negb here || no_variable f)
      && match sels with
         | None => true
         | Some l => forallb (fun x => match x with SelField g => quiet (negb here) g | _ => true end) l
         end
  end.
Definition quiet_below (f : fieldnode) : bool := forallb (fun x => match x with SelField g => quiet false g | _ => true end) (below_field f).
(** literals with a text: not null, lists or objects *)
Definition texted (v : vnode) : bool := match v with VInt _ | VFloat _ | VString _ _ | VBool _ | VEnum _ => true | _ => false end.
(** what is selected besides __typename *)
Definition besides_typename (f : fieldnode) : list selection :=
  filter (fun x => match x with SelField g => negb (String.eqb (fn_name g) "__typename") | _ => true end) (below_field f).
(** The result of an operation with one field, of type [t]: a leaf, or something other than __typename is
    selected.  A fragment that makes up the whole selection and is on an interface is used on that
    interface or on an object type. *)
Definition result_ok (f : fieldnode) (t : string) : Prop :=
  match besides_typename f with
  | [] => is_leaf s t = true
  | [SelSpread n _] => forall g, the_fragment d n = Some g -> is_iface s (fr_on g) = true -> t = fr_on g \/ is_object s t = true
  | _ => True
  end.
(** [G]: the operations that get functions; [expand]: the variables replaced by the fields of their type;
    [collapse]: functions return the only field instead of the whole result *)
Record supported_functions (G : operation -> Prop) (collapse : bool) (expand : list string) : Prop := {
  sf_arguments : forall o f, G o -> In (SelField f) (op_sels o) -> quiet_below f = true;
  sf_defaults : forall o v x, G o -> In v (op_vars o) -> v_default v = Some x -> texted x = true;
  sf_expand : forall o v, G o -> In v (op_vars o) -> In (v_name v) expand ->
    exists n, (v_type v = GNonNull (GNamed n) \/ v_type v = GList (GNamed n)) /\ is_input s n = true;
  sf_result : forall o f root t, G o -> collapse = true -> op_sels o = [SelField f] -> root_type s (op_kind o) = Some root ->
    Spec_ValidDoc.field_type s root (fn_name f) = Some t -> result_ok f t }.
(** the enums a function for [o] mentions, apart from the types of its variables: types of the fields of
    expanded variables, and the type of a collapsed result *)
Definition function_enum (collapse : bool) (expand : list string) (o : operation) (e : string) : Prop :=
  is_enum s e = true
  /\ ((exists v t f fd, In v (op_vars o) /\ In (v_name v) expand /\ get_type s (gty_name (v_type v)) = Some t
        /\ In (f, fd) (inputs_of t) /\ gty_name (if_type fd) = e)
      \/ (collapse = true /\ exists f root, op_sels o = [SelField f] /\ root_type s (op_kind o) = Some root
        /\ Spec_ValidDoc.field_type s root (fn_name f) = Some e)).
End ValidFuncs.
(** kind of definition and name of a generated function *)
Definition function_head (x : stmt) : option (bool * string) := match x with SFunc a n _ _ _ _ => Some (a, n) | _ => None end.
