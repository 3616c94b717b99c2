(** What the server scaffold should say about a schema. *)
From Coq Require Import Permutation Sorted.
From Verif Require Import Base PyAst Gql Config Stylers Registry Utils Objects Strawberry PySem Spec_Annot.

(** ** Reading an annotation the way strawberry does: a type is non-null unless wrapped in Optional,
    [List[...]] is a list, everything else a reference to a named type. *)
Inductive rty : Set := RNamed (e : expr) | RList (t : rty) | RNonNull (t : rty).
Fixpoint reads (e : expr) : rty :=
  match e with
  | ESub (EName f) e' =>
      if String.eqb f "Optional" then match reads e' with RNonNull t => t | t => t end
      else if String.eqb f "List" then RNonNull (RList (reads e'))
      else RNonNull (RNamed e)
  | _ => RNonNull (RNamed e)
  end.
(** the GraphQL type with its name replaced by the reference [e] *)
Fixpoint rty_of (t : gty) (e : expr) : rty :=
  match t with GNamed _ => RNamed e | GList t => RList (rty_of t e) | GNonNull t => RNonNull (rty_of t e) end.

(** ** References *)
(** the Python class generated for a named type that is no scalar and no union *)
Definition class_name (st : list styler) (s : schema) (n : string) : option string :=
  match get_type s n with
  | Some (TEnum _ _) => Some (if mem n built_in_keys then n else style_enum_class st n)
  | Some (TObject _ _ _ _) => Some (style_objecttype_class st n)
  | Some (TInterface _ _ _) => Some (style_interface_class st n)
  | Some (TInput _ _ _) => Some (style_inputtype_class st n)
  | _ => None
  end.
Inductive refers (st : list styler) (s : schema) (scalars : dict string) (n : string) : expr -> Prop :=
| rf_scalar : forall d t, get_type s n = Some (TScalar d) -> dget n scalars = Some t -> refers st s scalars n (EName (last_comp t))
| rf_name : forall cls, class_name st s n = Some cls -> refers st s scalars n (EName cls)
| rf_quoted : forall cls, class_name st s n = Some cls -> refers st s scalars n (estr cls).
(** a union is written as the union of its members *)
Definition refers_u (st : list styler) (s : schema) (scalars : dict string) (n : string) (e : expr) : Prop :=
  match get_type s n with
  | Some (TUnion _ ms) => exists es, e = union_of es /\ Forall2 (refers st s scalars) ms es
  | _ => refers st s scalars n e
  end.
(** the annotation [a] says the GraphQL type [t] *)
Definition says (st : list styler) (s : schema) (scalars : dict string) (t : gty) (a : expr) : Prop :=
  exists e, reads a = rty_of t e /\ refers_u st s scalars (gty_name t) e.
(** the type without permission for null *)
Definition required (t : gty) : gty := match t with GNonNull _ => t | _ => GNonNull t end.

(** ** Defaults *)
(** the expression evaluates to the value, wherever it is evaluated *)
Definition denotes (e : expr) (v : pyval) : Prop :=
  pyval_wf v -> forall glob subclass call env, eval glob subclass call env e = POk (py_value v).
Definition mutable (v : pyval) : bool := match v with PList _ | PDict _ => true | _ => false end.
(** the value of an attribute of a dataclass that makes [d] its default: mutable values through a factory *)
Definition keeps (d : option pyval) (v : option expr) : Prop :=
  match d with
  | None => v = None
  | Some x => exists e, denotes e x /\ v = Some (ECall (EName "strawberry.field") []
                [if mutable x then (Some "default_factory", ELambda [] e) else (Some "default", e)])
  end.

(** ** Resolvers *)
Section Members.
Variable st : list styler.
Variable s : schema.
Variable scalars : dict string.
Definition param (says : gty -> expr -> Prop) (kv : string * argdef) (p : pyarg) : Prop :=
  pa_name p = generate_parameter_name st (fst kv) /\ exists a, pa_ann p = Some a /\ says (arg_type (snd kv)) a.
(** self, the arguments without default, the arguments with default and their defaults.
    [defaulted] says how the annotation of an argument with default reads. *)
Definition signature (defaulted : gty -> gty) (args : list (string * argdef)) (a : pyargs) : Prop :=
  exists l1 l2 ps1 ps2,
    Permutation args (l1 ++ l2)
    /\ Forall (fun x => arg_default (snd x) = None) l1
    /\ a_args a = PyArg "self" None :: ps1 ++ ps2
    /\ Forall2 (param (says st s scalars)) l1 ps1
    /\ Forall2 (param (fun t => says st s scalars (defaulted t))) l2 ps2
    /\ Forall2 (fun x d => exists v, arg_default (snd x) = Some v /\ denotes d v) l2 (a_defaults a).
(** a member of a class for an object or interface type *)
Definition root_type_name (key : string) : bool := mem key ["Query"; "Mutation"; "Subscription"].
Definition member (key : string) (kv : string * fielddef) (m : stmt) : Prop :=
  let '(name, f) := kv in
  match m with
  | SAnn n a _ => n = generate_node_name st name /\ fd_args f = [] /\ root_type_name key = false /\ says st s scalars (fd_type f) a
  | SFunc asy n a _ ret _ =>
      n = generate_node_name st name /\ (fd_args f <> [] \/ root_type_name key = true)
      /\ signature required (fd_args f) a
      /\ asy = String.eqb key "Subscription"
      /\ exists e, says st s scalars (fd_type f) e
         /\ ret = Some (if String.eqb key "Subscription" then ESub (EName "AsyncGenerator") (ETuple [e; EName "None"]) else e)
  | _ => False
  end.
Definition input_member (kv : string * inputfield) (m : stmt) : Prop :=
  match m with SAnn n a _ => n = generate_node_name st (fst kv) /\ says st s scalars (if_type (snd kv)) a | _ => False end.
Definition directive_member (kv : string * argdef) (m : stmt) : Prop :=
  match m with
  | SAnn n a v => n = generate_node_name st (fst kv) /\ says st s scalars (arg_type (snd kv)) a
                  /\ (arg_default (snd kv) <> Some PNone -> keeps (arg_default (snd kv)) v)
  | _ => False
  end.
End Members.

(** types graphql-core can build *)
Definition field_wf (f : fielddef) : Prop := gty_wf (fd_type f) = true /\ Forall (fun a => gty_wf (arg_type (snd a)) = true) (fd_args f).
(** statements that are no fields *)
Definition no_field (m : stmt) : Prop := match m with SAnn _ _ _ | SFunc _ _ _ _ _ _ => False | _ => True end.

(** ** Parts of the module *)
Inductive part : Set := PDirective | PScalar | PEnum | PInput | PType.
Definition rank (p : part) : nat := match p with PDirective => 0 | PScalar => 1 | PEnum => 2 | PInput => 3 | PType => 4 end.
Definition head_name (e : expr) : string := match e with EName n => n | ECall (EName n) _ _ => n | _ => "" end.
Definition part_named (n : string) : option part :=
  dget n [("strawberry.schema_directive", PDirective); ("strawberry.scalar", PScalar); ("strawberry.enum", PEnum);
          ("strawberry.input", PInput); ("strawberry.type", PType); ("strawberry.interface", PType)].
(** the part and the name a statement of the module belongs to *)
Definition part_of (m : stmt) : option (part * string) :=
  match m with
  | SClass n _ _ [d] => option_map (fun p => (p, n)) (part_named (head_name d))
  | SAssign (EName n) v => option_map (fun p => (p, n)) (part_named (head_name v))
  | _ => None
  end.
Definition part_eqb (a b : part) : bool := Nat.eqb (rank a) (rank b).
Definition names_in (p : part) (l : list stmt) : list string :=
  flat_map (fun m => match part_of m with Some (q, n) => if part_eqb p q then [n] else [] | None => [] end) l.
(** what the schema asks for *)
Definition wanted (st : list styler) (s : schema) (ds : list directivedef) (pc : sbcfg) (p : part) : list string :=
  let hidden n := (sb_skip_underscore pc && startswith "_" n) || (sb_skip_double_underscore pc && startswith "__" n) in
  let named (f : string -> typedef -> bool) (cls : string -> string) :=
    flat_map (fun kt => if f (fst kt) (snd kt) then [cls (fst kt)] else []) (s_types s) in
  match p with
  | PDirective => flat_map (fun d => if mem (dd_name d) (sb_builtin_directives pc) || hidden (dd_name d) then [] else [dd_name d]) ds
  | PScalar => named (fun n t => match t with TScalar _ => negb (mem n (sb_builtin_scalars pc)) | _ => false end) (fun n => n)
  | PEnum => named (fun n t => match t with TEnum _ _ => negb (hidden n) | _ => false end) (style_enum_class st)
  | PInput => named (fun n t => match t with TInput _ _ _ => negb (sb_skip_underscore pc && startswith "_" n) | _ => false end)
                    (style_inputtype_class st)
  | PType => named (fun n t => match t with TInterface _ _ _ => negb (hidden n) | _ => false end) (style_interface_class st)
             ++ named (fun n t => match t with TObject _ _ _ _ => negb (hidden n) | _ => false end) (style_objecttype_class st)
  end.
Definition enabled (pc : sbcfg) (p : part) : bool :=
  match p with PDirective => sb_directives pc | PScalar => sb_scalars pc | PEnum => sb_enums pc | PInput => sb_inputs pc | PType => sb_types pc end.
