(** What a Python annotation accepts and what a GraphQL type admits.  Independent of turms. *)
From Verif Require Import Base PyAst Gql.

(** Values, seen through their nullability and list structure: null, an instance of a class
    (or builtin type, or enum), a Python list or tuple of values. *)
Inductive jval : Set := JNull | JLeaf (cls : string) | JSeq (tuple : bool) (l : list jval).

(** ** Python: [accepts e v], the typing semantics of an annotation expression.  A string is
    a forward reference to the class of that name. *)
Fixpoint accepts (e : expr) (v : jval) {struct e} : Prop :=
  match e with
  | EName n => v = JLeaf n
  | EConst (CStr n) => v = JLeaf n
  | EConst CNone => v = JNull
  | ESub (EName f) (ETuple (a :: rest)) =>
      if String.eqb f "Annotated" then accepts a v
      else if String.eqb f "Union" then
        accepts a v \/ (fix any (l : list expr) : Prop :=
                          match l with [] => False | x :: r => accepts x v \/ any r end) rest
      else if String.eqb f "Tuple" then
        rest = [EConst CEllipsis]
        /\ exists l, v = JSeq true l /\ (fix all (l : list jval) : Prop :=
                                           match l with [] => True | x :: r => accepts a x /\ all r end) l
      else False
  | ESub (EName f) a =>
      if String.eqb f "Optional" then v = JNull \/ accepts a v
      else if String.eqb f "List" then
        exists l, v = JSeq false l /\ (fix all (l : list jval) : Prop :=
                                         match l with [] => True | x :: r => accepts a x /\ all r end) l
      else if String.eqb f "Union" then accepts a v
      else False
  | _ => False
  end.

(** ** GraphQL: [inhab tup leaf t v], [v] is a legal value of type [t].  [leaf n cls]: the
    named type [n] is represented by the Python class [cls]; [tup]: lists are tuples. *)
Fixpoint inhab (tup : bool) (leaf : string -> string -> Prop) (t : gty) (v : jval) : Prop :=
  match t with
  | GNamed n => v = JNull \/ exists cls, leaf n cls /\ v = JLeaf cls
  | GList t' => v = JNull \/ exists l, v = JSeq tup l /\ forall x, In x l -> inhab tup leaf t' x
  | GNonNull t' => v <> JNull /\ inhab tup leaf t' v
  end.

(** ** pydantic fields *)
(** keyword of a call *)
Fixpoint keyword (n : string) (kws : list (option string * expr)) : option expr :=
  match kws with
  | [] => None
  | (Some m, e) :: r => if String.eqb n m then Some e else keyword n r
  | (None, _) :: r => keyword n r
  end.
(** the name a field [target: ann = value] has on the wire *)
Definition wire_name (target : string) (value : option expr) : string :=
  match value with
  | Some (ECall (EName "Field") _ kws) =>
      match keyword "alias" kws with Some (EConst (CStr a)) => a | _ => target end
  | _ => target
  end.
(** the field may be omitted on construction *)
Definition may_omit (value : option expr) : bool :=
  match value with
  | None => false
  | Some (ECall (EName "Field") _ kws) => match keyword "default" kws with Some _ => true | None => false end
  | Some _ => true
  end.
(** annotated fields of a class body *)
Definition class_fields (body : list stmt) : list (string * expr * option expr) :=
  flat_map (fun st => match st with SAnn n a v => [(n, a, v)] | _ => [] end) body.
