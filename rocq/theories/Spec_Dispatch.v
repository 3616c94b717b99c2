(** Which class a response object is parsed into, by its type name.  Independent of the
    generator.  This describes pydantic's discriminated unions: among the members the one whose
    field [typename] is a literal with the given name, otherwise the catch-all class. *)
From Verif Require Import Base PyAst Gql Stylers Registry Spec_Types Spec_Fields Spec_Selection.

(** Python keeps the last definition of a name *)
Fixpoint last_class (classes : list stmt) (k : string) : option (list expr * list stmt) :=
  match classes with
  | [] => None
  | x :: r => match last_class r k with
              | Some y => Some y
              | None => match x with SClass k' bases body _ => if String.eqb k' k then Some (bases, body) else None | _ => None end
              end
  end.
Definition last_field (n : string) (body : list stmt) : option (string * expr * option expr) :=
  find (fun f => String.eqb (fst (fst f)) n) (rev (class_fields body)).
(** the type names that the class [k] is for: one or (a catch-all class) any *)
Definition tag (classes : list stmt) (k : string) : option string :=
  match last_class classes k with
  | Some (_, body) => match last_field "typename" body with
                      | Some (_, ESub (EName "Literal") (EConst (CStr t)), v) => if String.eqb (wire_name "typename" v) "__typename" then Some t else None
                      | _ => None
                      end
  | None => None
  end.
Definition untagged (classes : list stmt) (k : string) : Prop :=
  exists bases body v, last_class classes k = Some (bases, body) /\ last_field "typename" body = Some ("typename", EName "str", v)
    /\ wire_name "typename" v = "__typename".
(** the members of the discriminated union in an annotation and the catch-all class *)
Inductive polymorphic : expr -> list string -> option string -> Prop :=
| poly_tagged : forall ks, polymorphic (annotated_of [union_of (map EName ks); ECall (EName "Field") [] [(Some "discriminator", EConst (CStr "typename"))]]) ks None
| poly_catch : forall a ks k, polymorphic a ks None -> polymorphic (union_of [a; EName k]) ks (Some k)
| poly_optional : forall a ks k, polymorphic a ks k -> polymorphic (optional_of a) ks k
| poly_list : forall a ks k, polymorphic a ks k -> polymorphic (list_of a) ks k
| poly_tuple : forall a ks k, polymorphic a ks k -> polymorphic (tuple_of a) ks k
| poly_meta : forall a m ks k, polymorphic a ks k -> polymorphic (annotated_of (a :: m)) ks k.
(** objects of type [t] are parsed into class [k] *)
Definition dispatch (classes : list stmt) (ks : list string) (catch : option string) (t k : string) : Prop :=
  (In k ks /\ tag classes k = Some t)
  \/ ((forall k', In k' ks -> tag classes k' <> Some t) /\ catch = Some k /\ untagged classes k).
(** class [k] carries what the selections on an interface say about objects of type [i] *)
Definition carries_for (st : list styler) (s : schema) (r : reg) (catchall : bool) (sels : list selection) (classes : list stmt) (i k : string) : Prop :=
  exists bases body, last_class classes k = Some (bases, body)
    /\ (forall ds m, In (SelInline (Some i) ds m) sels -> carries (modelled st s r catchall classes) s i m body)
    /\ inherits_for r i sels bases.
