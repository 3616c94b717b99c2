(** Which object types and interfaces have a model.  Independent of the generator. *)
From Verif Require Import Base PyAst Gql.

(** object types and interfaces with their interfaces and fields *)
Definition composite_parts (t : typedef) : option (list string * list (string * fielddef)) :=
  match t with TObject _ i f _ | TInterface _ i f => Some (i, f) | _ => None end.
Definition is_composite (s : schema) (n : string) : Prop := exists t p, get_type s n = Some t /\ composite_parts t = Some p.
Definition is_interface (s : schema) (n : string) : Prop := exists d i f, get_type s n = Some (TInterface d i f).
(** types whose name starts with one or two underscores may be left out *)
Definition left_out (skip_underscore skip_double_underscore : bool) (n : string) : Prop :=
  (skip_underscore = true /\ startswith "_" n = true) \/ (skip_double_underscore = true /\ startswith "__" n = true).
(** the types the value of a field may have: the named type, or the members of a union *)
Definition value_type (s : schema) (f : fielddef) (n : string) : Prop :=
  n = gty_name (fd_type f) \/ exists d ms, get_type s (gty_name (fd_type f)) = Some (TUnion d ms) /\ In n ms.
(** [n] is an object type or interface with which the value of a field of a type that is not left out may be given *)
Definition value_target (s : schema) (out : string -> Prop) (n : string) : Prop :=
  is_composite s n /\ exists key t i fs k f, In (key, t) (s_types s) /\ composite_parts t = Some (i, fs) /\ ~ out key
    /\ In (k, f) fs /\ value_type s f n.
(** no type is left out although a field of another one has its values *)
Definition composites_available (s : schema) (out : string -> Prop) : Prop := forall n, value_target s out n -> ~ out n.
(** the interfaces that fields have are called as in the schema *)
Definition interfaces_unstyled (s : schema) (out : string -> Prop) (name : string -> string) : Prop :=
  forall n, value_target s out n -> is_interface s n -> name n = n.
(** no type implements itself (GraphQL specification, section 3.7) *)
Definition none_implements_itself (s : schema) : Prop :=
  forall key t i fs, In (key, t) (s_types s) -> composite_parts t = Some (i, fs) -> ~ In key i.
