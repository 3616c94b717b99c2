(** Traits (README, "Traits: extending generated models"): which generated classes stand for a
    GraphQL type, and from which classes they inherit.  Independent of the generator. *)
From Verif Require Import Base PyAst Gql Config Stylers Spec_Mro Spec_Mro2 Spec_Types Spec_Inputs.

(** [n: a = Field(alias="__typename", default="T", ...)] *)
Definition typename_field (T : string) (m : stmt) : Prop :=
  exists n a f kws, m = SAnn n a (Some (ECall f [] kws)) /\ In (Some "alias", estr "__typename") kws /\ In (Some "default", estr T) kws.
(** A class of the module [t] is made for the type [T]: it has such a field, itself or from a base class. *)
Inductive selects (t : list stmt) (T : string) : string -> Prop :=
| selects_own : forall n bases body decs, In (SClass n bases body decs) t -> Exists (typename_field T) body -> selects t T n
| selects_base : forall n bases body decs m, In (SClass n bases body decs) t -> In (EName m) bases -> selects t T m -> selects t T n.
(** the class [n] of the module [t] has the class [b] among its base classes, or theirs *)
Inductive inherits (t : list stmt) (b : string) : string -> Prop :=
| inherits_own : forall n bases body decs, In (SClass n bases body decs) t -> In (EName b) bases -> inherits t b n
| inherits_base : forall n bases body decs m, In (SClass n bases body decs) t -> In (EName m) bases -> inherits t b m -> inherits t b n.

(** the classes configured for a type *)
Definition traits (bases : dict (list string)) (T : string) : list string := match dget T bases with Some l => l | None => [] end.
(** every class made for a type inherits from the traits of the type *)
Definition traits_reach (bases : dict (list string)) (t : list stmt) : Prop :=
  forall T n b, selects t T n -> In b (traits bases T) -> inherits t (last_comp b) n.

(** the fragments spread in a selection set on an object type are on the type itself, or on an
    interface it implements *)
Definition object_spreads (s : schema) (d : document) (n : string) (k : list selection) : Prop :=
  is_object s n = true -> forall x, In (DFrag x) d -> In (fr_name x) (spreads k) ->
  fr_on x = n \/ (is_iface s (fr_on x) = true /\ In n (implementations s (fr_on x))).
(** Documents whose spreads reach the traits: unique fragment names, no fragment on a union is
    spread on an object type, no fragment spreads itself; the members of unions that have
    fragments have no traits. *)
Definition trait_document (s : schema) (bases : dict (list string)) (d : document) : Prop :=
  NoDup (map fr_name (fragments_of d))
  /\ (forall x, In (DFrag x) d -> forall m k, occurs s (fr_on x) (fr_sels x) m k -> object_spreads s d m k /\ ~ In (fr_name x) (spreads k))
  /\ (forall x u ms i, In (DFrag x) d -> get_type s (fr_on x) = Some (TUnion u ms) -> In i ms -> traits bases i = [])
  /\ (forall o, In (DOp o) d -> forall root m k, root_type s (op_kind o) = Some root -> occurs s root (op_sels o) m k -> object_spreads s d m k).

(** A class is made for a type of the schema: the traits of the type come first among its bases. *)
Definition traits_first (bases : dict (list string)) (T : string) (b : list expr) : Prop :=
  exists rest, b = map (fun x => EName (last_comp x)) (traits bases T) ++ rest.
(** every class of a module of inputs is made for an input type, or for a variant of it *)
Definition input_made (bases : dict (list string)) (st : list styler) (s : schema) (m : stmt) : Prop :=
  match m with
  | SClass n b _ _ => exists key t, In (key, t) (schema_inputs s) /\ traits_first bases key b
      /\ (n = style_with sty_input st key \/ (is_oneof t /\ exists kv, In kv (id_fields t) /\ n = style_with sty_input st (key +s+ cap_first (fst kv))))
  | _ => True
  end.
