(** Which annotated names of a class body pydantic takes for fields.  Independent of the generator.  This describes pydantic 2:
    a name with an underscore in front is a private attribute, which is neither read nor written, and it must not be given a [Field(...)]
    (pydantic/_internal/_model_construction.py, inspect_namespace); a name with [model_] in front must not be that of a member of
    BaseModel (pydantic/_internal/_fields.py, collect_model_fields).  Other members of BaseModel, like [copy], lead to a warning only
    and are not considered here.  pydantic is not part of /repo: this is written from its documented behaviour and was not checked against
    an installation. *)
From Verif Require Import Base PyAst Gql Stylers Spec_Types Spec_Fields Spec_Names.

Definition private_name (n : string) : Prop := startswith "_" n = true.
Definition protected_members : list string :=
  ["model_computed_fields"; "model_config"; "model_construct"; "model_copy"; "model_dump"; "model_dump_json"; "model_extra"; "model_fields";
   "model_fields_set"; "model_json_schema"; "model_parametrized_name"; "model_post_init"; "model_rebuild"; "model_validate";
   "model_validate_json"; "model_validate_strings"].
(** an annotated name becomes a field *)
Definition model_field (n : string) : Prop := ~ private_name n /\ ~ In n protected_members.
Definition is_field_call (v : option expr) : Prop := exists args kws, v = Some (ECall (EName "Field") args kws).
(** pydantic creates the class: otherwise the module cannot be imported *)
Definition creatable (body : list stmt) : Prop :=
  forall n a v, In (n, a, v) (class_fields body) -> ~ In n protected_members /\ (private_name n -> ~ is_field_call v).

(** names of GraphQL that are neither like private attributes nor, but for case and underscores, like members of BaseModel *)
Definition public_wire (w : string) : Prop := startswith "_" w = false /\ ~ In (folded w) (map folded protected_members).
(** every field of a class whose name on the wire is such a name is a field for pydantic *)
Definition public_fields (l : list stmt) : Prop :=
  forall body f, In body (flat_map class_bodies l) -> In f (class_fields body) -> public_wire (wire f) -> model_field (attribute f).
(** one whose name has an underscore in front is not, unless it is the type name of an object *)
Definition private_fields (l : list stmt) : Prop :=
  forall body f, In body (flat_map class_bodies l) -> In f (class_fields body) -> startswith "_" (wire f) = true ->
    private_name (attribute f) \/ (wire f = "__typename" /\ attribute f = "typename").
(** if all names are of this kind, pydantic creates the classes *)
Definition all_public (l : list stmt) : Prop :=
  forall body f, In body (flat_map class_bodies l) -> In f (class_fields body) -> public_wire (wire f) \/ attribute f = "typename".
Definition all_creatable (l : list stmt) : Prop := forall body, In body (flat_map class_bodies l) -> creatable body.
