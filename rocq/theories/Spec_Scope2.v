(** Which documents need names that their generated module does not bind.  Independent of the
    generator. *)
From Verif Require Import Base PyAst Gql Config Spec_Refs Spec_Docs.

(** fragment [f] is spread in a selection of a field whose type is a union, or directly in an
    inline fragment of such a selection *)
Definition union_type (s : schema) (n : string) : Prop := exists d ms, get_type s n = Some (TUnion d ms).
Inductive in_union (s : schema) : string -> list selection -> string -> Prop :=
| iu_here : forall n sels f dirs, union_type s n -> In (SelSpread f dirs) sels -> in_union s n sels f
| iu_member : forall n sels c dirs sub f dirs', union_type s n -> In (SelInline (Some c) dirs sub) sels ->
    In (SelSpread f dirs') sub -> in_union s n sels f
| iu_below : forall n sels g fd sub f, In (SelField g) sels -> get_field_def s n (fn_name g) = Some fd ->
    fn_sels g = Some sub -> in_union s (gty_name (fd_type fd)) sub f -> in_union s n sels f
| iu_inline : forall n sels c dirs sub f, In (SelInline (Some c) dirs sub) sels -> in_union s c sub f -> in_union s n sels f.
Definition document_in_union (s : schema) (d : document) (f : string) : Prop :=
  (exists o root, In (DOp o) d /\ root_type s (op_kind o) = Some root /\ in_union s root (op_sels o) f)
  \/ (exists fr, In (DFrag fr) d /\ in_union s (fr_on fr) (fr_sels fr) f).
(** no fragment on an interface is spread there *)
Definition interface_type (s : schema) (n : string) : Prop := exists d is fs, get_type s n = Some (TInterface d is fs).
Definition unions_plain (s : schema) (d : document) : Prop :=
  forall fr, In (DFrag fr) d -> document_in_union s d (fr_name fr) -> ~ interface_type s (fr_on fr).
(** a fragment spread in an inline fragment of a fragment on a union has a class of its name *)
Definition members_named (s : schema) (d : document) (class_of : string -> string) : Prop :=
  forall fr c dirs sub f dirs', In (DFrag fr) d -> union_type s (fr_on fr) -> In (SelInline (Some c) dirs sub) (fr_sels fr) ->
    In (SelSpread f dirs') sub -> class_of f = f.

(** the names of helper classes of the generator *)
Definition helper_names : list string := ["__TypeKind"; "__DirectiveLocation"; "UNSET"; "GraphQLDefault"; "Deprecated"].
(** the module imports [Field]: some operation selects a nullable field at its root, or there is a fragment on an
    object or an interface *)
Definition object_type (s : schema) (n : string) : Prop := exists d is fs ds, get_type s n = Some (TObject d is fs ds).
Definition imports_field (s : schema) (d : document) : Prop :=
  (exists o root f fd, In (DOp o) d /\ root_type s (op_kind o) = Some root /\ In (SelField f) (op_sels o)
     /\ get_field_def s root (fn_name f) = Some fd /\ is_nonnull (fd_type fd) = false)
  \/ (exists fr, In (DFrag fr) d /\ (object_type s (fr_on fr) \/ interface_type s (fr_on fr))).
(** every enum the document selects has a class: it has no name of a helper class and is not left out *)
Definition enums_available (skip_underscore skip_double skip_unreferenced : bool) (s : schema) (d : document) : Prop :=
  (forall e, is_enum s e -> document_selects s d e ->
     ~ In e helper_names /\ (skip_underscore = true -> startswith "_" e = false) /\ (skip_double = true -> startswith "__" e = false))
  /\ (skip_unreferenced = true -> flat_document d).
(** no variable has the type of a helper class *)
Definition variables_plain (d : document) : Prop :=
  forall o v, In (DOp o) d -> In v (op_vars o) -> ~ In (gty_name (v_type v)) helper_names.
(** some variable may be left out *)
Definition optional_variable (d : document) : Prop :=
  exists o v, In (DOp o) d /\ In v (op_vars o) /\ (is_nonnull (v_type v) = false \/ v_default v <> None).
(** no field of an input type has the type of a helper class *)
Definition fields_plain (s : schema) : Prop :=
  forall n d fs ds k f, get_type s n = Some (TInput d fs ds) -> In (k, f) fs -> ~ In (gty_name (if_type f)) helper_names.
