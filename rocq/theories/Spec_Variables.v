(** Which variable values a server accepts for an operation, and which its Arguments class can be serialised to.
    Independent of the generator. *)
From Verif Require Import Base PyAst Gql Config Stylers Registry PySem Spec_Config Spec_Types Spec_Inputs Spec_Refs Spec_Scope Spec_Dispatch Spec_Names Spec_Pydantic
  Spec_Fields Spec_Annot Spec_Classes Spec_Response Spec_Values.

(** ** The server (GraphQL specification, section 6.1.2 CoerceVariableValues) *)
Definition valid_variables (s : schema) (sc : string -> data -> Prop) (vars : list vardef) (kvs : list (string * data)) : Prop :=
  NoDup (dkeys kvs)
  /\ (forall k v, In (k, v) kvs -> exists x, In x vars /\ v_name x = k)
  /\ (forall k v x, In (k, v) kvs -> In x vars -> v_name x = k -> valid_input s sc (v_type x) v)
  /\ (forall x, In x vars -> ~ In (v_name x) (dkeys kvs) -> is_nonnull (v_type x) = false \/ v_default x <> None).

(** ** The client: [model_dump(by_alias=True, exclude_unset=True)] of an instance of a class that is nested in a class of the module [t] *)
Section Client.
Variable t : list stmt.
Variable py : string -> data -> Prop.
Inductive nested_field (bases : list expr) (body : list stmt) : string * expr * option expr -> Prop :=
| nf_own : forall n f, last_field n body = Some f -> ~ private_name n -> nested_field bases body f
| nf_inherited : forall b f, In (EName b) bases -> last_field (fst (fst f)) body = None -> has_field t b f -> nested_field bases body f.
Definition nested_extra (bases : list expr) (body : list stmt) : Prop :=
  In ("extra", CStr "allow") (config_entries body) \/ exists b, In (EName b) bases /\ takes_extra t b.
Definition sends (bases : list expr) (body : list stmt) (kvs : list (string * data)) : Prop :=
  creatable body /\ NoDup (dkeys kvs)
  /\ (forall k v, In (k, v) kvs -> (exists n a val, nested_field bases body (n, a, val) /\ wire_name n val = k /\ holds t py a v) \/ nested_extra bases body)
  /\ (forall n a val, nested_field bases body (n, a, val) -> ~ In (wire_name n val) (dkeys kvs) -> may_omit val = true).
(** the attribute [m] of the class with this body is this nested class *)
Definition nested (body : list stmt) (m : string) (bases' : list expr) (body' : list stmt) : Prop :=
  exists pre decs post, body = pre ++ SClass m bases' body' decs :: post /\ ~ In m (binds post).
End Client.

(** ** Operations *)
(** The variables that become fields of their own, of types that become classes of their own or have a Python type: the flags say which enums
    are skipped by their names, [typed n]: a Python type is configured for [n]. *)
Record modelled_variables (s : schema) (st : list styler) (skip_enum skip_dunder : bool) (typed : string -> Prop) (vars : list vardef) : Prop := {
  mv_attributes : NoDup (map (fun v => style_with sty_parameter st (v_name v)) vars);
  mv_fields : forall v, In v vars -> model_field (style_with sty_parameter st (v_name v));
  mv_named : forall v, In v vars -> Spec_Annot.named st (gty_name (v_type v));
  mv_input_side : forall v, In v vars -> input_side s (gty_name (v_type v));
  mv_scalars : forall v, In v vars -> is_scalar s (gty_name (v_type v)) -> typed (gty_name (v_type v));
  mv_enums : forall v, In v vars -> is_enum s (gty_name (v_type v)) -> introspection_enum (gty_name (v_type v)) = false
    /\ (skip_enum = true -> startswith "_" (gty_name (v_type v)) = false) /\ (skip_dunder = true -> startswith "__" (gty_name (v_type v)) = false)
    /\ ~ typed (gty_name (v_type v)) /\ ~ In (gty_name (v_type v)) (input_names s);
  mv_inputs : forall v, In v vars -> is_input s (gty_name (v_type v)) -> ~ typed (gty_name (v_type v)) /\ ~ In (gty_name (v_type v)) built_in_keys }.
(** every default belongs to a nullable variable *)
Definition variable_defaults_nullable (vars : list vardef) : Prop :=
  forall v, In v vars -> v_default v <> None -> is_nonnull (v_type v) = false.
