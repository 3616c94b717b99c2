(** Specifications about configuration, read off the emitted Python AST. *)
From Verif Require Import Base PyAst Gql Config.

(** The model-config entries of a class body: the keywords of
    [model_config = ConfigDict(...)] (pydantic v2) and the assignments inside
    [class Config:] (pydantic v1). *)
Fixpoint const_kws (l : list (option string * expr)) : list (string * const) :=
  match l with
  | (Some n, EConst c) :: r => (n, c) :: const_kws r
  | _ :: r => const_kws r
  | [] => []
  end.
Fixpoint const_assigns (l : list stmt) : list (string * const) :=
  match l with
  | SAssign (EName n) (EConst c) :: r => (n, c) :: const_assigns r
  | _ :: r => const_assigns r
  | [] => []
  end.
Definition config_entries_of (s : stmt) : list (string * const) :=
  match s with
  | SAssign (EName "model_config") (ECall (EName "ConfigDict") [] kws) => const_kws kws
  | SClass "Config" [] body [] => const_assigns body
  | _ => []
  end.
Definition config_entries (body : list stmt) : list (string * const) := flat_map config_entries_of body.

(** A rule with kinds / exclude / include lists applies to a class of kind [k] for type [n];
    an absent or empty exclude (include) list excludes (restricts) nothing. *)
Definition applies (enabled : bool) (kinds : list gqltypes) (exclude include : option (list string))
           (k : gqltypes) (n : option string) : Prop :=
  enabled = true /\ In k kinds
  /\ (forall l, exclude = Some l -> forall m, n = Some m -> ~ In m l)
  /\ (forall l, include = Some l -> l = [] \/ exists m, n = Some m /\ In m l).

Definition freeze_applies (c : gconfig) := let f := c_freeze c in
  applies (fz_enabled f) (fz_types f) (fz_exclude f) (fz_include f).
Definition options_apply (c : gconfig) := let o := c_options c in
  applies (oc_enabled o) (oc_types o) (oc_exclude o) (oc_include o).

(** The pydantic name of each configured option *)
Definition by_name_key (c : gconfig) : string :=
  if String.eqb (c_pydantic_version c) "v2" then "populate_by_name" else "allow_population_by_field_name".
Definition option_setting (c : gconfig) (name : string) (v : const) : Prop :=
  let o := c_options c in
  (name = "allow_mutation" /\ exists b, oc_allow_mutation o = Some b /\ v = CBool b)
  \/ (name = "extra" /\ exists s, oc_extra o = Some s /\ v = CStr s)
  \/ (name = "validate_assignment" /\ exists b, oc_validate_assignment o = Some b /\ v = CBool b)
  \/ (name = by_name_key c /\ exists b, oc_allow_population_by_field_name o = Some b /\ v = CBool b)
  \/ (name = "orm_mode" /\ exists b, oc_orm_mode o = Some b /\ v = CBool b)
  \/ (name = "use_enum_values" /\ exists b, oc_use_enum_values o = Some b /\ v = CBool b).
Definition extra_setting (c : gconfig) (n : option string) (name : string) (v : const) : Prop :=
  exists m d, n = Some m /\ m <> "" /\ dget m (c_additional_config c) = Some d /\ In (name, v) d.

(** the config entries of the body of a class of kind [k] for type [n] *)
Definition configured (c : gconfig) (k : gqltypes) (n : option string) (body : list stmt) : Prop :=
  forall name v, In (name, v) (config_entries body) <->
    (freeze_applies c k n /\ name = "frozen" /\ v = CBool true)
    \/ (options_apply c k n /\ option_setting c name v)
    \/ extra_setting c n name v.
Definition frozen (body : list stmt) : Prop := In ("frozen", CBool true) (config_entries body).
