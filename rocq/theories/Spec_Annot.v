(** Specifications for variable and return annotations and for default values. *)
From Verif Require Import Base PyAst Gql Stylers Registry PySem.

(** the Python class standing for an input type: the configured scalar, else the generated
    input class, else a generated or built-in enum *)
Inductive class_for (stylers : list styler) (r : reg) (n : string) : string -> Prop :=
| cf_scalar : forall t, dget n (r_scalars r) = Some t -> class_for stylers r n (last_comp t)
| cf_input : forall c, dget n (r_scalars r) = None -> dget n (r_inputs r) = Some c -> class_for stylers r n c
| cf_builtin : dget n (r_scalars r) = None -> dget n (r_inputs r) = None -> In n built_in_keys ->
               class_for stylers r n n
| cf_enum : forall c, dget n (r_scalars r) = None -> dget n (r_inputs r) = None -> ~ In n built_in_keys ->
            dget n (r_enums r) = Some c -> class_for stylers r n (style_enum_class stylers n).

(** the Python class standing for an output type in the return annotation of a function;
    [over] is the class generated for the selection *)
Inductive output_class (stylers : list styler) (s : schema) (r : reg) (over n : string) : string -> Prop :=
| oc_scalar : forall d t, get_type s n = Some (TScalar d) -> dget n (r_scalars r) = Some t ->
              output_class stylers s r over n (last_comp t)
| oc_builtin : forall d vs, get_type s n = Some (TEnum d vs) -> In n built_in_keys ->
              output_class stylers s r over n n
| oc_enum : forall d vs c, get_type s n = Some (TEnum d vs) -> ~ In n built_in_keys -> dget n (r_enums r) = Some c ->
              output_class stylers s r over n (style_enum_class stylers n)
| oc_object : forall d i f dirs, get_type s n = Some (TObject d i f dirs) -> output_class stylers s r over n over
| oc_interface : forall d i f, get_type s n = Some (TInterface d i f) -> output_class stylers s r over n over
| oc_union : forall d ms, get_type s n = Some (TUnion d ms) -> output_class stylers s r over n over.

(** no non-null wrapper anywhere *)
Fixpoint all_nullable (t : gty) : Prop :=
  match t with GNamed _ => True | GList t => all_nullable t | GNonNull _ => False end.

(** the Python value a schema default denotes *)
Fixpoint py_value (v : pyval) : pv :=
  match v with
  | PNone => PVConst CNone
  | PBool b => PVConst (CBool b)
  | PInt z => PVConst (CInt z)
  | PFloat s => PVConst (CFloat s)
  | PStr s => PVConst (CStr s)
  | PList l => PVList (map py_value l)
  | PDict l => PVDict (map (fun kv => (PVConst (CStr (fst kv)), py_value (snd kv))) l)
  end.
(** dictionaries have no duplicate keys *)
Fixpoint pyval_wf (v : pyval) : Prop :=
  match v with
  | PList l => (fix all l := match l with [] => True | x :: r => pyval_wf x /\ all r end) l
  | PDict l => NoDup (map fst l)
               /\ (fix all (l : list (string * pyval)) := match l with [] => True | kv :: r => pyval_wf (snd kv) /\ all r end) l
  | _ => True
  end.

(** the stylers do not style [n] to the empty name *)
Definition named (stylers : list styler) (n : string) : Prop :=
  style_inputtype_class stylers n <> "" /\ style_enum_class stylers n <> "".
