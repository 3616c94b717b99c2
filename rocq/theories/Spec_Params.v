(** Parameters of generated functions and factories (website/docs/plugins/inputfuncs.md, funcs.md).  Independent of the generator. *)
From Verif Require Import Base PyAst Gql Config Stylers Registry Spec_Types Spec_Inputs Spec_Annot Spec_Funcs.

(** Python: the values an annotation of a parameter takes; an iterable is a list or a tuple *)
Inductive takes : expr -> jval -> Prop :=
| tk_name n : takes (EName n) (JLeaf n)
| tk_forward n : takes (EConst (CStr n)) (JLeaf n)
| tk_none e : takes (ESub (EName "Optional") e) JNull
| tk_some e v : takes e v -> takes (ESub (EName "Optional") e) v
| tk_union l e v : In e l -> takes e v -> takes (ESub (EName "Union") (ETuple l)) v
| tk_list e l : (forall x, In x l -> takes e x) -> takes (ESub (EName "List") e) (JSeq false l)
| tk_iterable e b l : (forall x, In x l -> takes e x) -> takes (ESub (EName "Iterable") e) (JSeq b l).
(** GraphQL: the values of a type; [seq]: the Python sequences that stand for lists *)
Fixpoint legal (seq : bool -> Prop) (leaf : string -> string -> Prop) (t : gty) (v : jval) : Prop :=
  match t with
  | GNamed n => v = JNull \/ exists cls, leaf n cls /\ v = JLeaf cls
  | GList t' => v = JNull \/ exists b l, seq b /\ v = JSeq b l /\ forall x, In x l -> legal seq leaf t' x
  | GNonNull t' => v <> JNull /\ legal seq leaf t' v
  end.
(** an entry of the plugin, or else of the project *)
Definition coerced (own general : dict string) (n : string) : option string :=
  match dget n own with Some p => Some p | None => dget n general end.
(** The classes of the values of a field: a coercible scalar has the configured type, an input
    type its class or the configured type. *)
Definition param_leaf (s : schema) (scalars : dict string) (st : list styler) (coerced_scalar coerced_input : string -> option string) (n cls : string) : Prop :=
  match get_type s n with
  | Some (TScalar _) => match coerced_scalar n with Some p => cls = last_comp p | None => exists p, dget n scalars = Some p /\ cls = last_comp p end
  | Some (TEnum _ _) => cls = enum_type_class st n
  | Some (TInput _ _ _) => cls = style_with sty_input st n \/ exists p, coerced_input n = Some p /\ cls = last_comp p
  | _ => False
  end.
(** the same for variables, whose types are looked up in the registry *)
Definition variable_leaf (st : list styler) (r : reg) (coerced_scalar coerced_input : string -> option string) (n cls : string) : Prop :=
  match coerced_scalar n, coerced_input n with
  | Some p, _ => cls = last_comp p
  | None, Some p => cls = style_with sty_input st n \/ cls = last_comp p
  | None, None => class_for st r n cls
  end.
(** GraphQL: a null field may be omitted, and one with a default *)
Definition nullable (y : inputfield) : bool := match if_type y with GNonNull _ => false | _ => true end.
Definition omittable (y : inputfield) : bool := nullable y || match if_default y with Some _ => true | None => false end.
Definition unset_class (override : option string) : string := match override with None | Some EmptyString => "UnsetType" | Some o => last_comp o end.
(** the parameters for the fields, those that may be omitted last, with a default, and taking the sentinel *)
Definition params_of (leaf : string -> string -> Prop) (unset : string) (st : list styler) (omit : inputfield -> bool) (fields : list (string * inputfield)) (args : pyargs) : Prop :=
  exists pos kw, a_args args = pos ++ kw /\ length (a_defaults args) = length kw
  /\ Forall2 (fun kf a => pa_name a = style_with sty_node st (fst kf) /\ exists e, pa_ann a = Some e /\ forall v, takes e v <-> legal (fun _ => True) leaf (if_type (snd kf)) v)
       (filter (fun kf => negb (omit (snd kf))) fields) pos
  /\ Forall2 (fun kf a => pa_name a = style_with sty_node st (fst kf) /\ exists e, pa_ann a = Some e /\ forall v, takes e v <-> legal (fun _ => True) leaf (if_type (snd kf)) v \/ v = JLeaf unset)
       (filter (fun kf => omit (snd kf)) fields) kw.
(** the parameter for a variable; one that may be omitted also takes the sentinel *)
Definition variable_param (leaf : string -> string -> Prop) (unset : string) (st : list styler) (v : vardef) (a : pyarg) : Prop :=
  pa_name a = style_with sty_parameter st (v_name v) /\ exists e, pa_ann a = Some e
  /\ forall x, takes e x <-> legal (fun b => b = false) leaf (v_type v) x \/ (~ required_var v /\ x = JLeaf unset).
(** the parameter for a field *)
Definition field_param (leaf : string -> string -> Prop) (unset : string) (st : list styler) (k : string) (y : inputfield) (a : pyarg) : Prop :=
  pa_name a = style_with sty_node st k /\ exists e, pa_ann a = Some e
  /\ forall x, takes e x <-> legal (fun _ => True) leaf (if_type y) x \/ (nullable y = true /\ x = JLeaf unset).
