(** Specifications for the fields of generated object, response and argument classes,
    independent of the generator. *)
From Verif Require Import Base PyAst Gql Config Stylers Registry Spec_Types Spec_Inputs.

(** the name of a generated field on the wire *)
Definition wire (fld : string * expr * option expr) : string := wire_name (fst (fst fld)) (snd fld).
(** A generated field [n: ann = value] represents a GraphQL output field of type [t] whose name
    (or response key) is [k]. *)
Record output_field_ok (tup : bool) (leaf : string -> string -> Prop) (name k : string) (t : gty)
       (fld : string * expr * option expr) : Prop := {
  ofo_name : fst (fst fld) = name;
  ofo_wire : wire_name (fst (fst fld)) (snd fld) = k;
  ofo_type : forall x, accepts (snd (fst fld)) x <-> inhab tup leaf t x;
  ofo_omit : may_omit (snd fld) = true <-> inhab tup leaf t JNull }.

(** ** Classes for schema types *)
(** the Python class standing for a named type that is no union *)
Definition plain_leaf (s : schema) (scalars : dict string) (st : list styler) (n cls : string) : Prop :=
  match get_type s n with
  | Some (TScalar _) => exists p, dget n scalars = Some p /\ cls = last_comp p
  | Some (TEnum _ _) => cls = enum_type_class st n
  | Some (TObject _ _ _ _) | Some (TInterface _ _ _) => cls = style_with sty_object st n
  | _ => False
  end.
(** a value of a union type is a value of one of its members *)
Definition object_leaf (s : schema) (scalars : dict string) (st : list styler) (n cls : string) : Prop :=
  match get_type s n with
  | Some (TUnion _ ms) => exists m, In m ms /\ plain_leaf s scalars st m cls
  | _ => plain_leaf s scalars st n cls
  end.
(** lists become tuples when freezing is enabled for objects and converts lists *)
Definition object_tuples (c : gconfig) (b : bool) : Prop :=
  b = true <-> fz_enabled (c_freeze c) = true /\ In KObject (fz_types (c_freeze c))
               /\ fz_convert_list_to_tuple (c_freeze c) = true.
(** the class of an object type is named after it, that of an interface with suffix Base *)
Definition schema_class_name (st : list styler) (key : string) (t : typedef) : string :=
  match t with
  | TInterface _ _ _ => style_with sty_object st key +s+ "Base"
  | _ => style_with sty_object st key
  end.
Definition output_fields (t : typedef) : option (list (string * fielddef)) :=
  match t with TObject _ _ fs _ | TInterface _ _ fs => Some fs | _ => None end.
Definition represents_object (tup : bool) (leaf : string -> string -> Prop) (st : list styler)
           (key : string) (t : typedef) (fields : list (string * fielddef)) (stm : stmt) : Prop :=
  exists bases body, stm = SClass (schema_class_name st key t) bases body []
    /\ Forall2 (fun kv fld => output_field_ok tup leaf (style_with sty_node st (fst kv)) (fst kv) (fd_type (snd kv)) fld)
               fields (class_fields body).
Definition object_skipped (one two : bool) (key : string) : Prop :=
  (one = true /\ startswith "_" key = true) \/ (two = true /\ startswith "__" key = true).

(** ** Response fields *)
Definition response_key (f : fieldnode) : string := match fn_alias f with Some a => a | None => fn_name f end.
(** the wrapper right around the innermost type is non-null *)
Fixpoint inner_nonnull (t : gty) : bool :=
  match t with
  | GNamed _ => false
  | GNonNull (GNamed _) => true
  | GNonNull t | GList t => inner_nonnull t
  end.
(** the alternatives a selection on a union distinguishes *)
Definition alternatives (f : fieldnode) : list selection :=
  filter (fun x => match x with SelField _ => false | _ => true end) (match fn_sels f with Some l => l | None => [] end).

(** ** Operation arguments *)
(** the variable may be omitted *)
Definition omittable (v : vardef) : Prop := v_default v <> None \/ is_nonnull (v_type v) = false.
(** a field of an Arguments class represents a variable *)
Record argument_ok (leaf : string -> string -> Prop) (st : list styler) (v : vardef) (fld : string * expr * option expr) : Prop := {
  ao_name : fst (fst fld) = style_with sty_parameter st (v_name v);
  ao_wire : wire fld = v_name v;
  ao_type : forall x, accepts (snd (fst fld)) x <-> inhab false leaf (v_type v) x \/ (x = JNull /\ omittable v);
  ao_null : accepts (snd (fst fld)) JNull <-> omittable v;
  ao_omit : may_omit (snd fld) = true <-> omittable v }.
(** the integer an integer literal denotes *)
Fixpoint dec_value (s : string) : Z :=
  match s with
  | EmptyString => 0
  | String c r => (Z.of_nat (code c - 48) * 10 ^ Z.of_nat (String.length r) + dec_value r)%Z
  end.
Definition int_value (s : string) : Z :=
  match s with String "-"%char r => (- dec_value r)%Z | _ => dec_value s end.
(** the text [t] records the literal [d] *)
Definition records (d : vnode) (t : string) : Prop :=
  match d with
  | VInt s => int_value t = int_value s
  | VFloat s => t = s
  | VString s _ => t = s
  | VBool b => t = if b then "True" else "False"
  | _ => False
  end.
(** the text recorded in an annotation [Annotated[T, GraphQLDefault(text)]] *)
Definition recorded (e : expr) : option string :=
  match e with
  | ESub (EName "Annotated") (ETuple [_; ECall _ [EConst (CStr t)] []]) => Some t
  | _ => None
  end.
(** the recorded default denotes the default of the variable; a null default is not recorded *)
Definition default_recorded (d : option vnode) (e : expr) : Prop :=
  match d with
  | None | Some VNull => recorded e = None
  | Some d => exists t, recorded e = Some t /\ records d t
  end.
Definition simple_literal (d : vnode) : Prop :=
  match d with VInt _ | VFloat _ | VString _ _ | VNull => True | _ => False end.

(** ** Response classes *)
Definition defined (l : list stmt) : list string :=
  flat_map (fun x => match x with SClass n _ _ _ => [n] | _ => [] end) l.
(** a class generated for the fragment [f] *)
Definition fragment_class (st : list styler) (r : reg) (f cls : string) : Prop :=
  dget f (r_frags r) = Some cls
  \/ (exists m x, dget f (r_iffrag r) = Some m /\ dget x m = Some cls)
  \/ cls = style_with sty_fragment st f.
(** the classes a response field of named type [n] may have: for scalars and enums the class of
    the type, otherwise a class generated for the selection or for a fragment spread in it *)
Definition response_class (s : schema) (st : list styler) (r : reg) (classes : list stmt) (f : fieldnode) (n cls : string) : Prop :=
  match get_type s n with
  | Some (TScalar _) => exists p, dget n (r_scalars r) = Some p /\ cls = last_comp p
  | Some (TEnum _ _) => cls = enum_type_class st n
  | _ => In cls (defined classes)
         \/ exists fr ds, In (SelSpread fr ds) (match fn_sels f with Some l => l | None => [] end) /\ fragment_class st r fr cls
  end.
(** the type is a union, or an interface without alternatives to dispatch to *)
Definition is_union_type (s : schema) (n : string) : Prop := exists d ms, get_type s n = Some (TUnion d ms).
Definition has_alternatives (c : gconfig) (s : schema) (n : string) : Prop := forall d i f, get_type s n = Some (TInterface d i f) ->
  implementations s n <> [] \/ c_create_catchall c = true.
(** A field of a response class: named after and read from the response key, its annotation
    admits what the type of the field admits (tuples for lists when freezing), the innermost
    classes being response classes. *)
Definition response_field_ok (c : gconfig) (st : list styler) (s : schema) (r : reg) (classes : list stmt) (f : fieldnode) (fd : fielddef)
    (fld : string * expr * option expr) : Prop :=
  exists tup L, (tup = true <-> fz_enabled (c_freeze c) = true)
    /\ output_field_ok tup (fun _ => L) (style_with sty_node st (response_key f)) (response_key f) (fd_type fd) fld
    /\ (forall k, L k -> response_class s st r classes f (gty_name (fd_type fd)) k)
    /\ (has_alternatives c s (gty_name (fd_type fd)) -> exists k, L k).
