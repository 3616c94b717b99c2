(** What the classes generated for a selection carry.  Independent of the generator. *)
From Verif Require Import Base PyAst Gql Config Stylers Registry Spec_Types Spec_Fields.

Definition pyfield : Type := (string * expr * option expr)%type.
(** [k] is the class of some object inside the value *)
Fixpoint occurs_in (k : string) (v : jval) : Prop :=
  match v with
  | JNull => False
  | JLeaf c => c = k
  | JSeq _ l => (fix any (l : list jval) : Prop := match l with [] => False | x :: r => occurs_in k x \/ any r end) l
  end.
(** an annotation admits instances of the class [k] *)
Definition holds (a : expr) (k : string) : Prop := exists v, accepts a v /\ occurs_in k v.

(** the selections of a field *)
Definition selections (f : fieldnode) : list selection := match fn_sels f with Some l => l | None => [] end.
Definition schema_field (s : schema) (n name : string) (fd : fielddef) : Prop :=
  exists t fs, get_type s n = Some t /\ output_fields t = Some fs /\ dget name fs = Some fd.
(** every field selected directly in [sels] on the type [n] is a field of the class body *)
Definition carries (P : fieldnode -> fielddef -> pyfield -> Prop) (s : schema) (n : string) (sels : list selection) (body : list stmt) : Prop :=
  forall g, In (SelField g) sels -> fn_name g <> "__typename" ->
    exists fd fld, schema_field s n (fn_name g) fd /\ In fld (class_fields body) /\ P g fd fld.
(** the class is tagged with a type name: [typename: Literal["n"] = Field(alias="__typename", ...)] *)
Definition tagged (body : list stmt) (n : string) : Prop :=
  exists v, In ("typename", ESub (EName "Literal") (EConst (CStr n)), v) (class_fields body) /\ wire_name "typename" v = "__typename".
Definition any_tag (body : list stmt) : Prop :=
  exists v, In ("typename", EName "str", v) (class_fields body) /\ wire_name "typename" v = "__typename".
(** The class of fragment [f] for objects of type [i]: of a fragment on an interface the class
    for [i], otherwise the class of the fragment if it is on [i]. *)
Inductive fragment_for (r : reg) (f i k : string) : Prop :=
| ff_interface : forall m, dget f (r_iffrag r) = Some m -> dget i m = Some k -> fragment_for r f i k
| ff_object : dget f (r_iffrag r) = None -> dget f (r_fragtypes r) = Some i -> dget f (r_frags r) = Some k -> fragment_for r f i k.
(** the class inherits the fragments spread in [sels] *)
Definition inherits_spreads (r : reg) (i : string) (sels : list selection) (bases : list expr) : Prop :=
  forall f ds, In (SelSpread f ds) sels -> exists k,
    (dget f (r_frags r) = Some k \/ exists m, dget f (r_iffrag r) = Some m /\ dget i m = Some k) /\ In (EName k) bases.
Definition inherits_for (r : reg) (i : string) (sels : list selection) (bases : list expr) : Prop :=
  forall f ds k, In (SelSpread f ds) sels -> fragment_for r f i k -> In (EName k) bases.

Section Modelled.
Variable st : list styler.
Variable s : schema.
Variable r : reg.
Variable catchall : bool.
Variable classes : list stmt.
(** The parts of a selection on an interface [n] are split over classes: one for all types, one
    for each implementing type, and (if [unknown]) one for types unknown to the schema. *)
Definition interface_classes (unknown : bool) (P : fieldnode -> fielddef -> pyfield -> Prop) (n : string) (sels : list selection)
           (alternative : string -> string -> Prop) (other : string -> Prop) : Prop :=
  exists mother mbases mbody, In (SClass mother mbases mbody []) classes /\ carries P s n sels mbody
    /\ (forall i, In i (implementations s n) -> exists cls bases body,
          In (SClass cls bases body []) classes /\ alternative i cls /\ In (EName mother) bases /\ tagged body i
          /\ (forall ds m, In (SelInline (Some i) ds m) sels -> carries P s i m body)
          /\ inherits_for r i sels bases)
    /\ (unknown = true -> exists cls bases body,
          In (SClass cls bases body []) classes /\ other cls /\ In (EName mother) bases /\ any_tag body).
(** A field of a response class models a selected field, with the classes generated along. *)
Inductive modelled : fieldnode -> fielddef -> pyfield -> Prop :=
| Modelled : forall f fd fld,
    fst (fst fld) = style_with sty_node st (response_key f) ->
    wire fld = response_key f ->
    (may_omit (snd fld) = true <-> is_nonnull (fd_type fd) = false) ->
    shape (gty_name (fd_type fd)) f (snd (fst fld)) ->
    modelled f fd fld
(** the annotation [a] of the field [f] of named type [n] *)
with shape : string -> fieldnode -> expr -> Prop :=
(** a leaf type *)
| sh_leaf : forall n f a,
    (exists d, get_type s n = Some (TScalar d)) \/ (exists d vs, get_type s n = Some (TEnum d vs)) -> shape n f a
(** an object, whose selection is one fragment: the class of the fragment *)
| sh_fragment : forall n f a d i fs dirs fr ds k,
    get_type s n = Some (TObject d i fs dirs) ->
    filter (fun x => negb (is_typename_field x)) (selections f) = [SelSpread fr ds] ->
    fragment_class st r fr k -> holds a k -> shape n f a
(** an object: a class with the selected fields, the fragments as bases *)
| sh_object : forall n f a d i fs dirs cls bases body,
    get_type s n = Some (TObject d i fs dirs) ->
    In (SClass cls bases body []) classes -> holds a cls -> tagged body n ->
    carries modelled s n (selections f) body ->
    inherits_spreads r n (selections f) bases ->
    (forall cond ds m, ~ In (SelInline cond ds m) (selections f)) -> shape n f a
| sh_interface : forall n f a d i fs,
    get_type s n = Some (TInterface d i fs) ->
    interface_classes catchall modelled n (selections f) (fun _ => holds a) (holds a) -> shape n f a
(** a union: a class for every inline fragment, and the classes of the fragments *)
| sh_union : forall n f a d ms,
    get_type s n = Some (TUnion d ms) ->
    (forall cond ds m, In (SelInline cond ds m) (selections f) -> exists i cls bases body,
       cond = Some i /\ In (SClass cls bases body []) classes /\ holds a cls
       /\ carries modelled s i m body /\ inherits_spreads r i m bases
       /\ ((forall fr ds, ~ In (SelSpread fr ds) m) -> tagged body i)) ->
    (forall fr ds, In (SelSpread fr ds) (selections f) -> exists k, dget fr (r_frags r) = Some k /\ holds a k) -> shape n f a.
(** What the classes of a fragment on the type [n] with the selections [sels] carry; [cls] is the
    class registered for the fragment, [ifs] and [ufs] those registered for single types. *)
Definition object_fragment_ok (n : string) (sels : list selection) (cls : string) : Prop :=
  exists bases body, In (SClass cls bases body []) classes /\ tagged body n /\ carries modelled s n sels body
    /\ inherits_spreads r n sels bases.
Definition interface_fragment_ok (n : string) (sels : list selection) (ifs : dict string) : Prop :=
  interface_classes true modelled n sels (fun i k => dget i ifs = Some k) (fun _ => True).
Definition union_fragment_ok (ms : list string) (sels : list selection) (ufs : dict string) : Prop :=
  forall i, In i ms -> exists cls bases body,
    In (SClass cls bases body []) classes /\ dget i ufs = Some cls /\ tagged body i
    /\ (forall ds m, In (SelInline (Some i) ds m) sels ->
          carries modelled s i m body /\ forall f ds', In (SelSpread f ds') m -> In (EName f) bases)
    /\ (forall f ds u k, In (SelSpread f ds) sels -> dget f (r_ufrag r) = Some u -> dget i u = Some k -> In (EName k) bases).
End Modelled.
