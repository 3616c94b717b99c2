(** Documents that are valid for a schema, and those the generator supports.  Independent of the
    generator. *)
From Verif Require Import Base PyAst Gql Config Print Spec_Mro Spec_Mro2 Spec_Docs Spec_Inline Spec_Valid.

Section ValidDoc.
Variable s : schema.
(** ** Validity (GraphQL specification, section 5), as far as code generation depends on it *)
Definition is_leaf (n : string) : bool := is_scalar s n || is_enum s n.
Definition is_composite (n : string) : bool := is_object s n || is_iface s n || is_union s n.
(** the object types a value of a composite type may have *)
Definition possible (n : string) : list string :=
  match get_type s n with
  | Some (TObject _ _ _ _) => [n]
  | Some (TUnion _ ms) => ms
  | Some (TInterface _ _ _) => map fst (filter (fun kt => match snd kt with TObject _ is _ _ => mem n is | _ => false end) (s_types s))
  | _ => []
  end.
(** 5.5.2.3: fragment spreads must be possible *)
Definition overlap (a b : string) : bool := existsb (fun o => mem o (possible b)) (possible a).
(** the named type of a field *)
Definition field_type (parent f : string) : option string :=
  match get_type s parent with
  | Some t => option_map (fun fd => gty_name (fd_type fd)) (dget f (fields_of t))
  | None => None
  end.
Definition the_fragment (d : document) (n : string) : option fragment := find (fun f => String.eqb (fr_name f) n) (fragments_of d).
Variable d : document.
(** [valid_sel on x]: the selection may be made on type [on]; [valid_node t f]: the field node may
    stand for a field of type [t]: 5.3.1 fields exist, 5.3.3 leafs have no selections and others do,
    5.5.1 and 5.5.2 fragments exist, are on composite types and can apply *)
Fixpoint valid_sel (on : string) (x : selection) : bool :=
  match x with
  | SelField f =>
      if String.eqb (fn_name f) "__typename" then match fn_sels f with None => true | Some _ => false end
      else match field_type on (fn_name f) with Some t => valid_node t f | None => false end
  | SelSpread n _ => match the_fragment d n with Some f => overlap on (fr_on f) | None => false end
  | SelInline cond _ l =>
      let c := match cond with Some c => c | None => on end in
      is_composite c && overlap on c && match l with [] => false | _ => true end && forallb (valid_sel c) l
  end
with valid_node (t : string) (f : fieldnode) : bool :=
  match f with
  | FieldNode _ _ _ _ None => is_leaf t
  | FieldNode _ _ _ _ (Some l) => is_composite t && match l with [] => false | _ => true end && forallb (valid_sel t) l
  end.
Record valid_document : Prop := {
  vd_fragments : NoDup (map fr_name (fragments_of d));
  vd_operations : NoDup (map op_name (operations_of d));
  vd_acyclic : acyclic d;
  vd_conditions : forall f, In f (fragments_of d) -> is_composite (fr_on f) = true /\ forallb (valid_sel (fr_on f)) (fr_sels f) = true;
  vd_roots : forall o, In o (operations_of d) -> exists root, root_type s (op_kind o) = Some root /\ is_object s root = true /\ forallb (valid_sel root) (op_sels o) = true;
  vd_variables : forall o v, In o (operations_of d) -> In v (op_vars o) -> input_type s (gty_name (v_type v)) = true }.

(** ** What the generator supports *)
(** [supported_sel on x] for a selection of a field of type [on]: no inline fragments on object types;
    elsewhere they have an object type as condition.  What else an inline fragment contains besides fields does
    not matter.  [supported_node t f]: of a union at least one member is selected. *)
Fixpoint supported_sel (on : string) (x : selection) : bool :=
  match x with
  | SelField f => match field_type on (fn_name f) with Some t => supported_node t f | None => true end
  | SelSpread _ _ => true
  | SelInline None _ _ => false
  | SelInline (Some c) _ l =>
      negb (is_object s on) && is_object s c
      && forallb (fun y => match y with SelField f => match field_type c (fn_name f) with Some t => supported_node t f | None => true end | _ => true end) l
  end
with supported_node (t : string) (f : fieldnode) : bool :=
  match f with
  | FieldNode _ _ _ _ None => true
  | FieldNode _ _ _ _ (Some l) =>
      forallb (supported_sel t) l && (negb (is_union s t) || existsb (fun x => match x with SelField _ => false | _ => true end) l)
  end.
Definition supported_field (on : string) (x : selection) : bool :=
  match x with SelField f => match field_type on (fn_name f) with Some t => supported_node t f | None => true end | _ => true end.
(** a selection of a fragment on type [on]: a fragment on a union spreads only fragments on unions *)
Definition supported_fragment (on : string) (x : selection) : bool :=
  match x with
  | SelField _ => supported_field on x
  | SelSpread n _ => negb (is_union s on) || match the_fragment d n with Some f => is_union s (fr_on f) | None => false end
  | SelInline None _ _ => false
  | SelInline (Some c) _ l => forallb (supported_field c) l
  end.
Definition plain_literal (v : vnode) : bool := match v with VList _ | VObject _ | VEnum _ | VVar _ => false | _ => true end.
Record supported_document (ps : string -> bool -> string) (add : string -> res string) : Prop := {
  (* operations have names and select fields only; the default values of variables are neither lists, objects nor enum values *)
  sd_named : forall o, In o (operations_of d) -> exists n, op_name o = Some n;
  sd_roots : forall o x root, In o (operations_of d) -> root_type s (op_kind o) = Some root -> In x (op_sels o) -> (exists f, x = SelField f) /\ supported_field root x = true;
  sd_defaults : forall o v x, In o (operations_of d) -> In v (op_vars o) -> v_default v = Some x -> plain_literal x = true;
  sd_fragments : forall f, In f (fragments_of d) -> forallb (supported_fragment (fr_on f)) (fr_sels f) = true;
  (* a fragment spreads inside of an inline fragment only what it also spreads elsewhere *)
  sd_inline : forall f n, In f (fragments_of d) -> spread_in True (fr_sels f) n -> spread_in False (fr_sels f) n;
  (* the names of fragments can be read off the text, and adding __typename to the text of a fragment works *)
  sd_text : forall f, In f (fragments_of d) -> readable_fragment ps f /\ add (print_fragment ps f) = Ok (print_fragment ps (with_typename f));
  sd_operations : forall o, In o (operations_of d) -> readable_operation ps o }.
End ValidDoc.
