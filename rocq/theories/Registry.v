(** turms/registry.py: ClassRegistry as a state + exception monad.
    The state survives a raised exception, as in Python.  No proofs in this file. *)
From Verif Require Import Base PyAst Gql Config Stylers.

(** registry.py:16-24 SCALAR_DEFAULTS *)
Definition SCALAR_DEFAULTS : dict string :=
  [("ID", "str"); ("String", "str"); ("Int", "int"); ("Boolean", "bool");
   ("GenericScalar", "typing.Dict"); ("DateTime", "datetime.datetime"); ("Float", "float")].

(** registry.py:222-261 ClassRegistry.__init__.
    [registered_interfaces_fragments] is never filled by any plugin, so
    [is_interface_fragment] is constantly false; it is kept as a field. *)
Record reg : Type := Reg {
  r_imports : list string;                 (* self._imports: set *)
  r_builtins : list string;                (* self._builtins: set *)
  r_scalars : dict string;                 (* self.scalar_map *)
  r_fragdocs : dict string;                (* self.fragment_document_map *)
  r_enums : dict string;                   (* self.enum_class_map *)
  r_inputs : dict string;                  (* self.inputtype_class_map *)
  r_objects : dict string;                 (* self.object_class_map *)
  r_iface_ref : dict string;               (* self.interface_reference_map *)
  r_iface_base : dict string;              (* self.interface_baseclass_map *)
  r_frags : dict string;                   (* self.fragment_class_map *)
  r_queries : dict string; r_subs : dict string; r_muts : dict string;
  r_ifrags : list string;                  (* keys of self.registered_interfaces_fragments *)
  r_fwd : list string;                     (* self.forward_references: set *)
  r_fragtypes : dict string;               (* self.fragment_type_map: name of the type *)
  r_iffrag : dict (dict string);           (* self.interfacefragments_impl_map *)
  r_ufrag : dict (dict string);            (* self.unionfragment_members_map *)
  r_single : dict expr                     (* self.operation_single_operation_map *)
}.

Definition init_reg (c : gconfig) : reg :=
  Reg [] [] (dmerge SCALAR_DEFAULTS (c_scalar_definitions c))
      [] [] [] [] [] [] [] [] [] [] [] [] [] [] [] [].

Definition with_imports x (r : reg) := Reg x (r_builtins r) (r_scalars r) (r_fragdocs r) (r_enums r) (r_inputs r) (r_objects r) (r_iface_ref r) (r_iface_base r) (r_frags r) (r_queries r) (r_subs r) (r_muts r) (r_ifrags r) (r_fwd r) (r_fragtypes r) (r_iffrag r) (r_ufrag r) (r_single r).
Definition with_builtins x (r : reg) := Reg (r_imports r) x (r_scalars r) (r_fragdocs r) (r_enums r) (r_inputs r) (r_objects r) (r_iface_ref r) (r_iface_base r) (r_frags r) (r_queries r) (r_subs r) (r_muts r) (r_ifrags r) (r_fwd r) (r_fragtypes r) (r_iffrag r) (r_ufrag r) (r_single r).
Definition with_scalars x (r : reg) := Reg (r_imports r) (r_builtins r) x (r_fragdocs r) (r_enums r) (r_inputs r) (r_objects r) (r_iface_ref r) (r_iface_base r) (r_frags r) (r_queries r) (r_subs r) (r_muts r) (r_ifrags r) (r_fwd r) (r_fragtypes r) (r_iffrag r) (r_ufrag r) (r_single r).
Definition with_fragdocs x (r : reg) := Reg (r_imports r) (r_builtins r) (r_scalars r) x (r_enums r) (r_inputs r) (r_objects r) (r_iface_ref r) (r_iface_base r) (r_frags r) (r_queries r) (r_subs r) (r_muts r) (r_ifrags r) (r_fwd r) (r_fragtypes r) (r_iffrag r) (r_ufrag r) (r_single r).
Definition with_enums x (r : reg) := Reg (r_imports r) (r_builtins r) (r_scalars r) (r_fragdocs r) x (r_inputs r) (r_objects r) (r_iface_ref r) (r_iface_base r) (r_frags r) (r_queries r) (r_subs r) (r_muts r) (r_ifrags r) (r_fwd r) (r_fragtypes r) (r_iffrag r) (r_ufrag r) (r_single r).
Definition with_inputs x (r : reg) := Reg (r_imports r) (r_builtins r) (r_scalars r) (r_fragdocs r) (r_enums r) x (r_objects r) (r_iface_ref r) (r_iface_base r) (r_frags r) (r_queries r) (r_subs r) (r_muts r) (r_ifrags r) (r_fwd r) (r_fragtypes r) (r_iffrag r) (r_ufrag r) (r_single r).
Definition with_objects x (r : reg) := Reg (r_imports r) (r_builtins r) (r_scalars r) (r_fragdocs r) (r_enums r) (r_inputs r) x (r_iface_ref r) (r_iface_base r) (r_frags r) (r_queries r) (r_subs r) (r_muts r) (r_ifrags r) (r_fwd r) (r_fragtypes r) (r_iffrag r) (r_ufrag r) (r_single r).
Definition with_iface a b (r : reg) := Reg (r_imports r) (r_builtins r) (r_scalars r) (r_fragdocs r) (r_enums r) (r_inputs r) (r_objects r) a b (r_frags r) (r_queries r) (r_subs r) (r_muts r) (r_ifrags r) (r_fwd r) (r_fragtypes r) (r_iffrag r) (r_ufrag r) (r_single r).
Definition with_frags x (r : reg) := Reg (r_imports r) (r_builtins r) (r_scalars r) (r_fragdocs r) (r_enums r) (r_inputs r) (r_objects r) (r_iface_ref r) (r_iface_base r) x (r_queries r) (r_subs r) (r_muts r) (r_ifrags r) (r_fwd r) (r_fragtypes r) (r_iffrag r) (r_ufrag r) (r_single r).
Definition with_queries x (r : reg) := Reg (r_imports r) (r_builtins r) (r_scalars r) (r_fragdocs r) (r_enums r) (r_inputs r) (r_objects r) (r_iface_ref r) (r_iface_base r) (r_frags r) x (r_subs r) (r_muts r) (r_ifrags r) (r_fwd r) (r_fragtypes r) (r_iffrag r) (r_ufrag r) (r_single r).
Definition with_subs x (r : reg) := Reg (r_imports r) (r_builtins r) (r_scalars r) (r_fragdocs r) (r_enums r) (r_inputs r) (r_objects r) (r_iface_ref r) (r_iface_base r) (r_frags r) (r_queries r) x (r_muts r) (r_ifrags r) (r_fwd r) (r_fragtypes r) (r_iffrag r) (r_ufrag r) (r_single r).
Definition with_muts x (r : reg) := Reg (r_imports r) (r_builtins r) (r_scalars r) (r_fragdocs r) (r_enums r) (r_inputs r) (r_objects r) (r_iface_ref r) (r_iface_base r) (r_frags r) (r_queries r) (r_subs r) x (r_ifrags r) (r_fwd r) (r_fragtypes r) (r_iffrag r) (r_ufrag r) (r_single r).
Definition with_fwd x (r : reg) := Reg (r_imports r) (r_builtins r) (r_scalars r) (r_fragdocs r) (r_enums r) (r_inputs r) (r_objects r) (r_iface_ref r) (r_iface_base r) (r_frags r) (r_queries r) (r_subs r) (r_muts r) (r_ifrags r) x (r_fragtypes r) (r_iffrag r) (r_ufrag r) (r_single r).
Definition with_fragtypes x (r : reg) := Reg (r_imports r) (r_builtins r) (r_scalars r) (r_fragdocs r) (r_enums r) (r_inputs r) (r_objects r) (r_iface_ref r) (r_iface_base r) (r_frags r) (r_queries r) (r_subs r) (r_muts r) (r_ifrags r) (r_fwd r) x (r_iffrag r) (r_ufrag r) (r_single r).
Definition with_iffrag x (r : reg) := Reg (r_imports r) (r_builtins r) (r_scalars r) (r_fragdocs r) (r_enums r) (r_inputs r) (r_objects r) (r_iface_ref r) (r_iface_base r) (r_frags r) (r_queries r) (r_subs r) (r_muts r) (r_ifrags r) (r_fwd r) (r_fragtypes r) x (r_ufrag r) (r_single r).
Definition with_ufrag x (r : reg) := Reg (r_imports r) (r_builtins r) (r_scalars r) (r_fragdocs r) (r_enums r) (r_inputs r) (r_objects r) (r_iface_ref r) (r_iface_base r) (r_frags r) (r_queries r) (r_subs r) (r_muts r) (r_ifrags r) (r_fwd r) (r_fragtypes r) (r_iffrag r) x (r_single r).
Definition with_single x (r : reg) := Reg (r_imports r) (r_builtins r) (r_scalars r) (r_fragdocs r) (r_enums r) (r_inputs r) (r_objects r) (r_iface_ref r) (r_iface_base r) (r_frags r) (r_queries r) (r_subs r) (r_muts r) (r_ifrags r) (r_fwd r) (r_fragtypes r) (r_iffrag r) (r_ufrag r) x.

(** * The monad *)
Definition M (A : Type) : Type := reg -> res A * reg.
Definition ret {A} (a : A) : M A := fun r => (Ok a, r).
Definition bind {A B} (m : M A) (k : A -> M B) : M B :=
  fun r => match m r with
           | (Ok a, r') => k a r'
           | (Err e, r') => (Err e, r')
           end.
Definition raise {A} (c : exncls) (msg : string) : M A := fun r => (Err (Exn c msg), r).
Definition lift {A} (x : res A) : M A := fun r => (x, r).
Definition gets {A} (f : reg -> A) : M A := fun r => (Ok (f r), r).
Definition modify (f : reg -> reg) : M unit := fun r => (Ok tt, f r).
(** [try: m except <p>: h] *)
Definition try_except {A} (m : M A) (p : exn -> bool) (h : exn -> M A) : M A :=
  fun r => match m r with
           | (Ok a, r') => (Ok a, r')
           | (Err e, r') => if p e then h e r' else (Err e, r')
           end.
Notation "'let*' x ':=' m 'in' k" := (bind m (fun x => k))
  (at level 200, x pattern, m at level 100, k at level 200, right associativity).
Notation "m ;; k" := (bind m (fun _ => k)) (at level 100, right associativity).

Definition mmap {A B} (f : A -> M B) : list A -> M (list B) :=
  fix go (l : list A) : M (list B) :=
    match l with
    | [] => ret []
    | x :: xs => let* y := f x in let* ys := go xs in ret (y :: ys)
    end.
Definition miter {A} (f : A -> M unit) : list A -> M unit :=
  fix go (l : list A) : M unit :=
    match l with [] => ret tt | x :: xs => f x ;; go xs end.
Definition mfold {A S} (f : S -> A -> M S) : list A -> S -> M S :=
  fix go (l : list A) (s : S) : M S :=
    match l with [] => ret s | x :: xs => let* s' := f s x in go xs s' end.
Definition mconcat {A B} (f : A -> M (list B)) (l : list A) : M (list B) :=
  let* ll := mmap f l in ret (concat ll).
Definition massert (b : bool) (msg : string) : M unit :=
  if b then ret tt else raise AssertionErrorC msg.
Definition from_opt {A} (o : option A) (c : exncls) (msg : string) : M A :=
  match o with Some a => ret a | None => raise c msg end.
Definition is_cls (c : exncls) (e : exn) : bool := exncls_eqb c (ecls e).

Section WithEnv.
Variable cfg : gconfig.
Variable stylers : list styler.

(** registry.py:630-634 register_import *)
Definition py_noimport : list string := ["bool"; "str"; "int"; "float"; "dict"; "list"; "tuple"].
Definition register_import (name : string) : M unit :=
  if mem name py_noimport then ret tt
  else modify (fun r => with_imports (sadd name (r_imports r)) r).

(** registry.py:319-322 register_builtin *)
Definition register_builtin (name : string) : M unit :=
  modify (fun r => with_builtins (sadd name (r_builtins r)) r).

Definition add_forward (parent : string) : M unit :=
  modify (fun r => with_fwd (sadd parent (r_fwd r)) r).

(** registry.py:263-271 *)
Definition register_operation_single (n : string) (a : expr) : M unit :=
  modify (fun r => with_single (dset n a (r_single r)) r).
Definition get_operation_single_or_none (n : string) : M (option expr) :=
  gets (fun r => dget n (r_single r)).

(** registry.py:273-286, 304-317, 346-359, 392-397, 426-440, 531-562, 576-589, 603-616 *)
Definition style_inputtype_class := style_with sty_input stylers.
Definition style_enum_class := style_with sty_enum stylers.
Definition style_objecttype_class := style_with sty_object stylers.
Definition style_interface_class := style_with sty_object stylers.
Definition style_fragment_class := style_with sty_fragment stylers.
Definition style_query_class := style_with sty_query stylers.
Definition style_mutation_class := style_with sty_mutation stylers.
Definition style_subscription_class := style_with sty_subscription stylers.
Definition generate_node_name := style_with sty_node stylers.
Definition generate_parameter_name := style_with sty_parameter stylers.

(** the common shape of generate_inputtype / generate_enum / generate_objecttype /
    generate_fragment / generate_query / generate_mutation / generate_subscription *)
Definition generate_in (get : reg -> dict string) (set : dict string -> reg -> reg)
           (style : string -> string) (typename : string) : M string :=
  let* m := gets get in
  massert (negb (dmem typename m)) "Type was already registered, cannot register annew" ;;
  let classname := style typename in
  modify (fun r => set (dset typename classname (get r)) r) ;;
  ret classname.
Definition generate_inputtype := generate_in r_inputs with_inputs style_inputtype_class.
Definition generate_enum := generate_in r_enums with_enums style_enum_class.
Definition generate_objecttype := generate_in r_objects with_objects style_objecttype_class.
Definition generate_fragment_class := generate_in r_frags with_frags style_fragment_class.
Definition generate_query := generate_in r_queries with_queries style_query_class.
Definition generate_mutation := generate_in r_muts with_muts style_mutation_class.
Definition generate_subscription := generate_in r_subs with_subs style_subscription_class.

(** registry.py:288-289 get_inputtype_class *)
Definition get_inputtype_class (n : string) : M string :=
  let* m := gets r_inputs in from_opt (dget n m) KeyErrorC n.

(** registry.py:291-302 reference_inputtype *)
Definition reference_inputtype (typename parent : string) (allow_forward : bool) : M expr :=
  let classname := style_inputtype_class typename in
  let* m := gets r_inputs in
  match dget typename m with
  | Some cls =>
      if String.eqb parent classname then
        if allow_forward then add_forward parent ;; ret (estr classname)
        else raise NoInputTypeFoundC typename
      else ret (EName cls)
  | None =>
      if allow_forward then add_forward parent ;; ret (estr classname)
      else raise NoInputTypeFoundC typename
  end.

(** registry.py:51-211: the keys of built_in_map *)
Definition built_in_keys : list string :=
  ["__TypeKind"; "__DirectiveLocation"; "UNSET"; "GraphQLDefault"; "Deprecated"].

(** registry.py:327-344 reference_enum *)
Definition reference_enum (typename parent : string) (allow_forward : bool) : M expr :=
  if mem typename built_in_keys then
    register_builtin typename ;; add_forward parent ;; ret (estr typename)
  else
    let classname := style_enum_class typename in
    let* m := gets r_enums in
    if negb (dmem typename m) || String.eqb parent classname then
      if allow_forward then add_forward parent ;; ret (estr classname)
      else raise NoEnumFoundC typename
    else ret (EName classname).

(** registry.py:373-390 _reference_generic *)
Definition reference_generic (style : string -> string) (get : reg -> dict string)
           (typename parent : string) (allow_forward : bool) : M expr :=
  let classname := style typename in
  let* m := gets get in
  if negb (dmem typename m) || String.eqb parent classname then
    if allow_forward then add_forward parent ;; ret (estr classname)
    else raise RegistryErrorC typename
  else ret (EName classname).
Definition reference_object := reference_generic style_objecttype_class r_objects.
Definition reference_fragment := reference_generic style_fragment_class r_frags.
Definition reference_query := reference_generic style_query_class r_queries.
Definition reference_mutation := reference_generic style_mutation_class r_muts.
Definition reference_subscription := reference_generic style_subscription_class r_subs.

(** registry.py:399-409 generate_interface *)
Definition generate_interface (typename : string) (with_base : bool) : M string :=
  let* m := gets r_iface_base in
  massert (negb (dmem typename m)) "Type was already registered, cannot register annew" ;;
  let classname := style_interface_class typename in
  let base := if with_base then classname +s+ "Base" else classname in
  modify (fun r => with_iface (dset typename classname (r_iface_ref r))
                              (dset typename base (r_iface_base r)) r) ;;
  ret base.

(** registry.py:411-416 inherit_interface *)
Definition inherit_interface (typename : string) : M string :=
  let* m := gets r_iface_base in from_opt (dget typename m) RegistryErrorC typename.

(** registry.py:418-424 reference_interface *)
Definition reference_interface (typename parent : string) : M expr :=
  add_forward parent ;; ret (estr (style_interface_class typename)).

(** registry.py:442-462 *)
Definition register_fragment_type (f t : string) : M unit :=
  modify (fun r => with_fragtypes (dset f t (r_fragtypes r)) r).
Definition register_interface_fragment_implementations (f : string) (m : dict string) : M unit :=
  modify (fun r => with_iffrag (dset f m (r_iffrag r)) r).
Definition get_interface_fragment_implementations (f : string) : M (dict string) :=
  let* m := gets r_iffrag in from_opt (dget f m) KeyErrorC f.
Definition register_union_fragment_members (f : string) (m : dict string) : M unit :=
  modify (fun r => with_ufrag (dset f m (r_ufrag r)) r).
Definition get_union_fragment_members (f : string) : M (dict string) :=
  let* m := gets r_ufrag in from_opt (dget f m) KeyErrorC f.
Definition get_fragment_type (f : string) : M string :=
  let* m := gets r_fragtypes in from_opt (dget f m) KeyErrorC f.

(** registry.py:476-511 get_interface_fragment_implementation_or_none *)
Definition get_interface_fragment_implementation_or_none (f typename : string) : M (option string) :=
  let* m := gets r_iffrag in
  match dget f m with
  | None => ret None
  | Some impls =>
      match dget typename impls with
      | Some c => ret (Some c)
      | None =>
          let* ft := gets r_fragtypes in
          match dget f ft with
          | Some t => if String.eqb t typename then ret None else raise RegistryErrorC f
          | None => raise RegistryErrorC f
          end
      end
  end.

(** registry.py:513-514 is_interface_fragment *)
Definition is_interface_fragment (f : string) : M bool := gets (fun r => mem f (r_ifrags r)).

(** registry.py:524-529 inherit_fragment *)
Definition inherit_fragment (f : string) : M string :=
  let* m := gets r_frags in from_opt (dget f m) RegistryErrorC f.

(** registry.py:704-711 *)
Definition register_fragment_document (f doc : string) : M unit :=
  let* m := gets r_fragdocs in
  massert (negb (dmem f m)) "already registered" ;;
  modify (fun r => with_fragdocs (dset f doc (r_fragdocs r)) r).

(** registry.py:713-751 reference_unset, reference_unset_type, reference_graphql_default,
    reference_deprecated *)
Definition reference_override (override : option string) (builtin name : string) : M expr :=
  match override with
  | Some o => if truthy (Some o)
              then register_import o ;; ret (EName (last_comp o))
              else register_builtin builtin ;; ret (EName name)
  | None => register_builtin builtin ;; ret (EName name)
  end.
Definition reference_unset := reference_override (c_unset_instance cfg) "UNSET" "UNSET".
Definition reference_unset_type := reference_override (c_unset_type_class cfg) "UNSET" "UnsetType".
Definition reference_graphql_default :=
  reference_override (c_graphql_default_class cfg) "GraphQLDefault" "GraphQLDefault".
Definition reference_deprecated :=
  reference_override (c_deprecated_class cfg) "Deprecated" "Deprecated".

(** registry.py:753-754 register_scalar *)
Definition register_scalar (n t : string) : M unit :=
  modify (fun r => with_scalars (dset n t (r_scalars r)) r).

(** registry.py:756-769 reference_scalar *)
Definition reference_scalar (n : string) : M expr :=
  let* m := gets r_scalars in
  match dget n m with
  | Some t => (if has_dot t then register_import t else ret tt) ;; ret (EName (last_comp t))
  | None => raise NoScalarFoundC n
  end.

(** ** Rendering of the collected state *)
Definition module_groups (names : list string) : dict (list string) :=
  fold_left (fun acc n =>
               let m := module_part n in
               match dget m acc with
               | Some l => dset m (sadd (last_comp n) l) acc
               | None => dset m [last_comp n] acc
               end) names [].

(** registry.py:636-662 generate_imports.  [iter_imports] is the iteration order of the set
    [self._imports]; [iter_lone] and [iter_names] those of the local sets built from it. *)
Definition generate_imports_iter (iter_imports : list string)
           (iter_set : list string -> list string) : list stmt :=
  let lone := dedup (filter (fun n => negb (has_dot n)) iter_imports) in
  let top := module_groups (filter has_dot iter_imports) in
  map (fun n => SImport [n]) (iter_set lone) ++
  map (fun g => SImportFrom (fst g) (iter_set (snd g))) top.
Definition generate_imports (iter_set : list string -> list string) (r : reg) : list stmt :=
  generate_imports_iter (iter_set (r_imports r)) iter_set.

(** registry.py:677-702 generate_forward_refs *)
Definition forward_call (n : string) : stmt :=
  SExpr (ECall (EAttr (EName n)
                      (if String.eqb (c_pydantic_version cfg) "v2"
                       then "model_rebuild" else "update_forward_refs")) [] []).
Definition generate_forward_refs (r : reg) : list stmt := map forward_call (str_sort (r_fwd r)).
End WithEnv.

(** registry.py:51-211 built_in_map: the emitted definitions *)
Definition enum_class (name : string) (values : list string) : stmt :=
  SClass name [EName "str"; EName "Enum"] (map (fun v => SAssign (EName v) (estr v)) values) [].
Definition marker_class (name field : string) (default : list expr) (doc : string) : stmt :=
  SClass name []
    [docstring doc;
     SFunc false "__init__" (PyArgs [PyArg "self" None; PyArg field None] default)
           [SAssign (EAttr (EName "self") field) (EName field)] None [];
     SFunc false "__repr__" (PyArgs [PyArg "self" None] [])
           [SText ("return '" +s+ name +s+ "(' + repr(self." +s+ field +s+ ") + ')'")] None []] [].
Definition built_in (key : string) : option (list stmt) :=
  if String.eqb key "__TypeKind" then
    Some [enum_class "__TypeKind" ["OBJECT"; "INTERFACE"; "UNION"; "ENUM"; "INPUT_OBJECT"]]
  else if String.eqb key "__DirectiveLocation" then
    Some [enum_class "__DirectiveLocation"
           ["SCALAR"; "OBJECT"; "FIELD_DEFINITION"; "ARGUMENT_DEFINITION"; "INTERFACE"; "UNION";
            "ENUM"; "ENUM_VALUE"; "INPUT_OBJECT"; "INPUT_FIELD_DEFINITION"; "SCHEMA"]]
  else if String.eqb key "UNSET" then
    Some [SClass "UnsetType" []
           [docstring "Sentinel for arguments the caller did not provide. Such fields are omitted on serialization so the GraphQL server applies its own default.";
            SAssign (EName "_instance") enone;
            SFunc false "__new__" (PyArgs [PyArg "cls" None] [])
              [SIf (ECompare (EAttr (EName "cls") "_instance") OpIs enone)
                 [SAssign (EAttr (EName "cls") "_instance")
                          (ECall (EAttr (ECall (EName "super") [] []) "__new__") [EName "cls"] [])];
               SReturn (Some (EAttr (EName "cls") "_instance"))] None [];
            SFunc false "__repr__" (PyArgs [PyArg "self" None] []) [SReturn (Some (estr "UNSET"))] None [];
            SFunc false "__bool__" (PyArgs [PyArg "self" None] [])
              [SReturn (Some (EConst (CBool false)))] None []] [];
          SAssign (EName "UNSET") (ECall (EName "UnsetType") [] [])]
  else if String.eqb key "GraphQLDefault" then
    Some [marker_class "GraphQLDefault" "value" []
           "Records a GraphQL field schema default value. The client omits the field so the server applies its own default; this preserves the value for introspection."]
  else if String.eqb key "Deprecated" then
    Some [marker_class "Deprecated" "reason" [enone]
           "Marks a field as deprecated, carrying the GraphQL deprecation reason."]
  else None.

(** registry.py:664-675 generate_builtins; [iter_set] is the iteration order of the set *)
Definition generate_builtins (iter_set : list string -> list string) (r : reg) : res (list stmt) :=
  let? ll := rmap (fun k => match built_in k with
                            | Some l => Ok l
                            | None => rraise KeyErrorC k
                            end) (iter_set (r_builtins r)) in
  Ok (concat ll).

(** every naming function of the registry with the styler hook it folds over
    (registry.py:273-344, 346-352, 392-397, 426-431, 531-562, 576-582, 603-609) *)
Definition naming_functions : list ((styler -> string -> string) * (list styler -> string -> string)) :=
  [(sty_input, style_inputtype_class); (sty_enum, style_enum_class);
   (sty_object, style_objecttype_class); (sty_object, style_interface_class);
   (sty_fragment, style_fragment_class); (sty_query, style_query_class);
   (sty_mutation, style_mutation_class); (sty_subscription, style_subscription_class);
   (sty_node, generate_node_name); (sty_parameter, generate_parameter_name)].
