(** turms/plugins/objects.py.  No proofs in this file. *)
From Verif Require Import Base PyAst Gql Config Stylers Registry Utils Recurse.

(** objects.py:34-39 ObjectsPluginConfig *)
Record obcfg : Set := ObCfg { ob_bases : list string; ob_skip_underscore : bool; ob_skip_double_underscore : bool }.
Definition default_objects_config : obcfg := ObCfg ["pydantic.BaseModel"] false true.

(** objects.py:155-159 *)
Definition tuple_for_objects (c : gconfig) : bool :=
  fz_enabled (c_freeze c) && existsb (gqltypes_eqb KObject) (fz_types (c_freeze c))
  && fz_convert_list_to_tuple (c_freeze c).
Definition is_interface_def (t : typedef) : bool := match t with TInterface _ _ _ => true | _ => false end.
Definition is_object_def (t : typedef) : bool := match t with TObject _ _ _ _ => true | _ => false end.
Definition type_interfaces (t : typedef) : list string :=
  match t with TObject _ i _ _ | TInterface _ i _ => i | _ => [] end.
Definition type_fields (t : typedef) : list (string * fielddef) :=
  match t with TObject _ _ f _ | TInterface _ _ f => f | _ => [] end.

Section Objects.
Variable c : gconfig.
Variable stylers : list styler.
Variable s : schema.
Variable pc : obcfg.

(** objects.py:50-142: the reference to a named type that is no union *)
Definition leaf_reference (n parent : string) : M expr :=
  match get_type s n with
  | Some (TScalar _) => reference_scalar n
  | Some (TInterface _ _ _) => reference_interface stylers n parent
  | Some (TObject _ _ _ _) => reference_object stylers n parent true
  | Some (TEnum _ _) => reference_enum stylers n parent (negb (c_force_plugin_order c))
  | _ => raise NotImplementedErrorC "Unknown input type"
  end.
(** objects.py:42-207 generate_object_field_annotation.  The members of a union are object
    types, so they are not unions themselves. *)
Definition named_object_annotation (n parent : string) (optional : bool) : M expr :=
  (if optional then register_import "typing.Optional" else ret tt) ;;
  let* e := match get_type s n with
            | Some (TUnion _ members) =>
                register_import "typing.Union" ;;
                let* es := mmap (fun m => leaf_reference m parent) members in ret (union_of es)
            | _ => leaf_reference n parent
            end in
  ret (if optional then optional_of e else e).
Fixpoint generate_object_field_annotation (t : gty) (parent : string) (optional : bool) : M expr :=
  match t with
  | GNamed n => named_object_annotation n parent optional
  | GNonNull t' => generate_object_field_annotation t' parent false
  | GList t' =>
      register_import (if tuple_for_objects c then "typing.Tuple" else "typing.List") ;;
      register_import (if optional then "typing.Optional" else "typing.List") ;;
      let* e := generate_object_field_annotation t' parent true in
      let l := if tuple_for_objects c then tuple_of e else list_of e in
      ret (if optional then optional_of l else l)
  end.

(** utils.py:637-645 interface_is_extended_by_other_interfaces, for the interfaces [all] of one
    type without [i] (objects.py:268) *)
Definition extended_by_other (i : string) (all : list string) : bool :=
  existsb (fun o => negb (String.eqb o i)
                    && match get_type s o with Some t => mem i (type_interfaces t) | None => false end) all.
(** objects.py:264-277 *)
Definition interface_bases (all : list string) : M (list expr) :=
  mconcat (fun i => if extended_by_other i all then ret []
                    else let* b := inherit_interface i in ret [EName b]) all.
(** objects.py:285-359: one field; the statements are built as at recurse.py:712-784 *)
Definition object_field (classname : string) (kv : string * fielddef) : M (list stmt) :=
  let* a := generate_object_field_annotation (fd_type (snd kv)) classname true in
  field_statements c stylers (fst kv) (snd kv) a.

(** the loop variables of objects.py:217-241: interface_map, interface_base_map, tree *)
Record obstate := ObState { os_implementing : dict (list string); os_base : dict string; os_tree : list stmt }.
(** objects.py:246-374: one type *)
Definition object_step (st : obstate) (kt : string * typedef) : M obstate :=
  let '(key, t) := kt in
  let* add := get_additional_bases_for_type c key in
  if (ob_skip_underscore pc && startswith "_" key) || (ob_skip_double_underscore pc && startswith "__" key) then ret st
  else
    let* classname := if is_interface_def t then generate_interface stylers key true else generate_objecttype stylers key in
    let* ib := interface_bases (type_interfaces t) in
    let* fields := mconcat (object_field classname) (type_fields t) in
    let* cfg := generate_pydantic_config (KT KObject) c (Some key) in
    let doc := if truthy (type_desc t) then [docstring (opt_str (type_desc t))] else [] in
    ret (ObState (fold_left (fun m i => dextend i [classname] m) (type_interfaces t) (os_implementing st))
                 (if is_interface_def t then dset key classname (os_base st) else os_base st)
                 (os_tree st ++ [SClass classname (add ++ ib ++ names_of (ob_bases pc)) (doc ++ fields ++ cfg) []])).
(** objects.py:219-234: interfaces first *)
Definition sorted_objects : list (string * typedef) :=
  filter (fun kv => is_interface_def (snd kv)) (s_types s) ++ filter (fun kv => is_object_def (snd kv)) (s_types s).
(** objects.py:210-415 generate_types *)
Definition generate_types : M (list stmt) :=
  miter register_import (ob_bases pc) ;;
  let* st := mfold object_step sorted_objects (ObState [] [] []) in
  let* unions := mmap (fun kv => register_import "typing.Union" ;;
                                 ret (SAssign (EName (fst kv)) (union_of (map EName (snd kv))))) (os_implementing st) in
  let lonely := filter (fun kv => negb (dmem (fst kv) (os_implementing st))) (os_base st) in
  (match lonely with
   | [] => ret tt
   | _ => if c_always_resolve_interfaces c then raise GenerationErrorC "Interfaces have no types implementing it" else ret tt
   end) ;;
  ret (os_tree st ++ unions ++ map (fun kv => SAssign (EName (fst kv)) (EName (snd kv))) lonely).
End Objects.
