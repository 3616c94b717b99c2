(** turms/plugins/fragments.py.  No proofs in this file.
    [print_fragment] is graphql-core's [print_ast]; [add_typename_str] see Inline.v. *)
From Verif Require Import Base PyAst Gql Config Stylers Registry Utils Documents Recurse Inline.

(** fragments.py:128-136 FragmentsPluginConfig *)
Record frcfg : Set := FrCfg {
  fr_bases : list string; fr_object_bases : list string; fr_glob : option string;
  fr_add_documentation : bool; fr_meta : bool }.

Section Fragments.
Variable c : gconfig.
Variable stylers : list styler.
Variable s : schema.
Variable pc : frcfg.
Variable print_fragment : fragment -> string.
Variable add_typename_str : string -> res string.
Notation tfn := (type_field_node c stylers s).

(** fragments.py:139-170 get_fragment_bases *)
Definition get_fragment_bases (is_object : bool) : M (list expr) :=
  let* a := import_bases (fr_bases pc) in
  let* b := if is_object then import_bases (fr_object_bases pc) else ret [] in
  let* o := import_bases (c_object_bases c) in
  ret (a ++ b ++ o).

Definition documented (d : option string) : stmt :=
  docstring (if truthy d && fr_add_documentation pc then opt_str d else "No documentation").

(** fragments.py:195-378 a fragment on an interface *)
Definition interface_fragment (f : fragment) (d : option string) (fields : list (string * fielddef)) : M (list stmt) :=
  let base := style_fragment_class stylers (fr_name f) in
  let mother := base +s+ "Base" in
  let* add := get_additional_bases_for_type c (fr_on f) in
  let* p := walk (iface_item s tfn false fields base) (Some (fr_sels f)) (IParts [] [documented d] [] []) in
  let* ib := get_interface_bases c in
  let* t := generate_generic_typename_field c in
  let impls := implementations s (fr_on f) in
  let* impl_classes := mmap (fun i => implementing_class c s mother (base +s+ i) p i) impls in
  register_interface_fragment_implementations (fr_name f)
    (fold_left (fun m i => dset i (base +s+ i) m) impls []) ;;
  ret (ip_classes p
       ++ [SClass mother (add ++ ib) (ip_fields p) [];
           SClass (base +s+ "Catch") [EName mother]
             ([docstring ("Catch all class for " +s+ mother); t] ++ ip_fields p) []]
       ++ impl_classes).

(** fragments.py:381-443: the base classes (new ones in front) and fields of a fragment on an object *)
Definition object_fragment_item (type_name cls_name : string) (acc : list stmt * list expr * list stmt) (sel : selection)
  : M (list stmt * list expr * list stmt) :=
  let '(classes, bases, fields) := acc in
  match sel with
  | SelSpread g _ =>
      let* m := gets r_iffrag in
      let* b := match dget g m with
                | Some impls => from_opt (dget type_name impls) ExceptionC "Could not find implementation"
                | None => inherit_fragment g
                end in
      ret (classes, EName b :: bases, fields)
  | SelField g =>
      if String.eqb (fn_name g) "__typename" then ret acc
      else
        let* fd := from_opt (get_field_def s type_name (fn_name g)) AssertionErrorC "Couldn't find field definition" in
        let* r := tfn g cls_name fd in
        ret (classes ++ fst r, bases, fields ++ snd r)
  | SelInline _ _ _ => ret acc
  end.
(** fragments.py:445-474 *)
Definition fragment_meta (f : fragment) : M (list stmt) :=
  if fr_meta pc then
    let* doc := replace_iteratively add_typename_str (print_fragment f) in
    ret [SClass "Meta" []
           [docstring ("Meta class for " +s+ fr_name f);
            SAssign (EName "document") (estr doc); SAssign (EName "name") (estr (fr_name f));
            SAssign (EName "type") (estr (fr_on f))] []]
  else ret [].
(** fragments.py:380-493 a fragment on an object *)
Definition object_fragment (f : fragment) (cls_name : string) (d : option string) : M (list stmt) :=
  let* add := get_additional_bases_for_type c (fr_on f) in
  let* t := generate_typename_field c (fr_on f) in
  let* r := mfold (object_fragment_item (fr_on f) cls_name) (fr_sels f) ([], add, [documented d; t]) in
  let '(classes, bases, fields) := r in
  let* meta := fragment_meta f in
  let* fb := get_fragment_bases true in
  let* cfg := generate_pydantic_config (KT KFragment) c None in
  ret (classes ++ [SClass cls_name (bases ++ fb) (fields ++ cfg ++ meta) []]).

(** fragments.py:525-566: an inline fragment inside a fragment on a union *)
Definition union_inline (cls_name on : string) (acc : list stmt * list string * list stmt) (sel : selection)
  : M (list stmt * list string * list stmt) :=
  let '(classes, bases, fields) := acc in
  match sel with
  | SelSpread g _ => ret (classes, bases ++ [g], fields)
  | SelField g =>
      if String.eqb (fn_name g) "__typename" then ret acc
      else
        from_opt (get_type s on) ExceptionC ("Could not find type " +s+ on) ;;
        let* fd := from_opt (get_field_def s on (fn_name g)) AssertionErrorC "Couldn't find field definition" in
        let* r := tfn g cls_name fd in
        ret (classes ++ fst r, bases, fields ++ snd r)
  | SelInline _ _ _ => ret acc
  end.
(** fragments.py:506-568.  The bases of an inline fragment are added to the dict one by one in
    the code; an inline fragment without spreads adds no key, which [.get(name, [])] cannot see. *)
Definition union_fragment_item (cls_name : string) (p : iparts) (sel : selection) : M iparts :=
  match sel with
  | SelSpread g _ =>
      let* m := get_union_fragment_members g in
      ret (IParts (ip_classes p) [] (fold_left (fun b kv => dextend (fst kv) [snd kv] b) m (ip_bases p)) (ip_inline p))
  | SelField _ => raise AssertionErrorC "Union types should not have fields"
  | SelInline cond _ sub =>
      let* on := from_opt cond AttributeErrorC "name" in
      let* r := mfold (union_inline cls_name on) sub ([], [], []) in
      let '(classes, bases, fields) := r in
      ret (IParts (ip_classes p ++ classes) [] (dextend on bases (ip_bases p)) (dextend on fields (ip_inline p)))
  end.
(** fragments.py:495-611 a fragment on a union *)
Definition union_fragment (f : fragment) (d : option string) (members : list string) : M (list stmt) :=
  let base := style_fragment_class stylers (fr_name f) in
  get_additional_bases_for_type c (fr_on f) ;;
  let* p := walk (union_fragment_item base) (Some (fr_sels f)) (IParts [] [] [] []) in
  let* classes := mmap (fun i =>
      let* fb := get_fragment_bases false in
      let* t := generate_typename_field c i in
      ret (SClass (base +s+ i) (map EName (dget_list i (ip_bases p)) ++ fb) (t :: dget_list i (ip_inline p)) [])) members in
  register_union_fragment_members (fr_name f) (fold_left (fun m i => dset i (base +s+ i) m) members []) ;;
  register_import "typing.Union" ;;
  ret (ip_classes p ++ classes
       ++ [SAssign (EName base) (union_of (map (fun i => EName (base +s+ i)) members))]
       ++ (if truthy d && fr_add_documentation pc then [docstring (opt_str d)] else [])).

(** fragments.py:173-611 generate_fragment.  On a type that is no composite type the code
    returns [None], which the caller cannot append. *)
Definition generate_fragment (f : fragment) : M (list stmt) :=
  let* t := from_opt (get_type s (fr_on f)) ExceptionC ("Could not find type " +s+ fr_on f) in
  let* name := generate_fragment_class stylers (fr_name f) in
  register_fragment_document (fr_name f) (print_fragment f) ;;
  register_fragment_type (fr_name f) (fr_on f) ;;
  match t with
  | TInterface d _ fs => interface_fragment f d fs
  | TObject d _ _ _ => object_fragment f name d
  | TUnion d ms => union_fragment f d ms
  | _ => raise TypeErrorC "'NoneType' object is not iterable"
  end.
(** fragments.py:651-680 FragmentsPlugin.generate_ast, after the documents were parsed *)
Definition fragments_plugin (d : document) : M (list stmt) :=
  let* fs := lift (ordered_fragments d) in
  mconcat generate_fragment fs.
End Fragments.
