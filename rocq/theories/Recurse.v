(** turms/recurse.py: classes for selections.  No proofs in this file.

    The Python functions append classes to [subtree] while they run; here they return the
    appended classes, in order, next to their result. *)
From Verif Require Import Base PyAst Gql Config Stylers Registry Utils.

Definition dget_list {A} (k : string) (d : dict (list A)) : list A :=
  match dget k d with Some l => l | None => [] end.

Section Recurse.
Variable c : gconfig.
Variable stylers : list styler.
Variable s : schema.
(** type_field_node on the sub-selections *)
Definition typer := fieldnode -> string -> fielddef -> M (list stmt * list stmt).

(** The code walks over [non_typename(node)] (utils.py:99-109); here the walk skips those
    selections, so that Rocq sees the recursion end. *)
Definition walk {A} (item : A -> selection -> M A) (sels : option (list selection)) (a : A) : M A :=
  match sels with
  | None => ret a
  | Some l => mfold (fun a sel => if is_typename_field sel then ret a else item a sel) l a
  end.

Definition names_of (bases : list string) : list expr := map (fun b => EName (last_comp b)) bases.
(** [ast.Expr(description or "No documentation")] *)
Definition doc_stmt (d : option string) : stmt := docstring (if truthy d then opt_str d else "No documentation").
(** [Optional[e]] where [typing.Optional] is imported first *)
Definition optional_if (b : bool) (e : M expr) : M expr :=
  (if b then register_import "typing.Optional" else ret tt) ;;
  let* x := e in ret (if b then optional_of x else x).

(** ** recurse.py:81-213: unions *)
(** recurse.py:103-145: one inline fragment: nested classes, base classes, fields *)
Definition inline_item (tfn : typer) (cls_name on : string) (acc : list stmt * list string * list stmt) (sel : selection)
  : M (list stmt * list string * list stmt) :=
  let '(classes, bases, fields) := acc in
  match sel with
  | SelSpread f _ =>
      let* i := is_interface_fragment f in
      if i then raise ExceptionC "Interface Fragments with additional subfields are not yet implemented"
      else let* b := inherit_fragment f in ret (classes, bases ++ [b], fields)
  | SelField g =>
      if String.eqb (fn_name g) "__typename" then ret acc
      else match get_type s on with
           | Some (TObject _ _ fs _) =>
               let* fd := from_opt (dget (fn_name g) fs) KeyErrorC (fn_name g) in
               let* r := tfn g cls_name fd in
               ret (classes ++ fst r, bases, fields ++ snd r)
           | _ => raise NotImplementedErrorC "Inline fragments on non-object types are not supported."
           end
  | SelInline _ _ _ => ret acc
  end.
(** recurse.py:88-186 one member of the union: nested classes and the member's class name *)
Definition union_item (tfn : typer) (parent : string) (acc : list stmt * list string) (sel : selection)
  : M (list stmt * list string) :=
  let '(classes, names) := acc in
  match sel with
  | SelSpread f _ => let* n := inherit_fragment f in ret (classes, names ++ [n])
  | SelInline cond _ sub =>
      let* on := from_opt cond AttributeErrorC "name" in
      let cls_name := parent +s+ on +s+ "InlineFragment" in
      let* r := mfold (inline_item tfn cls_name on) sub ([], [], []) in
      let '(nested, bases, fields) := r in
      let* body := match bases with
                   | [] => let* t := generate_typename_field c on in ret (t :: fields)
                   | _ => ret fields
                   end in
      let* add := match bases with
                  | [] => get_additional_bases_for_type c on
                  | _ => ret (map EName bases)
                  end in
      let* cfg := generate_pydantic_config (KT KFragment) c None in
      let body := match body ++ cfg with [] => [SPass] | b => b end in
      ret (classes ++ nested ++ [SClass cls_name (add ++ names_of (c_object_bases c)) body []], names ++ [cls_name])
  | SelField _ => ret acc
  end.
Definition union_annotation (tfn : typer) (parent : string) (sels : option (list selection)) (optional : bool)
  : M (list stmt * expr) :=
  let* r := walk (union_item tfn parent) sels ([], []) in
  let '(classes, names) := r in
  match names with
  | [] => raise IndexErrorC "list index out of range"
  | [n] => ret (classes, EName n)
  | _ =>
      register_import "typing.Union" ;;
      let* e := optional_if optional (ret (union_of (map EName names))) in
      ret (classes, e)
  end.

(** ** recurse.py:215-455: interfaces *)
(** The selections of an interface: nested classes, fields for all types, base classes and
    fields for single types.  fragments.py:203-296 does the same for a fragment on an
    interface; [strict] tells them apart. *)
Record iparts := IParts {
  ip_classes : list stmt; ip_fields : list stmt;
  ip_bases : dict (list string); ip_inline : dict (list stmt) }.
(** recurse.py:239-257, fragments.py:212-231 *)
Definition spread_bases (f : string) (bases : dict (list string)) : M (dict (list string)) :=
  let* m := gets r_iffrag in
  match dget f m with
  | Some impls => ret (fold_left (fun b kv => dextend (fst kv) [snd kv] b) impls bases)
  | None =>
      let* x := get_fragment_type f in
      let* n := inherit_fragment f in
      ret (dextend x [n] bases)
  end.
(** recurse.py:279-303, fragments.py:249-277: the fields of an inline fragment.  The code
    collects a list of lists, which [ast.unparse] renders like the flat list. *)
Definition inline_fields (tfn : typer) (strict : bool) (parent on : string) (sub : list selection)
  : M (list stmt * list stmt) :=
  mfold (fun acc sel =>
    match sel with
    | SelField g =>
        if String.eqb (fn_name g) "__typename" then ret acc
        else
          let* fd := from_opt (get_field_def s on (fn_name g)) (if strict then ValueErrorC else ExceptionC) (fn_name g) in
          let* r := tfn g parent fd in
          ret (fst acc ++ fst r, snd acc ++ snd r)
    | _ => ret acc
    end) sub ([], []).
Definition iface_item (tfn : typer) (strict : bool) (fields : list (string * fielddef)) (parent : string) (p : iparts) (sel : selection)
  : M iparts :=
  match sel with
  | SelSpread f _ =>
      let* b := spread_bases f (ip_bases p) in
      ret (IParts (ip_classes p) (ip_fields p) b (ip_inline p))
  | SelField g =>
      let* fd := from_opt (dget (fn_name g) fields) KeyErrorC (fn_name g) in
      let* r := tfn g parent fd in
      ret (IParts (ip_classes p ++ fst r) (ip_fields p ++ snd r) (ip_bases p) (ip_inline p))
  | SelInline cond _ sub =>
      let* on := from_opt cond AttributeErrorC "name" in
      (match get_type s on with
       | Some (TObject _ _ _ _) => ret tt
       | _ => if strict then raise ValueErrorC on else ret tt
       end) ;;
      let* r := inline_fields tfn strict parent on sub in
      ret (IParts (ip_classes p ++ fst r) (ip_fields p) (ip_bases p) (dextend on (snd r) (ip_inline p)))
  end.
(** recurse.py:326-377, fragments.py:343-391: the class for one implementing type *)
Definition implementing_class (mother cls_name : string) (p : iparts) (i : string) : M stmt :=
  let desc := match get_type s i with Some t => type_desc t | None => None end in
  let* add := get_additional_bases_for_type c i in
  let* ib := get_interface_bases c in
  let* t := generate_typename_field c i in
  ret (SClass cls_name (map EName (dget_list i (ip_bases p)) ++ [EName mother] ++ add ++ ib)
         ([doc_stmt desc; t] ++ dget_list i (ip_inline p)) []).
Definition interface_annotation (tfn : typer) (parent target n : string) (desc : option string)
    (fields : list (string * fielddef)) (sels : option (list selection)) (optional : bool) : M (list stmt * expr) :=
  let base := parent +s+ py_capitalize target in
  let* p := walk (iface_item tfn true fields base) sels (IParts [] [doc_stmt desc] [] []) in
  let mother := base +s+ "Base" in
  let* add := get_additional_bases_for_type c n in
  let* ib := get_interface_bases c in
  let* cfg := generate_pydantic_config (KT KFragment) c None in
  let mother_class := SClass mother (add ++ ib) (ip_fields p ++ cfg) [] in
  let impls := implementations s n in
  let* impl_classes := mmap (fun i => implementing_class mother (mother +s+ i) p i) impls in
  register_import "typing.Annotated" ;; register_import "typing.Union" ;;
  let members := union_of (map (fun i => EName (mother +s+ i)) impls) in
  let annotated := annotated_of [members; field_call [("discriminator", estr "typename")]] in
  let* rest :=
    if c_create_catchall c then
      let catch := mother +s+ "CatchAll" in
      let* ib := get_interface_bases c in
      let* t := generate_generic_typename_field c in
      register_import "typing.Union" ;;
      ret ([SClass catch (EName mother :: ib) [docstring ("Catch all class for " +s+ mother); t] []],
           union_of [annotated; EName catch])
    else ret ([], annotated) in
  let* e := optional_if optional (ret (snd rest)) in
  (if optional then ret tt else register_import "typing.Union") ;;
  ret (ip_classes p ++ [mother_class] ++ impl_classes ++ fst rest, e).

(** ** recurse.py:457-585: objects *)
Definition object_item (tfn : typer) (n cls_name : string) (fields : list (string * fielddef))
    (acc : list stmt * list string * list stmt) (sel : selection) : M (list stmt * list string * list stmt) :=
  let '(classes, bases, body) := acc in
  match sel with
  | SelSpread f _ =>
      let* i := get_interface_fragment_implementation_or_none f n in
      let* b := match i with Some b => ret b | None => inherit_fragment f end in
      ret (classes, bases ++ [b], body)
  | SelField g =>
      if String.eqb (fn_name g) "__typename" then ret acc
      else
        let* fd := from_opt (dget (fn_name g) fields) KeyErrorC (fn_name g) in
        let* r := tfn g cls_name fd in
        ret (classes ++ fst r, bases, body ++ snd r)
  | SelInline _ _ _ => raise NotImplementedErrorC "Inline Fragments are not yet implemented"
  end.
Definition object_annotation (tfn : typer) (parent target n : string) (desc : option string)
    (fields : list (string * fielddef)) (sels : option (list selection)) (optional : bool) : M (list stmt * expr) :=
  let cls_name := parent +s+ py_capitalize target in
  let* t := generate_typename_field c n in
  match option_map non_typename sels with
  | Some [SelSpread f _] =>
      let* i := get_interface_fragment_implementation_or_none f n in
      let* e := match i with Some b => ret (EName b) | None => reference_fragment stylers f parent true end in
      let* e := optional_if optional (ret e) in
      ret ([], e)
  | _ =>
      let* r := walk (object_item tfn n cls_name fields) sels ([], [], [doc_stmt desc; t]) in
      let '(classes, bases, body) := r in
      let* add := match bases with
                  | [] => get_additional_bases_for_type c n
                  | _ => ret (map EName bases)
                  end in
      let* cfg := generate_pydantic_config (KT KObject) c None in
      let* e := optional_if optional (ret (EName cls_name)) in
      ret (classes ++ [SClass cls_name (add ++ names_of (c_object_bases c)) (body ++ cfg) []], e)
  end.

(** recurse.py:42-670 recurse_annotation on a named type.  The code returns [None] on a type
    that is no output type; a schema has none of those in field position. *)
Definition named_annotation (tfn : typer) (parent : string) (target : string) (sels : option (list selection)) (n : string) (optional : bool)
  : M (list stmt * expr) :=
  match get_type s n with
  | Some (TUnion _ _) => union_annotation tfn parent sels optional
  | Some (TInterface d _ fs) => interface_annotation tfn parent target n d fs sels optional
  | Some (TObject d _ fs _) => object_annotation tfn parent target n d fs sels optional
  | Some (TScalar _) => let* e := optional_if optional (reference_scalar n) in ret ([], e)
  | Some (TEnum _ _) => let* e := optional_if optional (reference_enum stylers n parent true) in ret ([], e)
  | _ => raise TypeErrorC n
  end.
(** recurse.py:609-670 wrappers *)
Fixpoint wrap_annotation (named : string -> bool -> M (list stmt * expr)) (t : gty) (optional : bool) : M (list stmt * expr) :=
  match t with
  | GNamed n => named n optional
  | GNonNull t' => wrap_annotation named t' false
  | GList t' =>
      let frozen := fz_enabled (c_freeze c) in
      register_import (if frozen then "typing.Tuple" else "typing.List") ;;
      (if optional then register_import "typing.Optional" else ret tt) ;;
      let* r := wrap_annotation named t' true in
      let e := if frozen then tuple_of (snd r) else list_of (snd r) in
      ret (fst r, if optional then optional_of e else e)
  end.

(** recurse.py:712-784: the statements for one field *)
Definition field_statements (target : string) (fd : fielddef) (annotation : expr) : M (list stmt) :=
  let name := generate_node_name stylers target in
  let kws := if is_nonnull (fd_type fd) then [] else [("default", enone)] in
  let* a := annotate_field_metadata c annotation None (fd_depr fd) in
  let kws' := if String.eqb target name then kws else kws ++ [("alias", estr target)] in
  (match kws' with [] => ret tt | _ => register_import "pydantic.Field" end) ;;
  ret (SAnn name a (match kws' with [] => None | _ => Some (field_call kws') end)
       :: match compose_field_documentation (fd_desc fd) (fd_depr fd) None (c_document_field_metadata c) with
          | Some d => [docstring d]
          | None => []
          end).

(** recurse.py:683-784 type_field_node *)
Fixpoint type_field_node (node : fieldnode) (parent : string) (fd : fielddef) {struct node} : M (list stmt * list stmt) :=
  match node with
  | FieldNode alias name _ _ sels =>
      let target := match alias with Some a => a | None => name end in
      let* r := wrap_annotation (named_annotation (fun g p d => type_field_node g p d) parent target sels) (fd_type fd) true in
      let* body := field_statements target fd (snd r) in
      ret (fst r, body)
  end.
End Recurse.
