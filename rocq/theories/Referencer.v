(** turms/referencer.py: which types the documents refer to.  No proofs in this file. *)
From Verif Require Import Base Gql.

(** referencer.py:30-56 ReferenceRegistry (the sets objects and operations are never filled) *)
Record refs : Set := Refs {
  rf_fragments : list string; rf_enums : list string;
  rf_inputs : list string; rf_scalars : list string }.
Definition no_refs : refs := Refs [] [] [] [].
Definition register_fragment (n : string) (r : refs) :=
  Refs (sadd n (rf_fragments r)) (rf_enums r) (rf_inputs r) (rf_scalars r).
Definition register_enum (n : string) (r : refs) :=
  Refs (rf_fragments r) (sadd n (rf_enums r)) (rf_inputs r) (rf_scalars r).
Definition register_input (n : string) (r : refs) :=
  Refs (rf_fragments r) (rf_enums r) (sadd n (rf_inputs r)) (rf_scalars r).
Definition register_ref_scalar (n : string) (r : refs) :=
  Refs (rf_fragments r) (rf_enums r) (rf_inputs r) (sadd n (rf_scalars r)).

(** a Python [for] loop over [l] that updates [st] and may raise *)
Definition rfold {A S} (f : A -> S -> res S) : list A -> S -> res S :=
  fix go (l : list A) (st : S) : res S :=
    match l with [] => Ok st | x :: xs => let? st' := f x st in go xs st' end.

(** [t.fields[name]] on an object or interface *)
Definition field_of (t : typedef) (name : string) : res fielddef :=
  match type_fields t with
  | Some fs => match dget name fs with Some d => Ok d | None => rraise KeyErrorC name end
  | None => rraise ExceptionC "Expected GraphQLObjectType"
  end.

(** referencer.py:58-153 recurse_find_references.  The list and non-null wrappers only lead
    to the named type (lines 133-150).  Of the selections of an inline fragment only the
    fields are considered. *)
Fixpoint recurse_find_references (s : schema) (f : fieldnode) (t : gty) (st : refs) {struct f} : res refs :=
  match f with
  | FieldNode _ _ _ _ sels =>
      match get_type s (gty_name t) with
      | Some (TScalar _) => Ok (register_ref_scalar (gty_name t) st)
      | Some (TEnum _ _) => Ok (register_enum (gty_name t) st)
      | Some (TInput _ _ _) | None => rraise ExceptionC "Unknown Type"
      | Some td =>
          match sels with
          | None => rraise ExceptionC "No selection set found for node"
          | Some l => rfold (ref_selection s td) l st
          end
      end
  end
with ref_selection (s : schema) (td : typedef) (sel : selection) (st : refs) {struct sel} : res refs :=
  match sel with
  | SelSpread n _ => Ok (register_fragment n st)
  | SelField f =>
      if String.eqb (fn_name f) "__typename" then Ok st
      else let? d := field_of td (fn_name f) in recurse_find_references s f (fd_type d) st
  | SelInline cond _ l =>
      rfold (fun sub st =>
               match sub with
               | SelField f =>
                   match cond with
                   | None => rraise AttributeErrorC "name"
                   | Some c =>
                       if String.eqb (fn_name f) "__typename" then Ok st
                       else match get_type s c with
                            | Some td' => let? d := field_of td' (fn_name f) in
                                          recurse_find_references s f (fd_type d) st
                            | None => rraise ExceptionC "Expected GraphQLObjectType"
                            end
                   end
               | _ => Ok st
               end) l st
  end.

(** referencer.py:156-204 recurse_type_annotation, on the named type inside the wrappers.
    Fuel: one unit per newly registered input type. *)
Fixpoint ref_input_type (fuel : nat) (s : schema) (n : string) (st : refs) : res refs :=
  match get_type s n with
  | Some (TScalar _) => Ok (register_ref_scalar n st)
  | Some (TEnum _ _) => Ok (register_enum n st)
  | Some (TInput _ fields _) =>
      if mem n (rf_inputs st) then Ok st
      else match fuel with
           | O => rraise OutOfFuelC ""
           | S fuel' => rfold (fun kv st => ref_input_type fuel' s (gty_name (if_type (snd kv))) st)
                              fields (register_input n st)
           end
  | Some _ => rraise ExceptionC "Unknown Type"
  | None => rraise AssertionErrorC n
  end.
Definition recurse_type_annotation_refs (s : schema) (t : gty) (st : refs) : res refs :=
  ref_input_type (length (s_types s)) s (gty_name t) st.

(** [type.fields[...]] where [type] may be anything: AttributeError without fields *)
Definition field_of_any (t : option typedef) (name : string) : res fielddef :=
  match t with
  | Some (TInput _ fs _) =>      (* input object types have fields too *)
      match dget name fs with
      | Some f => Ok (FieldDef (if_type f) [] None None [])
      | None => rraise KeyErrorC name
      end
  | Some td => match type_fields td with
               | Some fs => match dget name fs with Some d => Ok d | None => rraise KeyErrorC name end
               | None => rraise AttributeErrorC "fields"
               end
  | None => rraise AttributeErrorC "fields"
  end.

(** referencer.py:223-250: the root selections of a fragment *)
Definition ref_root_field (s : schema) (t : option typedef) (f : fieldnode) (st : refs) : res refs :=
  if String.eqb (fn_name f) "__typename" then Ok st
  else let? d := field_of_any t (fn_name f) in recurse_find_references s f (fd_type d) st.
Definition ref_fragment (s : schema) (fr : fragment) (st : refs) : res refs :=
  rfold (fun sel st =>
           match sel with
           | SelField f => ref_root_field s (get_type s (fr_on fr)) f st
           | SelInline None _ _ => rraise AttributeErrorC "name"
           | SelInline (Some c) _ l =>
               rfold (fun sub st => match sub with
                                    | SelField f => ref_root_field s (get_type s c) f st
                                    | _ => Ok st
                                    end) l st
           | SelSpread _ _ => Ok st
           end) (fr_sels fr) st.

(** referencer.py:252-270: an operation *)
Definition ref_operation (s : schema) (o : operation) (st : refs) : res refs :=
  let t := match root_type s (op_kind o) with Some n => get_type s n | None => None end in
  let? st1 := rfold (fun v st => recurse_type_annotation_refs s (v_type v) st) (op_vars o) st in
  rfold (fun sel st =>
           match sel with
           | SelField f => ref_root_field s t f st
           | _ => Ok st
           end) (op_sels o) st1.

(** referencer.py:207-272 create_reference_registry_from_documents *)
Definition create_reference_registry (s : schema) (d : document) : res refs :=
  let frs := dvals (dict_of (map (fun f => (fr_name f, f)) (fragments_of d))) in
  let? ops := rmap (fun o => match op_name o with
                             | Some n => Ok (n, o)
                             | None => rraise AttributeErrorC "value"
                             end) (operations_of d) in
  let? st := rfold (ref_fragment s) frs no_refs in
  rfold (ref_operation s) (dvals (dict_of ops)) st.
