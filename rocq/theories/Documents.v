(** Loading documents (turms/utils.py:452-529) and ordering fragments
    (turms/plugins/fragments.py:43-126, 614-632).  No proofs in this file. *)
From Verif Require Import Base Gql Config.

(** ** utils.py:452-482 add_typename_recursively
    The Python code updates the nodes in place; here the new selections are returned.
    Inline fragments are neither extended nor entered. *)
Definition typename_node : fieldnode := FieldNode None "__typename" [] [] None.
Fixpoint add_typename_sel (s : selection) : selection :=
  match s with
  | SelField f => SelField (add_typename_field f)
  | SelSpread _ _ => s
  | SelInline _ _ _ => s
  end
with add_typename_field (f : fieldnode) : fieldnode :=
  match f with
  | FieldNode a n args d (Some l) =>
      FieldNode a n args d
        (Some (map add_typename_sel l ++
               (if existsb is_typename_field l then [] else [SelField typename_node])))
  | FieldNode a n args d None => FieldNode a n args d None
  end.
Definition add_typename_recursively (skip : bool) (l : list selection) : list selection :=
  map add_typename_sel l ++
  (if existsb is_typename_field l || skip then [] else [SelField typename_node]).

(** ** utils.py:485-493 auto_add_typename_field_to_all_objects *)
Definition auto_add_def (d : definition) : definition :=
  match d with
  | DOp o => DOp (Operation (op_kind o) (op_name o) (op_vars o) (op_dirs o)
                            (add_typename_recursively true (op_sels o)))
  | DFrag f => DFrag (Fragment (fr_name f) (fr_on f) (fr_dirs f)
                               (add_typename_recursively false (fr_sels f)))
  end.
Definition auto_add_typename_field_to_all_objects (d : document) : document := map auto_add_def d.

(** ** utils.py:496-529 parse_documents.
    [glob], [read] stand for the file system, [parse] and [validate] for graphql-core. *)
Section ParseDocuments.
Variable glob : string -> list string.
Variable read : string -> res string.
Variable parse : string -> res document.
Variable validate : list string -> document -> list string.   (* rules -> errors *)

Definition parse_documents (c : gconfig) (scan_glob : option string) : res document :=
  if negb (truthy scan_glob) then rraise GenerationErrorC "Couldnt find documents glob"
  else
    let files := str_sort (glob (opt_str scan_glob)) in
    let? contents := rmap read files in
    let dsl := join "" contents in
    if String.eqb dsl "" then rraise NoDocumentsFoundErrorC "did not find documents"
    else
      let? nodes := parse dsl in
      match validate (get_document_rules c) nodes with
      | [] => Ok (auto_add_typename_field_to_all_objects nodes)
      | _ :: _ => rraise InvalidDocumentsC "Invalid Documents"
      end.
End ParseDocuments.

(** ** fragments.py:43-75 find_fragment_dependencies_recursive
    [frs] are the fragment definitions, [v] is the set [visited].  Returns the set of
    dependencies and the updated [visited].  Inline fragments are not entered. *)
Definition union_set (a b : list string) : list string := fold_left (fun acc x => sadd x acc) b a.
Definition deps_list (g : selection -> list string -> res (list string * list string)) :=
  fix gl (l : list selection) (v : list string) : res (list string * list string) :=
    match l with
    | [] => Ok ([], v)
    | s :: r => let? (d1, v1) := g s v in
                let? (d2, v2) := gl r v1 in
                Ok (union_set d1 d2, v2)
    end.
Fixpoint find_deps (fuel : nat) (frs : dict (list selection)) {struct fuel}
  : selection -> list string -> res (list string * list string) :=
  fix gsel (s : selection) (v : list string) {struct s} : res (list string * list string) :=
    match s with
    | SelSpread n _ =>
        match dget n frs with
        | Some sels =>
            if mem n v then Ok ([n], v)
            else match fuel with
                 | O => rraise OutOfFuelC ""
                 | S fuel' =>
                     let? (d, v') := deps_list (find_deps fuel' frs) sels (sadd n v) in
                     Ok (union_set [n] d, v')
                 end
        | None => Ok ([n], v)
        end
    | SelField (FieldNode _ _ _ _ (Some l)) => deps_list gsel l v
    | SelField (FieldNode _ _ _ _ None) => Ok ([], v)
    | SelInline _ _ _ => Ok ([], v)
    end.

(** fragments.py:82-86: later definitions overwrite earlier ones of the same name *)
Definition fragment_definitions (d : document) : dict fragment :=
  dict_of (map (fun f => (fr_name f, f)) (fragments_of d)).

(** ** fragments.py:78-98 build_recursive_dependency_graph *)
Definition build_recursive_dependency_graph (d : document) : res (dict (list string)) :=
  let frs := map (fun kv => (fst kv, fr_sels (snd kv))) (fragment_definitions d) in
  rmap (fun kv => let? (ds, _) := deps_list (find_deps (length frs) frs) (snd kv) [] in
                  Ok (fst kv, ds)) frs.

(** ** fragments.py:101-126 topological_sort *)
Definition remove_dep (x : string) (ds : list string) : list string :=
  filter (fun y => negb (String.eqb x y)) ds.
Record topo : Type := Topo { t_graph : dict (list string); t_queue : list string; t_resolved : list string }.
(** the inner loop: fragments.py:113-119 *)
Definition relax1 (fragment : string) (st : topo) (kv : string * list string) : topo :=
  let '(frag, ds) := kv in
  if mem fragment ds then
    let ds' := remove_dep fragment ds in
    match ds' with
    | [] => if mem frag (t_resolved st)
            then Topo (t_graph st ++ [(frag, ds')]) (t_queue st) (t_resolved st)
            else Topo (t_graph st ++ [(frag, ds')]) (t_queue st ++ [frag]) (sadd frag (t_resolved st))
    | _ => Topo (t_graph st ++ [(frag, ds')]) (t_queue st) (t_resolved st)
    end
  else Topo (t_graph st ++ [(frag, ds)]) (t_queue st) (t_resolved st).
Definition relax (fragment : string) (g : dict (list string)) (queue resolved : list string) : topo :=
  fold_left (relax1 fragment) g (Topo [] queue resolved).
Fixpoint topo_loop (fuel : nat) (g : dict (list string)) (queue resolved sorted : list string)
  : res (list string) :=
  match queue with
  | [] => Ok sorted
  | f :: q =>
      match fuel with
      | O => rraise OutOfFuelC ""
      | S fuel' =>
          let st := relax f g q resolved in
          topo_loop fuel' (t_graph st) (t_queue st) (t_resolved st) (sorted ++ [f])
      end
  end.
Definition topological_sort (g : dict (list string)) : res (list string) :=
  let q := map fst (filter (fun kv => match snd kv with [] => true | _ => false end) g) in
  let? sorted := topo_loop (length g) g q q [] in
  Ok (sorted ++ filter (fun k => negb (mem k sorted)) (dkeys g)).

(** ** fragments.py:614-632 reorder_definitions *)
Definition reorder_definitions (d : document) (sorted : list string) : list fragment :=
  let frs := fragment_definitions d in
  flat_map (fun n => match dget n frs with Some f => [f] | None => [] end) sorted.

(** fragments.py:666-675: the order in which the plugin generates fragments *)
Definition ordered_fragments (d : document) : res (list fragment) :=
  let? g := build_recursive_dependency_graph d in
  let? sorted := topological_sort g in
  Ok (reorder_definitions d sorted).
