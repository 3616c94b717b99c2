(** utils.py:532-587: operation documents with the definitions of the fragments they use.
    No proofs in this file. *)
From Verif Require Import Base PyAst Gql Config Stylers Registry Utils.

(** the longest prefix in [a-zA-Z]* *)
Fixpoint letters (s : string) : string :=
  match s with
  | String a r => if is_alpha a then String a (letters r) else ""
  | EmptyString => ""
  end.
(** utils.py:532 [fragment_searcher.findall]: what follows each "...".  The search resumes
    after the letters matched, which contain no dot, so resuming before them finds the same. *)
Fixpoint findall (s : string) : list string :=
  match s with
  | String a r =>
      match r with
      | String b (String d t) => if is_dot a && is_dot b && is_dot d then letters t :: findall t else findall r
      | _ => findall r
      end
  | EmptyString => []
  end.

Section Inline.
(** utils.py:535-553 auto_add_typename_field_to_fragment_str: graphql-core's parse and
    print_ast around the addition of [__typename] *)
Variable add_typename_str : string -> res string.

(** utils.py:562-565 *)
Definition new_fragments (pattern : string) (taken : list string) : list string :=
  str_sort (filter (fun f => negb (mem f taken) && negb (String.eqb f "")) (nodup string_dec (findall pattern))).
(** utils.py:556-587 replace_iteratively.  [fuel] bounds the recursion depth; the proofs show
    that the bound used below is never reached. *)
Fixpoint replace_fuel (fuel : nat) (docs : dict string) (pattern : string) (taken : list string) : res string :=
  match fuel with
  | 0 => rraise OutOfFuelC "replace_iteratively"
  | S fuel =>
      match new_fragments pattern taken with
      | [] => Ok pattern
      | new =>
          let? parts := rmap (fun k => match dget k docs with
                                       | Some d => add_typename_str d
                                       | None => rraise FragmentNotFoundErrorC "Could not find in Fragment Map"
                                       end) new in
          replace_fuel fuel docs (join (nl +s+ nl) (parts ++ [pattern])) (new ++ taken)
      end
  end.
Definition replace_iteratively (pattern : string) : M string :=
  let* docs := gets r_fragdocs in
  lift (replace_fuel (S (List.length docs)) docs pattern []).
End Inline.
