(** The positions of an operation that get classes of their own, and when their names differ.
    Independent of the generator. *)
From Verif Require Import Base PyAst Gql Spec_Types Spec_Fields Spec_Selection Spec_Naming.

(** types whose objects are parsed into generated classes *)
Definition composite (s : schema) (n : string) : bool :=
  match get_type s n with
  | Some (TObject _ _ _ _) | Some (TInterface _ _ _) | Some (TUnion _ _) => true
  | _ => false
  end.
(** the selected field, with its named type, if that is a composite type *)
Definition branch (s : schema) (n : string) (g : fieldnode) : list (fieldnode * string) :=
  if String.eqb (fn_name g) "__typename" then []
  else match get_type s n with
       | Some t => match output_fields t with
                   | Some fs => match dget (fn_name g) fs with
                                | Some fd => if composite s (gty_name (fd_type fd)) then [(g, gty_name (fd_type fd))] else []
                                | None => []
                                end
                   | None => []
                   end
       | None => []
       end.
(** the fields selected on type [n], directly or in an inline fragment *)
Definition branches_of (s : schema) (n : string) (x : selection) : list (fieldnode * string) :=
  match x with
  | SelField g => branch s n g
  | SelInline (Some i) _ sub => flat_map (fun y => match y with SelField g => branch s i g | _ => [] end) sub
  | _ => []
  end.
Definition branches (s : schema) (n : string) (sels : list selection) : list (fieldnode * string) :=
  flat_map (branches_of s n) sels.
(** the selection sets below a selection set, with their types *)
Inductive reached (s : schema) : string -> list selection -> string -> list selection -> Prop :=
| re_here : forall n sels, reached s n sels n sels
| re_step : forall n sels g m m' sub, In (g, m) (branches s n sels) -> reached s m (selections g) m' sub ->
    reached s n sels m' sub.

Definition starts_with (p : ascii -> bool) (k : string) : bool := match k with String c _ => p c | EmptyString => false end.
(** Conditions on one selection set: response keys of composite fields differ in more than case,
    start with a letter and are not "base"; no inline fragments on unions; the types that
    implement an interface have capitalised names, none is called "CatchAll" if that is in use. *)
Record apart (s : schema) (catchall : bool) (n : string) (sels : list selection) : Prop := {
  ap_keys : NoDup (map (fun b => str_lower (response_key (fst b))) (branches s n sels));
  ap_names : forall g m, In (g, m) (branches s n sels) ->
    starts_with is_alpha (response_key g) = true /\ str_lower (response_key g) <> "base";
  ap_union : forall d ms, get_type s n = Some (TUnion d ms) -> forall cond ds sub, ~ In (SelInline cond ds sub) sels;
  ap_impls : forall d i fs, get_type s n = Some (TInterface d i fs) -> forall t, In t (implementations s n) ->
    starts_with is_upper t = true /\ (catchall = true -> t <> "CatchAll") }.
Definition all_apart (s : schema) (catchall : bool) (n : string) (sels : list selection) : Prop :=
  forall m sub, reached s n sels m sub -> apart s catchall m sub.
