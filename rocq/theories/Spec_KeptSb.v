(** Descriptions and deprecation reasons in a strawberry module: strawberry takes them from the
    keywords of its functions, not from docstrings.  Independent of the generator. *)
From Verif Require Import Base PyAst Gql Config Stylers Spec_Kept.

Definition strawberry_fields : list string := ["strawberry.field"; "strawberry.mutation"; "strawberry.subscription"].
Definition member_name (m : stmt) : string := match m with SAnn n _ _ | SFunc _ n _ _ _ _ => n | _ => "" end.
(** the keywords of the call that describes a member of a class *)
Definition keywords_in (fs : list string) (e : expr) : list (option string * expr) :=
  match e with ECall (EName f) _ kws => if mem f fs then kws else [] | _ => [] end.
Definition keywords (m : stmt) : list (option string * expr) :=
  match m with
  | SAnn _ _ (Some e) => keywords_in strawberry_fields e
  | SFunc _ _ _ _ _ [e] => keywords_in strawberry_fields e
  | _ => []
  end.
(** all texts given for a keyword *)
Definition given (n : string) (kws : list (option string * expr)) : list string :=
  flat_map (fun kv => match kv with (Some k, EConst (CStr t)) => if String.eqb k n then [t] else [] | _ => [] end) kws.
Definition at_most (t : option string) : list string := match filled t with Some x => [x] | None => [] end.
(** a member with the description and the reason, once each *)
Definition keeps_texts (name : string) (description reason : option string) (m : stmt) : Prop :=
  member_name m = name /\ given "description" (keywords m) = at_most description /\ given "deprecation_reason" (keywords m) = at_most reason.
