(** Descriptions, deprecation reasons and defaults of a schema in generated classes
    (website/docs/config.md:94-96, migration-defaults-unset.md:97-109, 195-197).
    Independent of the generator; of Utils only [str_of_pyval], Python's [str], is used. *)
From Verif Require Import Base PyAst Gql Config Stylers Utils.

(** the markers [Marker("text")] of an annotation [Annotated[type, ...]] *)
Definition marks (a : expr) : list (string * string) :=
  match a with
  | ESub (EName "Annotated") (ETuple (_ :: ms)) =>
      flat_map (fun m => match m with ECall (EName f) [EConst (CStr t)] [] => [(f, t)] | _ => [] end) ms
  | _ => []
  end.
(** the class of a marker: the one configured, by its last component *)
Definition marker_class (configured : option string) (own : string) : string :=
  match configured with Some (String x p) => last_comp (String x p) | _ => own end.
(** no marker for a null or absent default *)
Definition default_text (d : option pyval) : option string :=
  match d with Some PNone | None => None | Some v => Some (str_of_pyval v) end.
Definition marked (c : gconfig) (default deprecated : option string) : list (string * string) :=
  match default with Some t => [(marker_class (c_graphql_default_class c) "GraphQLDefault", t)] | None => [] end
  ++ match deprecated with Some t => [(marker_class (c_deprecated_class c) "Deprecated", t)] | None => [] end.
(** the string literal right after a field documents it *)
Definition note (after : list stmt) : option string :=
  match after with SExpr (EConst (CStr t)) :: _ => Some t | _ => None end.
Definition filled (d : option string) : option string := match d with Some (String x t) => Some (String x t) | _ => None end.
Definition line (label : string) (t : option string) : list string := match t with Some x => [label +s+ x] | None => [] end.
(** description, reason and default, a line each *)
Definition lines (description deprecated default : option string) : option string :=
  match line "" (filled description) ++ line "DEPRECATED: " (filled deprecated) ++ line "Default: " default with
  | [] => None
  | l => Some (join nl l)
  end.
(** documentation of a field of an object, interface or response class *)
Definition output_note (c : gconfig) (description deprecated : option string) : option string :=
  if c_document_field_metadata c then lines description deprecated None else filled description.
(** input fields have their description in [Field(description=...)]; reason and default are noted, below the description *)
Definition input_note (c : gconfig) (description deprecated default : option string) : option string :=
  if c_document_field_metadata c
  then match filled deprecated, default with None, None => None | _, _ => lines description deprecated default end
  else None.
Definition field_text (x : option expr) : option string :=
  match x with
  | Some (ECall (EName "Field") [] kws) =>
      match find (fun kw => match fst kw with Some k => String.eqb k "description" | None => false end) kws with
      | Some (_, EConst (CStr t)) => Some t
      | _ => None
      end
  | _ => None
  end.
Definition title_text (d : option string) : string := match filled d with Some t => t | None => "No documentation" end.
(** a class body with a field, its markers and what is noted below it *)
Definition has_field (body : list stmt) (name : string) (ms : list (string * string)) (n : option string) (text : option expr -> Prop) : Prop :=
  exists before a x after, body = before ++ SAnn name a x :: after /\ marks a = ms /\ note after = n /\ text x.
Definition has_value (body : list stmt) (name value : string) (n : option string) : Prop :=
  exists before after, body = before ++ SAssign (EName name) (EConst (CStr value)) :: after /\ note after = n.
