(** Factory functions for input types (website/docs/plugins/inputfuncs.md).  Independent of the generator. *)
From Verif Require Import Base PyAst Gql Config Stylers Registry Run Enums Objects Recurse Fragments Operations Funcs InputFuncs Spec_Naming Spec_Names Spec_Paths Spec_Inputs Spec_Classes.

(** the class of an input type, and the name of its factory: "otherwise turms appends a trailing _ to avoid shadowing the class" *)
Definition input_class (st : list styler) (key : string) : string := style_with sty_input st key.
Definition factory_name (st : list styler) (prepend key : string) : string :=
  let n := prepend +s+ style_with sty_parameter st key in n +s+ (if String.eqb n (input_class st key) then "_" else "").
(** a function that ends by returning the class called with the entries of [data], and says so *)
Definition factory_of (st : list styler) (prepend key : string) (x : stmt) : Prop :=
  exists args body, x = SFunc false (factory_name st prepend key) args (body ++ [SReturn (Some (ECall (EName (input_class st key)) [] [(None, EName "data")]))])
    (Some (EName (input_class st key))) [].
Definition input_keys (s : schema) : list string := map fst (schema_inputs s).
(** one class name for each input type (and each variant of a oneOf) *)
Definition input_classes_apart (st : list styler) (s : schema) : Prop := NoDup (map (input_class st) (input_names s)).
(** the factories of the input types that [chosen] selects, in the order of the schema *)
Definition factories (st : list styler) (s : schema) (prepend : string) (chosen : string -> Prop) (l : list stmt) : Prop :=
  exists f, (forall k, In k (input_keys s) -> (f k = true <-> chosen k)) /\ Forall2 (factory_of st prepend) (filter f (input_keys s)) l.
(** the names of the functions among statements *)
Definition func_names (l : list stmt) : list string := flat_map (fun x => match x with SFunc _ n _ _ _ _ => [n] | _ => [] end) l.
(** the names of the factories are free: none is the name of a class of an input type, none is used twice *)
Definition factories_apart (st : list styler) (s : schema) (prepend : string) : Prop :=
  NoDup (map (factory_name st prepend) (input_keys s))
  /\ forall k k', In k (input_keys s) -> In k' (input_names s) -> factory_name st prepend k <> input_class st k'.
(** the plugins that may stand before and between the two *)
Inductive beside_plugin (c : gconfig) (st : list styler) (s : schema) : plugin -> Prop :=
| BesEnums n pc docs : beside_plugin c st s (Plugin n (enums_plugin c st pc s docs))
| BesObjects n pc : beside_plugin c st s (Plugin n (generate_types c st s pc))
| BesFragments n pc pf add d : beside_plugin c st s (Plugin n (fragments_plugin c st s pc pf add d))
| BesOperations n pc po add doc_of d : beside_plugin c st s (Plugin n (operations_plugin c st s pc po add doc_of d))
| BesFuncs n pc doc_of d : beside_plugin c st s (Plugin n (funcs_plugin c st s pc doc_of d)).
(** inputfuncs.md: "Use a snake_case styler so the factory function name differs from the PascalCase model class" *)
Record snake_factories (st : list styler) (s : schema) (prepend : string) : Prop := {
  sf_shipped : Forall shipped st;
  sf_snake : In snake_styler st \/ In default_styler st;
  sf_prepend : no_upper prepend;
  sf_pascal : forall k, In k (input_names s) -> starts_with is_upper k = true;
  sf_apart : NoDup (map (style_with sty_parameter st) (input_keys s)) }.
