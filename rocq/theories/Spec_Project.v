(** Where the starter files of [turms init] work.  Independent of how they are loaded. *)
From Verif Require Import Base Loaders Spec_Settings.

(** no variable of turms, and none that turms reads all the same *)
Definition quiet (environ : list (string * string)) : Prop :=
  (forall n, turms_variable n -> variable environ n = None) /\ (forall n, In n (unprefixed ++ ["TYPE"; "DISCLAIMER"]) -> variable environ n = None).
(** the components of the starter files can be imported, those for other tools if the tool is installed *)
Definition starter_components : list string :=
  ["turms.plugins.enums.EnumsPlugin"; "turms.plugins.inputs.InputsPlugin"; "turms.plugins.fragments.FragmentsPlugin"; "turms.plugins.operations.OperationsPlugin";
   "turms.plugins.funcs.FuncsPlugin"; "turms.plugins.strawberry.StrawberryPlugin"; "turms.stylers.capitalize.CapitalizeStyler"; "turms.stylers.snake_case.SnakeCaseStyler";
   "turms.processors.disclaimer.DisclaimerProcessor"].
Definition tools : list (string * string) :=
  [("black", "turms.processors.black.BlackProcessor"); ("isort", "turms.processors.isort.IsortProcessor"); ("libcst", "turms.processors.merge.MergeProcessor")].
Definition turms_installed (installed importable : string -> bool) : Prop :=
  (forall t, In t starter_components -> importable t = true) /\ (forall m t, In (m, t) tools -> installed m = true -> importable t = true).
(** the processors of tools that are installed *)
Definition installed_tools (installed : string -> bool) (l : list string) : list string :=
  flat_map (fun m => if installed m then match dget m tools with Some t => [t] | None => [] end else []) l.
