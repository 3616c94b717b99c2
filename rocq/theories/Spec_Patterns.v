(** Which documents a plugin reads (website/docs/plugins/operations.md, fragments.md, config.md).  Independent of the generator. *)
From Verif Require Import Base PyAst Gql Config Stylers Loaders Spec_Settings.

Definition text_at (d : dict json) (k : string) : option string := match dget k d with Some (JString t) => Some t | _ => None end.
Definition object_at (d : dict json) (k : string) : dict json := match dget k d with Some (JObject x) => x | _ => [] end.
Definition turms_of (p : dict json) : dict json := object_at (object_at p "extensions") "turms".
(** the first pattern that is there and not empty *)
Fixpoint first_pattern (l : list (option string)) : option string :=
  match l with
  | [] => None
  | Some (String a b) :: _ => Some (String a b)
  | _ :: r => first_pattern r
  end.
(** the documents of a project: those of the extension, else those of the project *)
Definition project_documents (p : dict json) : option string :=
  match first_pattern [text_at (turms_of p) "documents"] with Some g => Some g | None => text_at p "documents" end.
(** plugins with a pattern of their own: the prefix of their variables and the option *)
Definition glob_option (t : string) : option (string * string) :=
  if String.eqb t "turms.plugins.fragments.FragmentsPlugin" then Some ("TURMS_PLUGINS_FRAGMENTS_", "fragments_glob")
  else if String.eqb t "turms.plugins.operations.OperationsPlugin" then Some ("TURMS_PLUGINS_OPERATIONS_", "operations_glob")
  else if String.eqb t "turms.plugins.funcs.FuncsPlugin" then Some ("TURMS_PLUGINS_FUNCS_", "funcs_glob")
  else None.
(** a pattern in the entry, or else in the variable *)
Definition own_pattern (environ : list (string * string)) (entry : dict json) (prefix o : string) : option string :=
  match dget o entry with Some _ => text_at entry o | None => variable environ (prefix +s+ o) end.
(** the pattern a plugin reads *)
Definition plugin_pattern (environ : list (string * string)) (p entry : dict json) : option string :=
  match text_at entry "type" with
  | Some t => match glob_option t with
              | Some (prefix, o) => first_pattern [own_pattern environ entry prefix o; project_documents p]
              | None => project_documents p
              end
  | None => None
  end.
(** the entries of the plugins of a project *)
Definition plugin_entries (p : dict json) : list (dict json) :=
  match dget "plugins" (turms_of p) with Some (JArray l) => flat_map (fun v => match v with JObject d => [d] | _ => [] end) l | _ => [] end.
(** what a loaded project is like: documents are a text or nothing, no key occurs twice *)
Definition loaded_project (p : dict json) : Prop :=
  (forall v, dget "documents" p = Some v -> v = JNull \/ exists t, v = JString t) /\ forall entry, In entry (plugin_entries p) -> uniq (JObject entry).
