(** Base classes of generated classes (website/docs/config.md, website/docs/plugins).  Independent of the generator. *)
From Verif Require Import Base PyAst Gql Config Stylers Loaders Spec_Imports Spec_Settings.

(** classes by their paths, as base classes *)
Definition as_bases (l : list string) : list expr := map (fun b => EName (last_comp b)) l.
(** the last base classes of a class *)
Definition ends_in (l : list string) (m : stmt) : Prop := match m with SClass _ b _ _ => exists pre, b = pre ++ as_bases l | _ => True end.
Definition class_named (n : string) (m : stmt) : Prop := exists b body decs, m = SClass n b body decs.
(** the class [n] exists, with these base classes, the general ones last *)
Definition based_on (tree : list stmt) (n : string) (own general : list string) : Prop :=
  exists pre mid body decs, In (SClass n (pre ++ as_bases own ++ mid ++ as_bases general) body decs) tree.
(** what a module needs to use these classes: builtin types, or imports the registry collects *)
Definition provided (imports : list string) (l : list string) : Prop := forall b, In b l -> In b simple_types \/ In b imports.
(** operations.md: "If not specified query_bases, mutation_bases and subscription_bases will resort to the basic configuration object_bases" *)
Definition or_general (general own : list string) : list string := match own with [] => general | _ => own end.
Definition bases_option (k : optype) : string := match k with OpQuery => "query_bases" | OpMutation => "mutation_bases" | OpSubscription => "subscription_bases" end.
(** the entry of a component gives the list [l] for the option [o], or nothing gives it and [l] is the default *)
Definition listed (environ : list (string * string)) (entry : dict json) (prefix o : string) (default l : list string) : Prop :=
  dget o entry = Some (JArray (map JString l)) \/ (dget o entry = None /\ variable environ (prefix +s+ o) = None /\ l = default).
(** [b] is among the general base classes, and among those that replace them *)
Definition general_base (c : gconfig) (own : list (list string)) (b : string) : Prop :=
  In b (c_object_bases c) /\ forall l, In l (match c_interface_bases c with Some l => l | None => [] end :: own) -> l = [] \/ In b l.
