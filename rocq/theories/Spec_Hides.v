(** Which names of the module the fields of a class hide.  Independent of the generator. *)
From Verif Require Import Base PyAst Gql Spec_Types Spec_Names Spec_Scope.

(** The body of a class is run in a namespace of its own: a name is looked up there first, then in the module.  A field
    with a value binds its name there, one without does not; Python evaluates the value first, binds the name, and
    evaluates the annotation last (The Python Language Reference, 7.2.2).
    [hidden b body]: the names looked up by the rest [body] of a class body that are found among the fields [b] bound so
    far, and so are not the ones of the module. *)
Definition found (b l : list string) : list string := filter (fun n => mem n b) l.
(** what a statement of a class body looks up there; the body of a class inside the class has its own namespace *)
Definition looked_up (x : stmt) : list string :=
  match x with
  | SClass _ bases _ decs => flat_map loads bases ++ flat_map loads decs
  | _ => runs x
  end.
Fixpoint hidden (b : list string) (body : list stmt) : list string :=
  match body with
  | [] => []
  | SAnn n a v :: rest =>
      let b' := match v with Some _ => n :: b | None => b end in
      found b (opt_loads v) ++ found b' (loads a) ++ hidden b' rest
  | x :: rest => found b (looked_up x) ++ hidden b rest
  end.
Definition hidden_names (t : list stmt) : list string := flat_map (hidden []) (flat_map class_bodies t).

(** the fields with a value *)
Definition valued (body : list stmt) : list string :=
  flat_map (fun f => match snd f with Some _ => [attribute f] | None => [] end) (class_fields body).
(** no field with a value is called like a name of [E] or one the module binds *)
Definition fields_apart (E : list string) (t : list stmt) : Prop :=
  forall body n, In body (flat_map class_bodies t) -> In n (valued body) -> ~ In n E /\ ~ In n (binds t).
