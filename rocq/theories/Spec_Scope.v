(** Which names running a module looks up, and whether they are bound by then.  Independent of
    the generator. *)
From Verif Require Import Base PyAst Gql Spec_Types Spec_Refs Spec_Inputs.

(** the names evaluated by an expression; the text of a string is not evaluated, the body of a
    lambda not before it is called *)
Fixpoint loads (e : expr) : list string :=
  match e with
  | EName n => [n]
  | EConst _ => []
  | ESub v x => loads v ++ loads x
  | ETuple l | EList l => flat_map loads l
  | EDict items => flat_map (fun kv => loads (fst kv) ++ loads (snd kv)) items
  | ECall f args kws => loads f ++ flat_map loads args ++ flat_map (fun kv => loads (snd kv)) kws
  | EAttr v _ => loads v
  | ECompare l _ r => loads l ++ loads r
  | EAwait e | EYield e => loads e
  | ELambda _ _ => []
  end.
Definition opt_loads (e : option expr) : list string := match e with Some e => loads e | None => [] end.
Definition args_loads (a : pyargs) : list string :=
  flat_map (fun p => opt_loads (pa_ann p)) (a_args a) ++ flat_map loads (a_defaults a).

(** the names looked up in the module (or the builtins) when a statement of the module is run.
    A class statement runs its body; everything looked up there has to be bound in the module
    as well.  A function statement evaluates decorators, defaults and annotations only. *)
Fixpoint runs (s : stmt) : list string :=
  match s with
  | SAnn _ a v => loads a ++ opt_loads v
  | SAssign (EName _) v => loads v
  | SAssign t v => loads t ++ loads v
  | SExpr e => loads e
  | SClass _ bases body decs => flat_map loads bases ++ flat_map loads decs ++ flat_map runs body
  | SFunc _ _ args _ ret decs => args_loads args ++ opt_loads ret ++ flat_map loads decs
  | SReturn e => opt_loads e
  | SIf test body => loads test ++ flat_map runs body
  | SFor _ _ it body => loads it ++ flat_map runs body
  | SRaise e => loads e
  | _ => []
  end.
Definition binds (l : list stmt) : list string := flat_map bound_by l.

(** [scoped E l]: with the names [E] bound, the statements can be run in order without looking
    up an unbound name *)
Fixpoint scoped (E : string -> Prop) (l : list stmt) : Prop :=
  match l with
  | [] => True
  | s :: rest => (forall n, In n (runs s) -> E n) /\ scoped (fun n => E n \/ In n (bound_by s)) rest
  end.

(** the class names quoted in a type annotation.  The arguments of [Literal] are values; of
    [Annotated] only the first argument is a type. *)
Fixpoint quoted (e : expr) : list string :=
  match e with
  | EConst (CStr n) => [n]
  | ESub (EName f) x =>
      if String.eqb f "Literal" then []
      else if String.eqb f "Annotated"
           then match x with ETuple (a :: _) => quoted a | _ => [] end
           else quoted x
  | ESub _ x => quoted x
  | ETuple l | EList l => flat_map quoted l
  | _ => []
  end.
Definition class_quotes (body : list stmt) : list string :=
  flat_map (fun fld => quoted (snd (fst fld))) (class_fields body).

(** the statement that makes pydantic resolve the quoted names of a class *)
Definition rebuilds (s : stmt) (n : string) : Prop :=
  s = SExpr (ECall (EAttr (EName n) "model_rebuild") [] [])
  \/ s = SExpr (ECall (EAttr (EName n) "update_forward_refs") [] []).

(** a class that quotes names is rebuilt further down, when the quoted names are bound *)
Definition quotes_resolved (E : string -> Prop) (t : list stmt) : Prop :=
  forall pre name bases body decs post n,
    t = pre ++ SClass name bases body decs :: post -> In n (class_quotes body) ->
    exists mid call rest, post = mid ++ call :: rest /\ rebuilds call name
      /\ (E n \/ In n (binds (pre ++ SClass name bases body decs :: mid))).
(** only classes defined further up are rebuilt *)
Definition rebuilds_defined (t : list stmt) : Prop :=
  forall pre call post n, t = pre ++ call :: post -> rebuilds call n ->
    exists bases body decs, In (SClass n bases body decs) pre.

(** no input type is left out although another one has a field of it: none is skipped for its
    leading underscore, and if unreferenced types are skipped, the fields of the members of
    needed unions are needed as well *)
Definition inputs_available (skip_underscore skip_unreferenced : bool) (s : schema) (documents : res document) : Prop :=
  (skip_underscore = true -> forall n, is_input s n -> startswith "_" n = false)
  /\ (skip_unreferenced = true -> forall d, documents = Ok d -> unique_names d /\
        forall key t u dn k kv, In (key, t) (schema_inputs s) -> belongs (id_dirs t) u dn k -> needs s (variable_type d) u ->
          In kv (id_fields t) -> is_input s (gty_name (if_type (snd kv))) -> needs s (variable_type d) (gty_name (if_type (snd kv)))).
